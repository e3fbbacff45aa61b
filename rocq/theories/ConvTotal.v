(** The conversion of edit operations to patches (diff.rs:1537-1853) never
    panics and never loops, including the case where a node is moved below
    itself.  Used for C31. *)
From stdpp Require Import list_numbers.
From Verif Require Import Base Arena Matching Chawathe Dom HtmlDiff
  ArenaProofs ArenaOps TreeProofs DtreeProofs MatchProofs ScriptProofs DomTree ApplyProofs
  ShadowProofs ConvProofs RoundProofs AssembleProofs.

(** ** Shadow trees between two operations *)

(** [N] is the super root; the slots come after it; slot 0 holds node 0; every
    other node but possibly [o] hangs below the super root. *)
Record sinv (N : nat) (o : option nat) (s : shadow) : Prop := {
  si_wf : shwf s;
  si_super : sh_super s = N;
  si_marks : forall k, k ∈ children (sh_arena s) N -> N < k;
  si_slot0 : exists z, children (sh_arena s) N !! 0 = Some z /\ children (sh_arena s) z = [0];
  si_conn : forall x, x < length (sh_arena s) -> parent (sh_arena s) x = None -> x = N \/ o = Some x
}.

(** A node that is neither the super root nor a slot. *)
Definition inner (N : nat) (s : shadow) (x : nat) : Prop :=
  x < length (sh_arena s) /\ x <> N /\ x ∉ children (sh_arena s) N.

(** Later shadow trees keep inner nodes inner. *)
Definition later (N : nat) (s s' : shadow) : Prop :=
  length (sh_arena s) <= length (sh_arena s') /\ (forall x, inner N s x -> inner N s' x).

Lemma later_refl N s : later N s s.
Proof. split; [lia|done]. Qed.
Lemma later_trans N s s' s'' : later N s s' -> later N s' s'' -> later N s s''.
Proof. intros [L1 I1] [L2 I2]. split; [lia|auto]. Qed.

Lemma inner_parent N o s x : sinv N o s -> inner N s x -> parent (sh_arena s) x <> Some (sh_super s).
Proof.
  intros SI (_ & _ & Hn) E. rewrite (si_super _ _ _ SI) in E.
  apply Hn. by apply (wf_pc _ (sw_wf _ (si_wf _ _ _ SI))).
Qed.

Lemma slot0_parent N o s : sinv N o s ->
  exists z, children (sh_arena s) N !! 0 = Some z /\ children (sh_arena s) z = [0] /\
    parent (sh_arena s) 0 = Some z /\ parent (sh_arena s) z = Some N /\ z <> N.
Proof.
  intros SI. destruct (si_slot0 _ _ _ SI) as (z & Hz & Hc). exists z.
  pose proof (sw_wf _ (si_wf _ _ _ SI)) as W.
  split; [done|]. split; [done|]. split.
  - apply (wf_pc _ W). rewrite Hc. left.
  - assert (z ∈ children (sh_arena s) N) as Hin by (by eapply elem_of_list_lookup_2).
    split; [by apply (wf_pc _ W)|]. pose proof (si_marks _ _ _ SI z Hin). lia.
Qed.

Lemma inner_0 N o s : sinv N o s -> 0 < N -> inner N s 0.
Proof.
  intros SI HN. destruct (slot0_parent _ _ _ SI) as (z & _ & Hc & Hp & _).
  split; [by eapply parent_lt|]. split; [lia|]. intros Hin. pose proof (si_marks _ _ _ SI _ Hin). lia.
Qed.

Lemma compute_path_total s n : wf (sh_arena s) -> exists q, compute_path s n = Val q.
Proof.
  intros W. unfold compute_path. destruct (wf_chain _ W n) as (l & Hl).
  pose proof (chain_length _ _ _ W Hl) as HL. unfold chain_fuel.
  assert (length l < S (length (sh_arena s))) as Hf by lia. clear HL.
  generalize (@nil nat). revert Hf. generalize (S (length (sh_arena s))).
  induction Hl as [i Hi|i p l Hi Hl IH]; intros f Hf acc; (destruct f as [|f]; [simpl in Hf; lia|]);
    cbn [path_loop]; rewrite Hi; [by eexists|].
  destruct (match parent (sh_arena s) p with Some g => Nat.eqb g (sh_super s) | None => false end);
    [by eexists|]. apply IH. simpl in Hf. lia.
Qed.

Lemma ref_total s n pos : wf (sh_arena s) -> exists q, ref_with_position s n pos = Val q.
Proof.
  intros W. unfold ref_with_position. destruct (compute_path_total s n W) as (q & ->). by eexists.
Qed.

(** Insertion of an orphan below an inner node. *)
Lemma sh_insert_total N s p pos n :
  sinv N (Some n) s -> inner N s p -> n < length (sh_arena s) -> n <> N ->
  parent (sh_arena s) n = None -> ~ above (sh_arena s) n p ->
  exists s' k, sh_insert s p pos n = Val (s', k) /\ sinv N None s' /\ later N s s'.
Proof.
  intros SI IP Hn HnN Hpn Hab. pose proof (si_wf _ _ _ SI) as SW. pose proof (sw_wf _ SW) as W.
  pose proof (si_super _ _ _ SI) as ES. pose proof (sw_lt _ SW) as LT. rewrite ES in LT.
  destruct IP as (Lp & HpN & HpS).
  destruct (slot0_parent _ _ _ SI) as (z & Hz & Hzc & H0p & Hzp & HzN).
  assert (z <> p) as Hzp'. { intros ->. apply HpS. by eapply elem_of_list_lookup_2. }
  assert (z < length (sh_arena s)) as Hzl by (by eapply parent_lt).
  destruct (children (sh_arena s) p !! pos) as [occ|] eqn:Eo.
  - destruct (sh_insert_took s p pos n occ) as (s' & E & TK); try done; try congruence.
    exists s', (Some (sh_next s)). split; [done|].
    pose proof (tk_len _ _ _ _ _ _ TK) as TL. pose proof (tk_children _ _ _ _ _ _ TK) as TC.
    pose proof (tk_parent _ _ _ _ _ _ TK) as TP. rewrite ES in TC, TP.
    assert (children (sh_arena s') N = children (sh_arena s) N ++ [length (sh_arena s)]) as EN.
    { by rewrite TC, Nat.eqb_refl. }
    split; [split|split].
    + apply TK.
    + rewrite (tk_super _ _ _ _ _ _ TK). done.
    + intros k. rewrite EN. rewrite elem_of_app, elem_of_list_singleton. intros [Hk| ->]; [|lia].
      by apply (si_marks _ _ _ SI).
    + exists z. rewrite EN. split.
      * rewrite lookup_app_l; [done|]. by eapply lookup_lt_Some.
      * rewrite TC. rewrite (proj2 (Nat.eqb_neq z N)) by done.
        rewrite (proj2 (Nat.eqb_neq z (length (sh_arena s)))) by lia.
        rewrite (proj2 (Nat.eqb_neq z p)) by done. done.
    + intros x Hx. rewrite TP. destruct (Nat.eqb_spec x occ); [done|].
      destruct (Nat.eqb_spec x (length (sh_arena s))); [done|].
      destruct (Nat.eqb_spec x n); [done|]. intros Hp0. left.
      destruct (si_conn _ _ _ SI x) as [?|[= ?]]; try done; lia.
    + lia.
    + intros x (Lx & HxN & HxS). split; [lia|]. split; [done|]. rewrite EN.
      rewrite elem_of_app, elem_of_list_singleton. intros [?|?]; [done|lia].
  - destruct (sh_insert_grew s p pos n) as (s' & E & GW); try done; try congruence.
    exists s', None. split; [done|].
    pose proof (gw_len _ _ _ _ _ GW) as TL. pose proof (gw_children _ _ _ _ _ GW) as TC.
    pose proof (gw_parent _ _ _ _ _ GW) as TP.
    assert (children (sh_arena s') N = children (sh_arena s) N) as EN.
    { rewrite TC. by rewrite (proj2 (Nat.eqb_neq N p)) by done. }
    split; [split|split].
    + apply GW.
    + rewrite (gw_super _ _ _ _ _ GW). done.
    + intros k. rewrite EN. apply (si_marks _ _ _ SI).
    + exists z. rewrite EN. split; [done|]. rewrite TC. by rewrite (proj2 (Nat.eqb_neq z p)) by done.
    + intros x Hx. rewrite TP. destruct (Nat.eqb_spec x n); [done|].
      destruct (Nat.leb_spec (length (sh_arena s)) x); simpl.
      * destruct (Nat.ltb_spec x (length (sh_arena s) + (pos - length (children (sh_arena s) p))));
          [done|lia].
      * intros Hp0. left. destruct (si_conn _ _ _ SI x) as [?|[= ?]]; try done; lia.
    + lia.
    + intros x (Lx & HxN & HxS). split; [lia|]. split; [done|]. by rewrite EN.
Qed.

(** Taking an inner node out, leaving a placeholder. *)
Lemma placeholder_total N s n :
  sinv N None s -> inner N s n -> n <> 0 ->
  exists s', detach_with_placeholder s n = Val s' /\ later N s s' /\ sinv N (Some n) s' /\
    replaced (sh_arena s) (sh_arena s') n (mkTD KText [] None).
Proof.
  intros SI IN Hn0. pose proof (si_wf _ _ _ SI) as SW. pose proof (sw_wf _ SW) as W.
  pose proof (si_super _ _ _ SI) as ES. pose proof (sw_lt _ SW) as LT. rewrite ES in LT.
  destruct (detach_with_placeholder_full s n) as (s' & E & SW' & ES' & RP); try done.
  { apply IN. } { rewrite ES. apply IN. } { by eapply inner_parent. }
  exists s'. split; [done|]. destruct (slot0_parent _ _ _ SI) as (z & Hz & Hzc & H0p & Hzp & HzN).
  assert (z < length (sh_arena s)) as Hzl by (by eapply parent_lt).
  assert (children (sh_arena s') N = children (sh_arena s) N) as EN.
  { apply (rp_children_other _ _ _ _ RP); [lia|]. rewrite <- ES. by eapply inner_parent. }
  pose proof (rp_len _ _ _ _ RP) as RL.
  split; [split|split; [split|done]].
  - lia.
  - intros x (Lx & HxN & HxS). split; [lia|]. split; [done|]. by rewrite EN.
  - done.
  - congruence.
  - intros k. rewrite EN. apply (si_marks _ _ _ SI).
  - exists z. rewrite EN. split; [done|]. rewrite (rp_children_other _ _ _ _ RP); [done|lia|].
    intros Hp. apply (wf_pc _ W) in Hp. rewrite Hzc in Hp. apply elem_of_list_singleton in Hp. done.
  - intros x Hx. destruct (decide (x = length (sh_arena s))) as [->|Hne].
    + rewrite (rp_new_parent _ _ _ _ RP). intros Hp. exfalso.
      destruct (si_conn _ _ _ SI n) as [?|?]; try done; [apply IN|]. by destruct IN as (_ & ? & _).
    + rewrite (rp_parent _ _ _ _ RP) by done. destruct (Nat.eqb_spec x n) as [->|]; [by right|].
      intros Hp. left. destruct (si_conn _ _ _ SI x) as [?|?]; try done. lia.
Qed.

Lemma out_of_place_total N s n :
  sinv N None s -> inner N s n -> n <> 0 ->
  exists s', out_of_place s n = Val s' /\ sinv N (Some n) s' /\ later N s s' /\
    parent (sh_arena s') n = None /\
    (forall x, x < length (sh_arena s) -> parent (sh_arena s') x = if Nat.eqb x n then None else parent (sh_arena s) x).
Proof.
  intros SI IN Hn0. pose proof (si_wf _ _ _ SI) as SW. pose proof (sw_wf _ SW) as W.
  pose proof (si_super _ _ _ SI) as ES. pose proof (sw_lt _ SW) as LT. rewrite ES in LT.
  unfold out_of_place.
  destruct (match parent (sh_arena s) n with Some q => _ | None => false end) eqn:Er.
  - destruct (detach_sh_full s n SW) as (SW' & UL).
    { rewrite ES. apply IN. } { by eapply inner_parent. }
    eexists. split; [done|]. cbn [sh_arena sh_with sh_super] in *.
    assert (children (detach (sh_arena s) n) N = children (sh_arena s) N) as EN.
    { rewrite (ul_children _ _ _ UL). apply remove_id_notin. apply IN. }
    pose proof (ul_len _ _ _ UL) as HL.
    split; [split|split; [split|split]]; cbn [sh_arena sh_with sh_super].
    + done.
    + done.
    + intros k. rewrite EN. apply (si_marks _ _ _ SI).
    + destruct (si_slot0 _ _ _ SI) as (z & Hz & Hzc). exists z. rewrite EN. split; [done|].
      rewrite (ul_children _ _ _ UL), Hzc. cbn [remove_id]. by rewrite (proj2 (Nat.eqb_neq 0 n)) by lia.
    + intros x Hx. rewrite (ul_parent _ _ _ UL). destruct (Nat.eqb_spec x n) as [->|]; [by right|].
      intros Hp. left. destruct (si_conn _ _ _ SI x) as [?|?]; try done. lia.
    + lia.
    + intros x (Lx & HxN & HxS). cbn [sh_arena sh_with]. split; cbn [sh_arena sh_with]; [lia|]. split; [done|]. by rewrite EN.
    + rewrite (ul_parent _ _ _ UL). by rewrite Nat.eqb_refl.
    + intros x Hx. by rewrite (ul_parent _ _ _ UL).
  - destruct (placeholder_total N s n SI IN Hn0) as (s' & E & LA & SI' & RP).
    exists s'. split; [done|]. split; [done|]. split; [done|].
    assert (n < length (sh_arena s)) as Ln by apply IN.
    split.
    + rewrite (rp_parent _ _ _ _ RP) by lia. by rewrite Nat.eqb_refl.
    + intros x Hx. rewrite (rp_parent _ _ _ _ RP) by lia. done.
Qed.

(** If the parents change only at [n], which becomes an orphan, [n] is above no more. *)
Lemma not_above_cut {D} (a a' : arena D) n p :
  wf a -> p < length a -> (forall x, x < length a -> parent a' x = if Nat.eqb x n then None else parent a x) ->
  ~ above a n p -> ~ above a' n p.
Proof.
  intros W Hp HP Hn. destruct (wf_chain _ W p) as (l & Hl).
  destruct (not_above_chain _ _ _ _ Hn Hl) as [H1 H2].
  intros (l' & Hl' & Hin).
  assert (chain a' p l) as Hl2.
  { eapply chain_agree; [exact Hl|]. intros x Hx. rewrite HP.
    - destruct (Nat.eqb_spec x n) as [->|]; [|done]. destruct Hx as [?|?]; [congruence|done].
    - destruct Hx as [->|Hx]; [done|]. by eapply chain_lt. }
  rewrite (chain_det _ _ _ _ Hl' Hl2) in Hin. destruct Hin as [?|?]; [congruence|done].
Qed.

Lemma is_ancestor_not_above {D} (a : arena D) x y :
  wf a -> x <> y -> (is_ancestor a x y = Some false /\ ~ above a x y) \/
                    (is_ancestor a x y = Some true /\ above a x y).
Proof.
  intros W Hne. destruct (wf_chain _ W y) as (l & Hl). rewrite (is_ancestor_spec _ _ _ _ W Hl).
  destruct (existsb (Nat.eqb x) l) eqn:E.
  - right. split; [done|]. exists l. split; [done|]. right. apply existsb_exists in E as (z & Hz & E).
    apply Nat.eqb_eq in E as ->. by apply elem_of_list_In.
  - left. split; [done|]. intros (l' & Hl' & Hin). rewrite (chain_det _ _ _ _ Hl' Hl) in Hin.
    destruct Hin as [?|Hin]; [congruence|].
    assert (existsb (Nat.eqb x) l = true); [|congruence].
    apply existsb_exists. exists x. split; [by apply elem_of_list_In|apply Nat.eqb_refl].
Qed.

Lemma sh_move_total N s n p pos :
  sinv N None s -> inner N s n -> n <> 0 -> inner N s p -> n <> p -> ~ above (sh_arena s) n p ->
  exists s' k, sh_move s n p pos = Val (s', k) /\ sinv N None s' /\ later N s s'.
Proof.
  intros SI IN Hn0 IP Hnp Hab. pose proof (sw_wf _ (si_wf _ _ _ SI)) as W.
  destruct (out_of_place_total N s n SI IN Hn0) as (s1 & E1 & SI1 & LA1 & Hpn & HP).
  pose proof (sw_wf _ (si_wf _ _ _ SI1)) as W1.
  assert (inner N s1 p) as IP1 by (by apply LA1).
  assert (inner N s1 n) as IN1 by (by apply LA1).
  assert (sh_is_ancestor s n p = Val false) as EA.
  { unfold sh_is_ancestor. by destruct (is_ancestor_not_above (sh_arena s) n p W Hnp) as [[-> _]|[_ ?]]. }
  rewrite (sh_move_insert s n p pos s1 EA E1 W1 (proj1 IP1) (proj1 IN1) Hpn).
  destruct (sh_insert_total N s1 p pos n) as (s' & k & E & SI' & LA'); try done; try apply IN1.
  { eapply not_above_cut; [exact W|apply IP|exact HP|done]. }
  exists s', k. split; [done|]. split; [done|]. by eapply later_trans.
Qed.

(** ** Moving the children of an ancestor next to it (diff.rs:1757-1787) *)

Lemma insert_before_longer sib n l : length l <= length (insert_before_list sib n l).
Proof. induction l as [|x l IH]; [done|]. cbn [insert_before_list]. destruct (Nat.eqb x sib); cbn [length]; lia. Qed.

Lemma reparent_step_full N sh a par c cp :
  sinv N None sh -> inner N sh a -> a <> 0 -> parent (sh_arena sh) a = Some par ->
  parent (sh_arena sh) c = Some a ->
  exists sh1 a2, detach_with_placeholder sh c = Val sh1 /\
    match children (sh_arena sh1) par !! cp with
    | Some sib => insert_before (sh_arena sh1) sib c
    | None => append (sh_arena sh1) par c
    end = Val a2 /\
    length a2 = S (length (sh_arena sh)) /\ parent a2 (length (sh_arena sh)) = Some a /\
    (forall x, x <> length (sh_arena sh) -> length (children (sh_arena sh) x) <= length (children a2 x)) /\
    let sh2 := sh_with sh1 a2 in
    sinv N None sh2 /\ later N sh sh2 /\
    (forall x, x < length (sh_arena sh) -> x <> c -> parent (sh_arena sh2) x = parent (sh_arena sh) x) /\
    parent (sh_arena sh2) c = Some par /\
    (forall y, y ∈ children (sh_arena sh2) a ->
       (y ∈ children (sh_arena sh) a /\ y <> c) \/
       (y = length (sh_arena sh) /\ parent (sh_arena sh2) y = Some a /\ children (sh_arena sh2) y = [])) /\
    (forall y, parent (sh_arena sh) y = Some a -> y <> c -> children (sh_arena sh) y = [] ->
       children (sh_arena sh2) y = []).
Proof.
  intros SI IA Ha0 HPa HPc. pose proof (si_wf _ _ _ SI) as SW. pose proof (sw_wf _ SW) as W.
  pose proof (si_super _ _ _ SI) as ES. pose proof (sw_top _ SW) as TOP. rewrite ES in TOP.
  destruct (slot0_parent _ _ _ SI) as (z & Hz & Hzc & H0p & Hzp & HzN).
  assert (z < length (sh_arena sh)) as Hzl by (by eapply parent_lt).
  assert (par <> N) as HparN.
  { intros ->. apply (inner_parent _ _ _ _ SI IA). congruence. }
  assert (inner N sh c) as IC.
  { split; [by eapply parent_lt|]. split.
    - intros ->. congruence.
    - intros Hin. apply (wf_pc _ W) in Hin. rewrite HPc in Hin. injection Hin as ->. by destruct IA as (_ & ? & _). }
  assert (c <> 0) as Hc0.
  { intros ->. rewrite H0p in HPc. injection HPc as ->. destruct IA as (_ & _ & Hx). apply Hx.
    by eapply elem_of_list_lookup_2. }
  assert (z <> par) as Hzpar.
  { intros ->. apply (wf_pc _ W) in HPa. rewrite Hzc in HPa. apply elem_of_list_singleton in HPa. done. }
  assert (~ above (sh_arena sh) c par) as Hcp.
  { intros Habv. assert (above (sh_arena sh) par c) as Hab2.
    { eapply above_parent; [|exact HPc]. eapply above_parent; [|exact HPa]. by apply above_refl. }
    pose proof (above_antisym _ _ _ W Habv Hab2) as ->.
    apply (above_not_parent _ _ _ W HPa). eapply above_parent; [|exact HPc]. by apply above_refl. }
  assert (c <> a) as Hca. { intros ->. by apply (above_not_parent _ _ _ W HPc), above_refl. }
  assert (a <> par) as Hapar. { intros <-. by apply (above_not_parent _ _ _ W HPa), above_refl. }
  destruct (placeholder_total N sh c SI IC Hc0) as (sh1 & E1 & LA1 & SI1 & RP).
  exists sh1. pose proof (rp_len _ _ _ _ RP) as RL.
  pose proof (si_wf _ _ _ SI1) as SW1. pose proof (sw_wf _ SW1) as W1.
  assert (par < length (sh_arena sh)) as Lpar by (by eapply wf_parent_lt).
  assert (c < length (sh_arena sh)) as Lc by apply IC.
  assert (a < length (sh_arena sh)) as La by apply IA.
  assert (parent (sh_arena sh1) c = None) as Hpc1.
  { rewrite (rp_parent _ _ _ _ RP) by lia. by rewrite Nat.eqb_refl. }
  assert (~ above (sh_arena sh1) c par) as Hcp1.
  { eapply not_above_cut; [exact W|done| |done]. intros x Hx. by rewrite (rp_parent _ _ _ _ RP) by lia. }
  assert (exists a2 cs, match children (sh_arena sh1) par !! cp with
    | Some sib => insert_before (sh_arena sh1) sib c
    | None => append (sh_arena sh1) par c
    end = Val a2 /\ linked (sh_arena sh1) a2 par c cs /\ length (children (sh_arena sh1) par) <= length cs) as (a2 & cs & E2 & LK & Hcs).
  { destruct (children (sh_arena sh1) par !! cp) as [sib|] eqn:Es.
    - destruct (insert_before_full (sh_arena sh1) sib c par) as (a2 & E & LK); try done; try lia.
      { apply (wf_pc _ W1). by eapply elem_of_list_lookup_2. }
      exists a2, (insert_before_list sib c (children (sh_arena sh1) par)). split; [done|]. split; [done|]. apply insert_before_longer.
    - destruct (append_full (sh_arena sh1) par c) as (a2 & E & LK); try done; try lia.
      exists a2, (children (sh_arena sh1) par ++ [c]). split; [done|]. split; [done|]. rewrite app_length. lia. }
  exists a2. split; [done|]. split; [done|].
  cbn [sh_arena sh_with sh_super sh_next].
  assert (children a2 N = children (sh_arena sh) N) as EN.
  { rewrite (lk_children _ _ _ _ _ LK). rewrite (proj2 (Nat.eqb_neq N par)) by done.
    apply (rp_children_other _ _ _ _ RP).
    - pose proof (sw_lt _ SW). lia.
    - rewrite HPc. intros [= ->]. by destruct IA as (_ & ? & _). }
  assert (children (sh_arena sh1) N = children (sh_arena sh) N) as EN1.
  { rewrite <- EN. rewrite (lk_children _ _ _ _ _ LK). by rewrite (proj2 (Nat.eqb_neq N par)) by done. }
  assert (forall x, x < length (sh_arena sh) -> x <> c -> parent a2 x = parent (sh_arena sh) x) as HP.
  { intros x Hx Hne. rewrite (lk_parent _ _ _ _ _ LK). rewrite (proj2 (Nat.eqb_neq x c)) by done.
    rewrite (rp_parent _ _ _ _ RP) by lia. by rewrite (proj2 (Nat.eqb_neq x c)) by done. }
  pose proof (lk_len _ _ _ _ _ LK) as LL. pose proof (lk_wf _ _ _ _ _ LK) as W2.
  assert (parent a2 (length (sh_arena sh)) = Some a) as HPn.
  { rewrite (lk_parent _ _ _ _ _ LK). rewrite (proj2 (Nat.eqb_neq _ c)) by lia.
    by rewrite (rp_new_parent _ _ _ _ RP). }
  split; [lia|]. split; [done|]. split.
  { intros x Hx. etransitivity; [|rewrite (lk_children _ _ _ _ _ LK); destruct (Nat.eqb_spec x par) as [->|]; [exact Hcs|reflexivity]].
    destruct (decide (x = a)) as [->|Hne].
    - pose proof HPc as Hin. apply (wf_pc _ W), elem_of_list_lookup in Hin as (i & Hi).
      by rewrite (rp_children _ _ _ _ RP a i HPc Hi), insert_length.
    - rewrite (rp_children_other _ _ _ _ RP); [done|done|]. rewrite HPc. congruence. }
  split; [split|split; [split|split; [done|split; [|split]]]]; cbn [sh_arena sh_with sh_super sh_next].
  - split; cbn [sh_arena sh_with sh_super sh_next].
    + done.
    + rewrite (si_super _ _ _ SI1). pose proof (sw_lt _ SW). lia.
    + rewrite (si_super _ _ _ SI1). rewrite HP; [done| |]; [pose proof (sw_lt _ SW); lia|]. apply not_eq_sym, IC.
    + rewrite (si_super _ _ _ SI1). rewrite EN, <- EN1. rewrite (sw_next _ SW1). by rewrite (si_super _ _ _ SI1).
  - apply SI1.
  - intros k. rewrite EN. apply (si_marks _ _ _ SI).
  - exists z. rewrite EN. split; [done|]. rewrite (lk_children _ _ _ _ _ LK).
    rewrite (proj2 (Nat.eqb_neq z par)) by done. rewrite (rp_children_other _ _ _ _ RP); [done|lia|].
    intros Hx. rewrite HPc in Hx. injection Hx as ->. destruct IA as (_ & _ & Hx). apply Hx.
    by eapply elem_of_list_lookup_2.
  - intros x Hx Hp. left. destruct (decide (x = c)) as [->|Hne].
    + rewrite (lk_parent _ _ _ _ _ LK), Nat.eqb_refl in Hp. done.
    + destruct (decide (x = length (sh_arena sh))) as [->|Hne2]; [congruence|].
      rewrite HP in Hp by (try done; lia). destruct (si_conn _ _ _ SI x) as [?|?]; try done; lia.
  - lia.
  - intros x (Lx & HxN & HxS). split; cbn [sh_arena sh_with]; [lia|]. split; [done|]. by rewrite EN.
  - rewrite (lk_parent _ _ _ _ _ LK). by rewrite Nat.eqb_refl.
  - intros y Hy. apply (wf_pc _ W2) in Hy.
    destruct (decide (y = length (sh_arena sh))) as [->|Hne].
    + right. split; [done|]. split; [done|]. rewrite (lk_children _ _ _ _ _ LK).
      rewrite (proj2 (Nat.eqb_neq _ par)) by lia. apply (rp_new_leaf _ _ _ _ RP).
    + left. destruct (decide (y = c)) as [->|Hyc].
      { rewrite (lk_parent _ _ _ _ _ LK), Nat.eqb_refl in Hy. congruence. }
      rewrite HP in Hy; [|apply parent_lt in Hy; lia|done]. split; [|done]. by apply (wf_pc _ W).
  - intros y Hy Hyc Hl. rewrite (lk_children _ _ _ _ _ LK).
    assert (y <> par) as Hyp.
    { intros ->. pose proof (above_refl _ a W) as Hr.
      apply (above_not_parent _ _ _ W HPa). eapply above_parent; [exact Hr|done]. }
    rewrite (proj2 (Nat.eqb_neq y par)) by done.
    pose proof (parent_lt _ _ _ Hy). rewrite (rp_children_other _ _ _ _ RP); [done|lia|].
    rewrite HPc. intros [= <-]. by apply (above_not_parent _ _ _ W Hy), above_refl.
Qed.

Lemma reparent_step N sh a par c cp :
  sinv N None sh -> inner N sh a -> a <> 0 -> parent (sh_arena sh) a = Some par ->
  parent (sh_arena sh) c = Some a ->
  exists sh1 a2, detach_with_placeholder sh c = Val sh1 /\
    match children (sh_arena sh1) par !! cp with
    | Some sib => insert_before (sh_arena sh1) sib c
    | None => append (sh_arena sh1) par c
    end = Val a2 /\
    let sh2 := sh_with sh1 a2 in
    sinv N None sh2 /\ later N sh sh2 /\
    (forall x, x < length (sh_arena sh) -> x <> c -> parent (sh_arena sh2) x = parent (sh_arena sh) x) /\
    parent (sh_arena sh2) c = Some par /\
    (forall y, y ∈ children (sh_arena sh2) a ->
       (y ∈ children (sh_arena sh) a /\ y <> c) \/
       (y = length (sh_arena sh) /\ parent (sh_arena sh2) y = Some a /\ children (sh_arena sh2) y = [])) /\
    (forall y, parent (sh_arena sh) y = Some a -> y <> c -> children (sh_arena sh) y = [] ->
       children (sh_arena sh2) y = []).
Proof.
  intros SI IA Ha0 HPa HPc.
  destruct (reparent_step_full N sh a par c cp SI IA Ha0 HPa HPc) as (sh1 & a2 & E1 & E2 & _ & _ & _ & R).
  by exists sh1, a2.
Qed.

Lemma reparent_total N a par pos : forall l (s : cstate),
  sinv N None (cs_shadow s) -> inner N (cs_shadow s) a -> a <> 0 ->
  parent (sh_arena (cs_shadow s)) a = Some par ->
  (forall i c, (i, c) ∈ l -> parent (sh_arena (cs_shadow s)) c = Some a) ->
  NoDup (map snd l) ->
  exists s', reparent_loop l par pos s = Val s' /\ cs_b2s s' = cs_b2s s /\
    sinv N None (cs_shadow s') /\ later N (cs_shadow s) (cs_shadow s') /\
    parent (sh_arena (cs_shadow s')) a = Some par /\
    (forall y, y ∈ children (sh_arena (cs_shadow s')) a ->
       (y ∈ children (sh_arena (cs_shadow s)) a /\ y ∉ map snd l) \/
       (length (sh_arena (cs_shadow s)) <= y /\ children (sh_arena (cs_shadow s')) y = [])) /\
    (forall y, parent (sh_arena (cs_shadow s)) y = Some a -> y ∉ map snd l ->
       children (sh_arena (cs_shadow s)) y = [] -> children (sh_arena (cs_shadow s')) y = []).
Proof.
  induction l as [|[i c] l IH]; intros s SI IA Ha0 HPa HC ND.
  - exists s. split; [done|]. split; [done|]. split; [done|]. split; [apply later_refl|]. split; [done|].
    split; [|done]. intros y Hy. left. split; [done|]. apply not_elem_of_nil.
  - cbn [reparent_loop]. apply NoDup_cons in ND as [Hnc ND]. cbn [snd] in Hnc.
    pose proof (sw_wf _ (si_wf _ _ _ SI)) as W.
    destruct (compute_path_total (cs_shadow s) c W) as (from & ->). cbn [obind].
    assert (parent (sh_arena (cs_shadow s)) c = Some a) as HPc by (apply (HC i c); left).
    destruct (reparent_step N (cs_shadow s) a par c (pos + 1 + i) SI IA Ha0 HPa HPc)
      as (sh1 & a2 & -> & E2 & SI2 & LA2 & HP2 & HPc2 & Hch & Hlf).
    cbn [obind]. cbv zeta. rewrite E2. cbn [obind]. cbn [sh_arena sh_with] in *.
    destruct (ref_total (sh_with sh1 a2) par (pos + 1 + i) (sw_wf _ (si_wf _ _ _ SI2))) as (to & ->).
    cbn [obind].
    assert (c <> a) as Hca. { intros ->. by apply (above_not_parent _ _ _ W HPc), above_refl. }
    destruct (IH (emit s (sh_with sh1 a2) (PMove from to None))) as (s' & E & EB & SI' & LA' & HPa' & Hch' & Hlf');
      cbn [cs_shadow emit cs_b2s]; try done.
    + by apply LA2.
    + cbn [sh_arena sh_with]. rewrite HP2; [done|apply IA|done].
    + intros j d Hd. cbn [sh_arena sh_with]. rewrite HP2.
      * apply (HC j d). by right.
      * eapply parent_lt. apply (HC j d). by right.
      * intros ->. apply Hnc. apply elem_of_list_fmap. by exists (j, c).
    + cbn [cs_shadow emit cs_b2s sh_arena sh_with] in *.
      exists s'. split; [done|]. split; [done|]. split; [done|]. split; [by eapply later_trans|].
      split; [done|]. split.
      * intros y Hy. destruct (Hch' y Hy) as [[Hy2 Hnl]|[Hy2 Hl]].
        -- destruct (Hch y Hy2) as [[Hy3 Hyc]|(-> & Hpy & Hl)].
           ++ left. split; [done|]. cbn [map snd]. rewrite elem_of_cons. tauto.
           ++ right. split; [lia|]. by apply Hlf'.
        -- right. split; [|done]. destruct LA2 as [HL _]. cbn [sh_arena sh_with] in HL. lia.
      * intros y Hy Hnl Hl. cbn [map snd] in Hnl. rewrite elem_of_cons in Hnl.
        assert (y <> c) by tauto. apply Hlf'; [|tauto|by apply Hlf].
        rewrite HP2; [done|by eapply parent_lt|done].
Qed.

(** Afterwards the node is above nothing that existed before. *)
Lemma above_child {D} (a : arena D) x y : wf a -> above a x y -> x <> y ->
  exists c, c ∈ children a x /\ above a c y.
Proof.
  intros W (l & Hl & Hin) Hne. destruct Hin as [?|Hin]; [congruence|].
  induction Hl as [i Hi|i p l Hi Hl IH]; [by apply elem_of_nil in Hin|].
  destruct (decide (x = p)) as [->|Hxp].
  - exists i. split; [by apply (wf_pc _ W)|]. by apply above_refl.
  - apply elem_of_cons in Hin as [?|Hin]; [congruence|].
    destruct (IH Hin Hxp) as (c & Hc & Ha). exists c. split; [done|]. by eapply above_parent.
Qed.

Lemma reparented_not_above N s a p L :
  sinv N None s -> p < L -> a <> p ->
  (forall y, y ∈ children (sh_arena s) a -> L <= y /\ children (sh_arena s) y = []) ->
  ~ above (sh_arena s) a p.
Proof.
  intros SI Hp Hne Hch Hab. pose proof (sw_wf _ (si_wf _ _ _ SI)) as W.
  destruct (above_child _ _ _ W Hab Hne) as (c & Hc & Hac). destruct (Hch c Hc) as [Hl Hcc].
  destruct (decide (c = p)) as [->|Hcp]; [lia|].
  destruct (above_child _ _ _ W Hac Hcp) as (d & Hd & _). rewrite Hcc in Hd. by apply elem_of_nil in Hd.
Qed.

(** ** One operation *)

Lemma extract_children_total {H} (tb : dtree H hkind attrs string) rb skip r :
  presents tb rb -> subt r rb -> forall f, rheight r < f ->
  exists cs, extract_children f tb skip (rid r) = Val cs.
Proof.
  intros PB. induction r as [i ts IH] using rose_ind'. intros Hs f Hf.
  destruct f as [|f]; [lia|]. cbn [extract_children].
  rewrite (pr_children _ _ PB _ Hs). cbn [rsub].
  assert (forall u, u ∈ ts -> exists cs, extract_children f tb skip (rid u) = Val cs) as Hu.
  { intros u Hu. apply IH; [done| |].
    - eapply subt_trans; [by apply (subt_child u (Rose i ts))|done].
    - pose proof (rheight_child (Rose i ts) u Hu). lia. }
  clear IH Hs Hf. induction ts as [|u ts IHt]; [by eexists|]. cbn [map].
  destruct IHt as (xs & Exs). { intros v Hv. apply Hu. by right. }
  destruct (skip (rid u)); [by exists xs|].
  destruct (Hu u) as (cs & Ecs); [left|].
  destruct (t_kind tb (rid u)); cbn [obind].
  - rewrite Ecs. cbn [obind]. rewrite Exs. by eexists.
  - rewrite Exs. by eexists.
  - rewrite Exs. by eexists.
Qed.

Section Convert.
  Context {H : Type}.
  Variables (N : nat) (tb : dtree H hkind attrs string) (rb : rose) (pairs : list (nat * nat)) (ins : list nat).
  Hypothesis PB : presents tb rb.
  Hypothesis N0 : 0 < N.
  Hypothesis PL : forall x y, (x, y) ∈ pairs -> x < N.
  Hypothesis PF : forall x y y', (x, y) ∈ pairs -> (x, y') ∈ pairs -> y = y'.

  Record cinv (s : cstate) : Prop := {
    ci_sh : sinv N None (cs_shadow s);
    ci_real : forall b n, slot_get (cs_b2s s) b = Some n ->
      inner N (cs_shadow s) n /\ (n < N -> (n, b) ∈ pairs)
  }.

  Lemma inner_old o s x : sinv N o s -> x < N -> inner N s x.
  Proof.
    intros SI Hx. pose proof (sw_lt _ (si_wf _ _ _ SI)) as LT. rewrite (si_super _ _ _ SI) in LT.
    split; [lia|]. split; [lia|]. intros Hin. pose proof (si_marks _ _ _ SI _ Hin). lia.
  Qed.

  (** What the edit script guarantees about its operations other than Delete. *)
  Definition sound_op (op : hop) : Prop :=
    match op with
    | UpdateProperties _ _ _ | SetText _ _ _ => True
    | Insert b _ _ _ => b ∈ t_iter tb
    | Move a b pb _ => (a, b) ∈ pairs /\ a <> 0 /\ pb <> b
    | Delete _ => False
    end.

  Lemma shadow_parent_total s b : cinv s ->
    exists n, shadow_parent s b = Val n /\ inner N (cs_shadow s) n /\
      (slot_get (cs_b2s s) b = Some n \/ (slot_get (cs_b2s s) b = None /\ n = 0)).
  Proof.
    intros CI. unfold shadow_parent. destruct (slot_get (cs_b2s s) b) as [n|] eqn:E.
    - exists n. split; [done|]. split; [by apply (ci_real _ CI b)|by left].
    - exists 0. pose proof (ci_sh _ CI) as SI. destruct (si_slot0 _ _ _ SI) as (z & Hz & Hc).
      split; [|split; [by eapply inner_0|by right]].
      unfold slot0_content, get_slot. rewrite (si_super _ _ _ SI), Hz. cbn [oget obind]. by rewrite Hc.
  Qed.

  Lemma sinv_new s d : sinv N None s -> sinv N (Some (length (sh_arena s))) (sh_with s (fst (new_node (sh_arena s) d)))
    /\ later N s (sh_with s (fst (new_node (sh_arena s) d))).
  Proof.
    intros SI. pose proof (si_wf _ _ _ SI) as SW. pose proof (sw_wf _ SW) as W.
    destruct (new_node_full (sh_arena s) d W) as (W' & HL & Hp & Hc & _ & HC & HP & _).
    split; split; cbn [sh_arena sh_with sh_super].
    - split; cbn [sh_arena sh_with sh_super sh_next]; [done| | |].
      + pose proof (sw_lt _ SW). lia.
      + rewrite HP. apply SW.
      + rewrite HC. apply SW.
    - apply SI.
    - intros k. rewrite HC. apply SI.
    - destruct (si_slot0 _ _ _ SI) as (z & Hz & Hzc). exists z. by rewrite !HC.
    - intros x Hx. rewrite HP. intros Hpx. destruct (decide (x = length (sh_arena s))) as [->|Hne]; [by right|].
      left. destruct (si_conn _ _ _ SI x) as [?|?]; try done. lia.
    - lia.
    - intros x (Lx & HxN & HxS). split; cbn [sh_arena sh_with]; [lia|]. split; [done|]. by rewrite HC.
  Qed.

  Lemma convert_op_total s op : cinv s -> sound_op op ->
    exists s', convert_op tb ins s op = Val s' /\ cinv s'.
  Proof.
    intros CI OK. pose proof (ci_sh _ CI) as SI. pose proof (si_wf _ _ _ SI) as SW. pose proof (sw_wf _ SW) as W.
    pose proof (si_super _ _ _ SI) as ES. pose proof (sw_lt _ SW) as LT. rewrite ES in LT.
    destruct op as [a b ch|b pb pos k|a|a b pb pos|a b txt]; cbn [sound_op] in OK; cbn [convert_op]; cbv zeta.
    - destruct (compute_path_total (cs_shadow s) a W) as (q & ->). eexists. split; [done|].
      split; apply CI.
    - rename OK into Hb. destruct (shadow_parent_total s pb CI) as (sp & -> & IS & _). cbn [obind].
      set (d := mkTD k (t_props tb b) (t_text tb b)).
      destruct (sinv_new (cs_shadow s) d SI) as [SI1 LA1].
      destruct (new_node_full (sh_arena (cs_shadow s)) d W) as (W1 & HL & Hp & Hc & _ & HC & HP & _).
      change (new_node (sh_arena (cs_shadow s)) d) with
        (fst (new_node (sh_arena (cs_shadow s)) d), length (sh_arena (cs_shadow s))).
      cbv beta iota.
      set (a1 := fst (new_node (sh_arena (cs_shadow s)) d)) in *. set (n := length (sh_arena (cs_shadow s))) in *.
      assert (inner N (sh_with (cs_shadow s) a1) sp) as IS1 by (by apply LA1).
      destruct (sh_insert_total N (sh_with (cs_shadow s) a1) sp pos n SI1 IS1) as (sh' & k' & E & SI' & LA').
      { cbn [sh_arena sh_with]. lia. } { lia. } { cbn [sh_arena sh_with]. done. }
      { cbn [sh_arena sh_with]. apply leaf_not_above; [done|done|]. destruct IS as [? _]. unfold n. lia. }
      rewrite E. cbn [obind].
      destruct (ref_total sh' sp pos (sw_wf _ (si_wf _ _ _ SI'))) as (at_ & ->). cbn [obind].
      assert (cinv (mkCS sh' (slot_set (cs_b2s s) b n) [])) as CI'.
      { assert (inner N (sh_with (cs_shadow s) a1) n) as IN1.
        { split; cbn [sh_arena sh_with]; [lia|]. split; [lia|]. rewrite HC. intros Hin.
          pose proof (wf_child_lt _ _ _ W Hin). lia. }
        split; cbn [cs_shadow cs_b2s].
        - done.
        - intros b' n'. rewrite slot_get_set. destruct (Nat.eqb_spec b b') as [->|Hne].
          + intros [= <-]. split; [by apply LA'|]. unfold n. lia.
          + intros Hg. destruct (ci_real _ CI _ _ Hg) as [Hi Hp']. split; [|done]. by apply LA', LA1. }
      assert (forall o, cinv (mkCS sh' (slot_set (cs_b2s s) b n) o)) as CIo.
      { intros o. destruct CI' as [C1 C2]. by split. }
      destruct k as [tag ns| |].
      + rewrite (pr_iter _ _ PB) in Hb. apply preorder_subt in Hb as (r & Hr & <-).
        destruct (extract_children_total tb rb
          (fun c => match slot_get (slot_set (cs_b2s s) (rid r) n) c with Some _ => true | None => mem c ins end)
          r PB Hr (S (length (t_iter tb)))) as (cs & ->).
        { rewrite (pr_iter _ _ PB). pose proof (rheight_lt_size rb).
          enough (rheight r <= rheight rb) by lia. clear -Hr.
          induction Hr as [|s' t' u Hs IH Hin]; [done|]. pose proof (rheight_child u t' Hin). lia. }
        cbn [obind]. eexists. split; [done|]. apply CIo.
      + cbn [obind]. eexists. split; [done|]. apply CIo.
      + cbn [obind]. eexists. split; [done|]. apply CIo.
    - done.
    - destruct OK as (Hp & Ha0 & Hpb). destruct (shadow_parent_total s pb CI) as (sp & -> & IS & Hsp). cbn [obind].
      assert (inner N (cs_shadow s) a) as IA by (by apply (inner_old None); [|apply (PL a b)]).
      assert (a <> sp) as Hasp.
      { intros ->. destruct Hsp as [Hsp|[_ ->]]; [|done]. destruct (ci_real _ CI _ _ Hsp) as [_ Hq]. apply Hpb, (PF sp); [|done]. apply Hq. by apply (PL sp b). }
      unfold sh_is_ancestor at 1.
      assert (exists s1, (if match is_ancestor (sh_arena (cs_shadow s)) a sp with Some x => x | None => false end
          then let! par := oget (parent (sh_arena (cs_shadow s)) a) in
               reparent_loop (rev (combine (seq 0 (length (children (sh_arena (cs_shadow s)) a)))
                                           (children (sh_arena (cs_shadow s)) a))) par
                 (pos_in (sh_arena (cs_shadow s)) par a) s
          else Val s) = Val s1 /\ is_ancestor (sh_arena (cs_shadow s)) a sp <> None /\
          cs_b2s s1 = cs_b2s s /\ sinv N None (cs_shadow s1) /\ later N (cs_shadow s) (cs_shadow s1) /\
          ~ above (sh_arena (cs_shadow s1)) a sp) as (s1 & E1 & EA & EB & SI1 & LA1 & NA).
      { destruct (is_ancestor_not_above (sh_arena (cs_shadow s)) a sp W Hasp) as [[-> Hna]|[-> Hab]].
        - exists s. split; [done|]. split; [done|]. split; [done|]. split; [done|]. split; [apply later_refl|done].
        - destruct (parent (sh_arena (cs_shadow s)) a) as [par|] eqn:Epar; cbn [oget obind].
          2:{ exfalso. destruct (si_conn _ _ _ SI a (proj1 IA) Epar) as [->|?]; [|done]. by destruct IA as (_ & ? & _). }
          set (cs := children (sh_arena (cs_shadow s)) a).
          assert (map snd (combine (seq 0 (length cs)) cs) = cs) as Ecs.
          { clear. generalize 0. induction cs as [|c cs IH]; intros k; [done|]. cbn. f_equal. apply IH. }
          destruct (reparent_total N a par (pos_in (sh_arena (cs_shadow s)) par a)
            (rev (combine (seq 0 (length cs)) cs)) s SI IA Ha0 Epar) as (s1 & E & EB & SI1 & LA1 & _ & Hch & _).
          + intros i c Hin. apply elem_of_list_In, in_rev, elem_of_list_In, combine_elem in Hin as [_ Hc].
            by apply (wf_pc _ W).
          + rewrite map_rev, Ecs. apply NoDup_ListNoDup, NoDup_rev, NoDup_ListNoDup. apply (wf_nd _ W).
          + exists s1. split; [exact E|]. split; [done|]. split; [done|]. split; [done|]. split; [done|].
            apply (reparented_not_above N (cs_shadow s1) a sp (length (sh_arena (cs_shadow s)))); [done|apply IS|done|].
            intros y Hy. destruct (Hch y Hy) as [[H1 H2]|?]; [|done]. exfalso. apply H2.
            rewrite map_rev, Ecs. by apply elem_of_list_In, in_rev; rewrite rev_involutive; apply elem_of_list_In. }
      destruct (is_ancestor (sh_arena (cs_shadow s)) a sp) as [anc|] eqn:Eanc; [|done].
      cbn [ofuel obind]. rewrite E1. cbn [obind].
      destruct (compute_path_total (cs_shadow s1) a (sw_wf _ (si_wf _ _ _ SI1))) as (from & ->). cbn [obind].
      destruct (sh_move_total N (cs_shadow s1) a sp pos SI1) as (sh2 & k2 & E2 & SI2 & LA2); try done; try by apply LA1.
      rewrite E2. cbn [obind].
      destruct (ref_total sh2 sp pos (sw_wf _ (si_wf _ _ _ SI2))) as (to & ->). cbn [obind].
      eexists. split; [done|]. split; cbn [cs_shadow cs_b2s]; rewrite ?EB.
      + done.
      + intros b' n'. rewrite slot_get_set. intros Hg.
        destruct (Nat.eqb_spec b b') as [->|Hne].
        * injection Hg as <-. split; [|done]. by apply LA2, LA1.
        * destruct (ci_real _ CI _ _ Hg) as [Hi Hq]. split; [|done]. by apply LA2, LA1.
    - destruct (compute_path_total (cs_shadow s) a W) as (q & ->). eexists. split; [done|].
      split; apply CI.
  Qed.

  Lemma convert_ops_total : forall ops s, cinv s -> (forall op, op ∈ ops -> sound_op op) ->
    exists s', convert_loop tb ins s ops = Val s' /\ cinv s'.
  Proof.
    induction ops as [|op ops IH]; intros s CI OK; [by exists s|]. cbn [convert_loop].
    destruct (convert_op_total s op CI) as (s1 & -> & CI1); [apply OK; left|]. cbn [obind].
    apply IH; [done|]. intros o Ho. apply OK. by right.
  Qed.

  (** Deletions need less: they come last. *)
  Lemma deletes_total : forall ops s,
    shwf (cs_shadow s) -> sh_super (cs_shadow s) = N -> (forall k, k ∈ children (sh_arena (cs_shadow s)) N -> N < k) ->
    (forall op, op ∈ ops -> exists a, op = Delete a /\ a < N) ->
    exists s', convert_loop tb ins s ops = Val s'.
  Proof.
    induction ops as [|op ops IH]; intros s SW ES HM OK; [by exists s|]. cbn [convert_loop].
    destruct (OK op) as (a & -> & Ha); [left|]. cbn [convert_op]. cbv zeta.
    destruct (compute_path_total (cs_shadow s) a (sw_wf _ SW)) as (q & ->). cbn [obind].
    pose proof (sw_lt _ SW) as LT. rewrite ES in LT.
    assert (parent (sh_arena (cs_shadow s)) a <> Some N) as Hpa.
    { intros Hp. apply (wf_pc _ (sw_wf _ SW)) in Hp. pose proof (HM _ Hp). lia. }
    destruct (detach_with_placeholder_full (cs_shadow s) a SW) as (s' & -> & SW' & ES' & RP); [lia|lia|by rewrite ES|].
    cbn [obind]. apply IH; cbn [cs_shadow emit].
    - done.
    - congruence.
    - intros k. rewrite (rp_children_other _ _ _ _ RP); [apply HM|lia|done].
    - intros o Ho. apply OK. by right.
  Qed.
End Convert.
