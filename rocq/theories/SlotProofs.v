(** Which slots the patches of [diff] introduce and use. *)
From stdpp Require Import list_numbers relations.
From Verif Require Import Base Arena Matching Chawathe Dom HtmlDiff
  ArenaProofs ArenaOps TreeProofs DtreeProofs MatchProofs ScriptProofs DomTree BuildProofs ShadowProofs
  ConvProofs RoundProofs TotalProofs ConvTotal DiffTotal.

(** The slot a patch introduces, and the paths it addresses. *)
Definition introduces (p : patch) : list nat :=
  match p with
  | PInsertElement _ _ _ _ (Some k) | PInsertText _ _ (Some k) | PInsertComment _ _ (Some k)
  | PMove _ _ (Some k) => [k]
  | _ => []
  end.
Definition addresses (p : patch) : list path :=
  match p with
  | PInsertElement q _ _ _ _ | PInsertText q _ _ | PInsertComment q _ _ => [q]
  | PRemove q | PSetText q _ | PSetAttribute q _ _ | PRemoveAttribute q _ | PUpdateProps q _
  | POpaqueChanged q _ => [q]
  | PMove from to _ => [from; to]
  end.

(** ** The applier: a path into a slot that nobody filled is an error *)

Definition known (sl : slots) (q : path) : Prop := exists h r x, q = h :: r /\ slot_get sl h = Some x.

Lemma navigate_known a sl q n : navigate_slot_path a sl q = Val n -> known sl q.
Proof.
  unfold navigate_slot_path. destruct q as [|h r]; [done|]. destruct (slot_get sl h) as [x|] eqn:E; [|done].
  intros _. by exists h, r, x.
Qed.

Lemma slot_parent_known a sl q r : get_slot_parent a sl q = Val r -> known sl q.
Proof.
  unfold get_slot_parent. destruct (Nat.ltb_spec (length q) 2); [done|].
  destruct (navigate_slot_path a sl (removelast q)) as [n| | |] eqn:E; try done. intros _.
  apply navigate_known in E as (h & r' & x & E & Hx). destruct q as [|h' [|y q]]; try done. simpl in E.
  injection E as -> _. by exists h, (y :: q), x.
Qed.

Lemma plift_inv st o st' : plift st o = (st', Val tt) -> snd st' = snd st.
Proof. unfold plift. destruct o; intros [= <-]; done. Qed.

Lemma insert_at_known a sl q n slot st' : insert_at a sl q n slot = (st', Val tt) ->
  known sl q /\ (forall k x, slot_get (snd st') k = Some x -> (exists y, slot_get sl k = Some y) \/ slot = Some k).
Proof.
  unfold insert_at. destruct (get_slot_parent a sl q) as [[p pos]| | |] eqn:E; try done.
  apply slot_parent_known in E. intros Hr. split; [done|]. intros k x Hk.
  destruct slot as [s|].
  - destruct (children a p !! pos) as [dd|].
    + apply plift_inv in Hr. rewrite Hr in Hk. cbn [snd] in Hk. rewrite slot_get_set in Hk.
      destruct (Nat.eqb_spec s k) as [->|]; [by right|left; by exists x].
    + apply plift_inv in Hr. rewrite Hr in Hk. left. by exists x.
  - apply plift_inv in Hr. rewrite Hr in Hk. left. by exists x.
Qed.

Lemma with_node_known st q f st' : with_node st q f = (st', Val tt) ->
  known (snd st) q /\ exists n, f n = (st', Val tt).
Proof.
  unfold with_node. destruct (navigate_slot_path _ _ q) as [n| | |] eqn:E; try done.
  apply navigate_known in E. intros Hf. split; [done|by exists n].
Qed.

Lemma apply_patch_known parse st p st' : apply_patch parse st p = (st', Val tt) ->
  (forall q, q ∈ addresses p -> exists sl, known sl q /\
     forall k x, slot_get sl k = Some x -> exists y, slot_get (snd st) k = Some y) /\
  (forall k x, slot_get (snd st') k = Some x -> (exists y, slot_get (snd st) k = Some y) \/ k ∈ introduces p).
Proof.
  destruct st as [a sl]. cbn [snd].
  assert (forall a1 q n slot, insert_at a1 sl q n slot = (st', Val tt) ->
    (forall q', q' ∈ [q] -> exists sl', known sl' q' /\
       forall k x, slot_get sl' k = Some x -> exists y, slot_get sl k = Some y) /\
    (forall k x, slot_get (snd st') k = Some x -> (exists y, slot_get sl k = Some y) \/
       k ∈ match slot with Some k => [k] | None => [] end)) as HI.
  { intros a1 q n slot Hi. apply insert_at_known in Hi as [Hk Hs]. split.
    - intros q' Hq. apply elem_of_list_singleton in Hq as ->. exists sl. split; [done|]. intros; by eexists.
    - intros k x Hx. destruct (Hs k x Hx) as [?|?]; [by left|]. right. subst slot. left. }
  assert (forall q f, with_node (a, sl) q f = (st', Val tt) ->
    (forall n, f n = (st', Val tt) -> snd st' = sl) ->
    (forall q', q' ∈ [q] -> exists sl', known sl' q' /\
       forall k x, slot_get sl' k = Some x -> exists y, slot_get sl k = Some y) /\
    (forall k x, slot_get (snd st') k = Some x -> (exists y, slot_get sl k = Some y) \/ k ∈ @nil nat)) as HW.
  { intros q f Hw Hf. apply with_node_known in Hw as [Hk (n & Hn)]. apply Hf in Hn. split.
    - intros q' Hq. apply elem_of_list_singleton in Hq as ->. exists sl. split; [done|]. intros; by eexists.
    - rewrite Hn. intros k x Hx. left. by exists x. }
  destruct p as [q tag ats cs slot|q t slot|q t slot|q|q t|q nm v|q nm|fr to slot|q ch|q c]; cbn [apply_patch].
  - destruct (new_node a _) as [a1 n]. destruct (create_contents a1 n cs) as [a2| | |]; try done.
    intros Hi. apply HI in Hi. by destruct slot.
  - destruct (new_node a _) as [a1 n]. intros Hi. apply HI in Hi. by destruct slot.
  - destruct (new_node a _) as [a1 n]. intros Hi. apply HI in Hi. by destruct slot.
  - intros Hw. eapply HW; [exact Hw|]. intros n Hn. by apply plift_inv in Hn.
  - intros Hw. eapply HW; [exact Hw|]. intros n Hn. cbv beta in Hn.
    destruct (node_kind a n) as [[]|]; injection Hn as <-; done.
  - intros Hw. eapply HW; [exact Hw|]. intros n Hn. cbv beta in Hn.
    destruct (node_kind a n) as [[]|]; injection Hn as <-; done.
  - intros Hw. eapply HW; [exact Hw|]. intros n Hn. cbv beta in Hn.
    destruct (node_kind a n) as [[]|]; injection Hn as <-; done.
  - intros Hw. apply with_node_known in Hw as [Hk (n & Hn)]. cbn [snd] in Hk.
    destruct (if Nat.ltb 1 (length fr) then _ else _) as [a1| | |]; try done.
    apply HI in Hn as [H1 H2]. split.
    + intros q Hq. apply elem_of_cons in Hq as [->|Hq].
      * exists sl. split; [done|]. intros; by eexists.
      * by apply H1.
    + by destruct slot.
  - intros Hw. eapply HW; [exact Hw|]. intros n Hn. cbv beta zeta in Hn.
    destruct (node_kind a n) as [[]|]; try (by injection Hn as <-).
    + destruct (find _ ch) as [c|]; [destruct (pc_value c)|]; by injection Hn as <-.
    + destruct (find _ ch) as [c|]; [destruct (pc_value c)|]; by injection Hn as <-.
  - intros Hw. eapply HW; [exact Hw|]. intros n Hn. by apply plift_inv in Hn.
Qed.

Lemma apply_all_known parse : forall ps1 st st' p ps2 q,
  apply_all parse st (ps1 ++ p :: ps2) = (st', Val tt) -> q ∈ addresses p ->
  exists h r, q = h :: r /\ ((exists y, slot_get (snd st) h = Some y) \/ h ∈ flat_map introduces ps1).
Proof.
  induction ps1 as [|p1 ps1 IH]; intros st st' p ps2 q Ha Hq; cbn [app apply_all flat_map] in *.
  - destruct (apply_patch parse st p) as [st1 [[]| | |]] eqn:E; try done.
    apply apply_patch_known in E as [E _]. destruct (E q Hq) as (sl & (h & r & x & -> & Hx) & Hs).
    exists h, r. split; [done|]. left. by eapply Hs.
  - destruct (apply_patch parse st p1) as [st1 [[]| | |]] eqn:E; try done.
    apply apply_patch_known in E as [_ E].
    destruct (IH st1 st' p ps2 q Ha Hq) as (h & r & -> & Hh). exists h, r. split; [done|].
    rewrite elem_of_app. destruct Hh as [(y & Hy)|?]; [|by right; right].
    destruct (E h y Hy) as [?|?]; [by left|by right; left].
Qed.

(** ** The shadow tree: heads of paths *)

Lemma pos_in_elem (a : arena tdata) p c : c ∈ children a p -> children a p !! pos_in a p c = Some c.
Proof.
  unfold pos_in. intros Hin. destruct (index_of_elem _ _ Hin) as (k & E). rewrite E. by apply index_of_lookup.
Qed.

(** A node that hangs below the super root: its path starts with the number of
    a slot that is above it. *)
Lemma path_loop_head s : shwf s -> forall x l, chain (sh_arena s) x l -> sh_super s ∈ l -> forall f acc, length l < f ->
  exists k r sl, path_loop f s x acc = Val (k :: r) /\
    children (sh_arena s) (sh_super s) !! k = Some sl /\ (sl = x \/ sl ∈ l).
Proof.
  intros SW x l Hl. pose proof (sw_wf _ SW) as W.
  induction Hl as [x Hx|x p l Hx Hl IH]; intros Hin f acc Hf; [by apply elem_of_nil in Hin|].
  destruct f as [|f]; [lia|]. cbn [path_loop]. rewrite Hx.
  destruct (decide (p = sh_super s)) as [->|Hps].
  - rewrite (sw_top _ SW). pose proof (sw_top _ SW) as T.
    destruct f as [|f]; [simpl in Hf; lia|]. cbn [path_loop]. rewrite T.
    exists (pos_in (sh_arena s) (sh_super s) x), acc, x. split; [done|]. split; [|by left].
    apply pos_in_elem. by apply (wf_pc _ W).
  - assert (sh_super s ∈ l) as Hin' by (apply elem_of_cons in Hin as [?|?]; [congruence|done]).
    destruct (parent (sh_arena s) p) as [g|] eqn:Hp.
    + destruct (Nat.eqb_spec g (sh_super s)) as [->|Hg].
      * exists (pos_in (sh_arena s) (sh_super s) p), acc, p. split; [done|].
        split; [|right; left]. apply pos_in_elem. by apply (wf_pc _ W).
      * destruct (IH Hin' f (pos_in (sh_arena s) p x :: acc)) as (k & r & sl & E & Hk & Hs); [simpl in Hf; lia|].
        exists k, r, sl. split; [done|]. split; [done|]. right. destruct Hs as [->|?]; [left|by right].
    + inversion Hl; subst; [by apply elem_of_nil in Hin'|congruence].
Qed.

Lemma chain_top {D} (a : arena D) x l : chain a x l ->
  exists t, parent a t = None /\ ((l = [] /\ t = x) \/ t ∈ l).
Proof.
  induction 1 as [x Hx|x p l Hx Hl (t & Ht & Hin)]; [exists x; by auto|].
  exists t. split; [done|]. right. destruct Hin as [[-> ->]|?]; [left|by right].
Qed.

Lemma hangs N o s x l : sinv N o s -> x < length (sh_arena s) -> x <> N ->
  (forall n, o = Some n -> ~ above (sh_arena s) n x) -> chain (sh_arena s) x l -> sh_super s ∈ l.
Proof.
  intros SI Hx HxN Ho Hl. destruct (chain_top _ _ _ Hl) as (t & Ht & Hin).
  pose proof (sw_wf _ (si_wf _ _ _ SI)) as W. rewrite (si_super _ _ _ SI).
  assert (t < length (sh_arena s)) as Lt.
  { destruct Hin as [[_ ->]|Hin]; [done|]. by eapply chain_lt. }
  destruct (si_conn _ _ _ SI t Lt Ht) as [->| ->].
  - destruct Hin as [[_ ?]|?]; [congruence|done].
  - exfalso. apply (Ho t eq_refl). exists l. split; [done|]. destruct Hin as [[_ ?]|?]; auto.
Qed.

Definition heads (k : nat) (q : path) : Prop := exists h r, q = h :: r /\ h < k.

Lemma compute_path_head N s x : sinv N None s -> x < length (sh_arena s) -> x <> N ->
  exists q, compute_path s x = Val q /\ heads (sh_next s) q.
Proof.
  intros SI Hx HxN. pose proof (si_wf _ _ _ SI) as SW. pose proof (sw_wf _ SW) as W.
  destruct (wf_chain _ W x) as (l & Hl). unfold compute_path.
  destruct (path_loop_head s SW x l Hl) with (f := chain_fuel (sh_arena s)) (acc := @nil nat)
    as (k & r & sl & -> & Hk & _).
  { by eapply hangs. }
  { pose proof (chain_length _ _ _ W Hl). unfold chain_fuel. lia. }
  exists (k :: r). split; [done|]. exists k, r. split; [done|]. rewrite (sw_next _ SW). by eapply lookup_lt_Some.
Qed.

Lemma ref_head N s x pos : sinv N None s -> x < length (sh_arena s) -> x <> N ->
  exists q, ref_with_position s x pos = Val q /\ heads (sh_next s) q.
Proof.
  intros SI Hx HxN. destruct (compute_path_head N s x SI Hx HxN) as (q & E & h & r & -> & Hh).
  unfold ref_with_position. rewrite E. eexists. split; [done|]. exists h, (r ++ [pos]). done.
Qed.

(** Same, with the slots of a shadow tree [s] seen from a later one in which
    the nodes above [x] are still the same. *)
Lemma ref_head_old N s s' x pos : sinv N None s' -> shwf s -> sh_super s = N ->
  x < length (sh_arena s) -> x <> N ->
  (forall l, chain (sh_arena s) x l -> chain (sh_arena s') x l) ->
  (exists e, children (sh_arena s') N = children (sh_arena s) N ++ e /\ forall z, z ∈ e -> length (sh_arena s) <= z) ->
  length (sh_arena s) <= length (sh_arena s') ->
  exists q, ref_with_position s' x pos = Val q /\ heads (sh_next s) q.
Proof.
  intros SI' SW ES Hx HxN HC (e & EN & He) HL. pose proof (si_wf _ _ _ SI') as SW'. pose proof (sw_wf _ SW') as W'.
  pose proof (sw_wf _ SW) as W.
  destruct (wf_chain _ W x) as (l & Hl). pose proof (HC l Hl) as Hl'. unfold ref_with_position, compute_path.
  destruct (path_loop_head s' SW' x l Hl') with (f := chain_fuel (sh_arena s')) (acc := @nil nat)
    as (k & r & sl & -> & Hk & Hs).
  { eapply (hangs N None); [done| |done|done|done]. lia. }
  { pose proof (chain_length _ _ _ W' Hl'). unfold chain_fuel. lia. }
  cbn [obind]. eexists. split; [done|]. exists k, (r ++ [pos]). split; [done|].
  rewrite (sw_next _ SW), ES. rewrite (si_super _ _ _ SI'), EN in Hk.
  destruct (decide (k < length (children (sh_arena s) N))) as [|Hge]; [done|]. exfalso.
  rewrite lookup_app_r in Hk by lia. apply elem_of_list_lookup_2, He in Hk.
  assert (sl < length (sh_arena s)); [|lia]. destruct Hs as [->|Hs]; [done|]. by eapply chain_lt.
Qed.

(** A slot is introduced with the next number. *)
Definition next_slot (k : nat) (o : option nat) (k' : nat) : Prop :=
  (o = None /\ k' = k) \/ (o = Some k /\ k' = S k).

Lemma sh_insert_slots N s p pos n s' o :
  sinv N (Some n) s -> inner N s p -> n < length (sh_arena s) -> n <> N ->
  parent (sh_arena s) n = None -> ~ above (sh_arena s) n p ->
  sh_insert s p pos n = Val (s', o) -> sinv N None s' ->
  next_slot (sh_next s) o (sh_next s') /\
  exists q, ref_with_position s' p pos = Val q /\ heads (sh_next s) q.
Proof.
  intros SI IP Hn HnN Hpn Hab E SI'. pose proof (si_wf _ _ _ SI) as SW. pose proof (sw_wf _ SW) as W.
  pose proof (si_super _ _ _ SI) as ES. pose proof (sw_lt _ SW) as LT. rewrite ES in LT.
  destruct IP as (Lp & HpN & HpS).
  destruct (children (sh_arena s) p !! pos) as [occ|] eqn:Eo.
  - destruct (sh_insert_took s p pos n occ) as (s2 & E2 & TK); try done; try congruence.
    rewrite E in E2. injection E2 as <- ->.
    pose proof (tk_len _ _ _ _ _ _ TK) as TL. pose proof (tk_children _ _ _ _ _ _ TK) as TC.
    pose proof (tk_parent _ _ _ _ _ _ TK) as TP. rewrite ES in TC, TP.
    assert (children (sh_arena s') N = children (sh_arena s) N ++ [length (sh_arena s)]) as EN.
    { by rewrite TC, Nat.eqb_refl. }
    split.
    + right. split; [done|]. rewrite (sw_next _ SW), (sw_next _ (tk_wf _ _ _ _ _ _ TK)).
      rewrite (tk_super _ _ _ _ _ _ TK), ES, EN, app_length. simpl. lia.
    + apply (ref_head_old N s s' p pos); try done; [| |lia].
      * intros l Hl. destruct (not_above_chain _ _ _ _ Hab Hl) as [H1 H2].
        eapply chain_agree; [exact Hl|]. intros x Hx.
        assert (above (sh_arena s) x p) as Hxp.
        { exists l. split; [done|]. destruct Hx; [left|right]; done. }
        rewrite TP. destruct (Nat.eqb_spec x occ) as [->|].
        { exfalso. apply elem_of_list_lookup_2, (wf_pc _ W) in Eo. by apply (above_not_parent _ _ _ W Eo). }
        destruct (Nat.eqb_spec x (length (sh_arena s))) as [->|].
        { exfalso. destruct Hx as [?|Hx]; [lia|]. pose proof (chain_lt _ _ _ _ W Hl Hx). lia. }
        destruct (Nat.eqb_spec x n) as [->|]; [|done]. done.
      * exists [length (sh_arena s)]. split; [done|]. intros z Hz. apply elem_of_list_singleton in Hz. lia.
  - destruct (sh_insert_grew s p pos n) as (s2 & E2 & GW); try done; try congruence.
    rewrite E in E2. injection E2 as <- ->.
    pose proof (gw_len _ _ _ _ _ GW) as TL. pose proof (gw_children _ _ _ _ _ GW) as TC.
    pose proof (gw_parent _ _ _ _ _ GW) as TP.
    assert (children (sh_arena s') N = children (sh_arena s) N) as EN.
    { rewrite TC. by rewrite (proj2 (Nat.eqb_neq N p)) by done. }
    assert (sh_next s' = sh_next s) as Enx.
    { rewrite (sw_next _ SW), (sw_next _ (gw_wf _ _ _ _ _ GW)). by rewrite (gw_super _ _ _ _ _ GW), ES, EN. }
    split; [by left|]. rewrite <- Enx. apply (ref_head N); [done|lia|done].
Qed.

Lemma out_of_place_next s n s' : out_of_place s n = Val s' -> sh_next s' = sh_next s.
Proof.
  unfold out_of_place, detach_with_placeholder.
  destruct (match parent (sh_arena s) n with Some q => _ | None => false end); [by intros [= <-]|].
  change (new_node (sh_arena s) (mkTD KText [] None)) with
    (fst (new_node (sh_arena s) (mkTD KText [] None)), length (sh_arena s)). cbv beta iota.
  destruct (insert_before _ n _) as [a2| | |]; try done. by intros [= <-].
Qed.

Lemma sh_move_slots N s n p pos s' o :
  sinv N None s -> inner N s n -> n <> 0 -> inner N s p -> n <> p -> ~ above (sh_arena s) n p ->
  sh_move s n p pos = Val (s', o) -> sinv N None s' ->
  next_slot (sh_next s) o (sh_next s') /\
  exists q, ref_with_position s' p pos = Val q /\ heads (sh_next s) q.
Proof.
  intros SI IN Hn0 IP Hnp Hab E SI'. pose proof (sw_wf _ (si_wf _ _ _ SI)) as W.
  destruct (out_of_place_total N s n SI IN Hn0) as (s1 & E1 & SI1 & LA1 & Hpn & HP).
  pose proof (sw_wf _ (si_wf _ _ _ SI1)) as W1.
  assert (inner N s1 p) as IP1 by (by apply LA1).
  assert (inner N s1 n) as IN1 by (by apply LA1).
  assert (sh_is_ancestor s n p = Val false) as EA.
  { unfold sh_is_ancestor. by destruct (is_ancestor_not_above (sh_arena s) n p W Hnp) as [[-> _]|[_ ?]]. }
  rewrite (sh_move_insert s n p pos s1 EA E1 W1 (proj1 IP1) (proj1 IN1) Hpn) in E.
  rewrite <- (out_of_place_next _ _ _ E1).
  apply (sh_insert_slots N s1 p pos n); try done; try apply IN1.
  eapply not_above_cut; [exact W|apply IP|exact HP|done].
Qed.

(** ** Patch lists whose slots are numbered in order and introduced before use *)

Inductive slots_run : nat -> list patch -> nat -> Prop :=
| sr_nil k : slots_run k [] k
| sr_cons k p ps k' k'' :
    (forall q, q ∈ addresses p -> heads k q) ->
    (introduces p = [] /\ k' = k) \/ (introduces p = [k] /\ k' = S k) ->
    slots_run k' ps k'' -> slots_run k (p :: ps) k''.

Lemma slots_run_app k ps k' ps' k'' : slots_run k ps k' -> slots_run k' ps' k'' -> slots_run k (ps ++ ps') k''.
Proof. induction 1; intros R; [done|]. cbn [app]. eapply sr_cons; [done|done|auto]. Qed.

Lemma slots_run_one k p k' : (forall q, q ∈ addresses p -> heads k q) ->
  (introduces p = [] /\ k' = k) \/ (introduces p = [k] /\ k' = S k) -> slots_run k [p] k'.
Proof. intros Ha Hi. eapply sr_cons; [done|done|constructor]. Qed.

Lemma slots_run_le k ps k' : slots_run k ps k' -> k <= k' /\ flat_map introduces ps = seq k (k' - k).
Proof.
  induction 1 as [k|k p ps k' k'' Ha Hi R [IHl IH]].
  - split; [lia|]. by rewrite Nat.sub_diag.
  - cbn [flat_map]. rewrite IH. destruct Hi as [[-> ->]|[-> ->]]; [done|]. split; [lia|].
    replace (k'' - k) with (S (k'' - S k)) by lia. done.
Qed.

Lemma slots_run_use : forall ps1 k p ps2 k' q, slots_run k (ps1 ++ p :: ps2) k' -> q ∈ addresses p ->
  exists h r, q = h :: r /\ (h < k \/ h ∈ flat_map introduces ps1).
Proof.
  induction ps1 as [|p1 ps1 IH]; intros k p ps2 k' q R Hq; cbn [app flat_map] in *;
    inversion R as [|? ? ? k1 ? Ha Hi R']; subst.
  - destruct (Ha q Hq) as (h & r & -> & Hh). exists h, r. split; [done|by left].
  - destruct (IH k1 p ps2 k' q R' Hq) as (h & r & -> & Hh). exists h, r. split; [done|].
    rewrite elem_of_app. destruct Hh as [Hh|?]; [|by right; right].
    destruct Hi as [[-> ->]|[-> ->]]; [by left|]. rewrite elem_of_list_singleton.
    destruct (decide (h = k)); [by right; left|left; lia].
Qed.

(** ** The conversion *)

Lemma reparent_slots N a par pos : forall l (s : cstate) s',
  sinv N None (cs_shadow s) -> inner N (cs_shadow s) a -> a <> 0 ->
  parent (sh_arena (cs_shadow s)) a = Some par ->
  (forall i c, (i, c) ∈ l -> parent (sh_arena (cs_shadow s)) c = Some a) ->
  NoDup (map snd l) ->
  reparent_loop l par pos s = Val s' ->
  exists new, cs_out s' = cs_out s ++ new /\
    slots_run (sh_next (cs_shadow s)) new (sh_next (cs_shadow s')).
Proof.
  induction l as [|[i c] l IH]; intros s s' SI IA Ha0 HPa HC ND.
  - cbn [reparent_loop]. intros [= <-]. exists []. rewrite app_nil_r. split; [done|constructor].
  - cbn [reparent_loop]. apply NoDup_cons in ND as [Hnc ND]. cbn [snd] in Hnc.
    pose proof (sw_wf _ (si_wf _ _ _ SI)) as W.
    assert (parent (sh_arena (cs_shadow s)) c = Some a) as HPc by (apply (HC i c); left).
    assert (par < length (sh_arena (cs_shadow s))) as Lpar by (by eapply wf_parent_lt).
    assert (par <> N) as HparN.
    { intros ->. apply (inner_parent _ _ _ _ SI IA). rewrite (si_super _ _ _ SI). done. }
    assert (c <> N) as HcN.
    { intros ->. pose proof (sw_top _ (si_wf _ _ _ SI)) as T. rewrite (si_super _ _ _ SI) in T. congruence. }
    destruct (compute_path_head N (cs_shadow s) c SI) as (from & -> & HF); [by eapply parent_lt|done|]. cbn [obind].
    destruct (reparent_step N (cs_shadow s) a par c (pos + 1 + i) SI IA Ha0 HPa HPc)
      as (sh1 & a2 & E1 & E2 & SI2 & LA2 & HP2 & HPc2 & Hch & Hlf).
    rewrite E1. cbn [obind]. cbv zeta. rewrite E2. cbn [obind]. cbn [sh_arena sh_with] in *.
    assert (sh_next sh1 = sh_next (cs_shadow s)) as En1.
    { unfold detach_with_placeholder in E1.
      change (new_node (sh_arena (cs_shadow s)) (mkTD KText [] None)) with
        (fst (new_node (sh_arena (cs_shadow s)) (mkTD KText [] None)), length (sh_arena (cs_shadow s))) in E1.
      cbv beta iota in E1. destruct (insert_before _ c _) as [a3| | |]; try done. by injection E1 as <-. }
    destruct (ref_head N (sh_with sh1 a2) par (pos + 1 + i) SI2) as (to & -> & HT).
    { destruct LA2 as [HL _]. cbn [sh_arena sh_with] in *. lia. } { done. }
    cbn [obind]. intros E.
    assert (c <> a) as Hca. { intros ->. by apply (above_not_parent _ _ _ W HPc), above_refl. }
    apply IH in E; cbn [cs_shadow emit cs_b2s]; try done.
    + destruct E as (new & Eo & R). cbn [cs_out emit] in Eo. rewrite <- app_assoc in Eo.
      exists (PMove from to None :: new). split; [done|].
      cbn [cs_shadow emit sh_next sh_with] in R, HT. rewrite En1 in R, HT.
      eapply sr_cons; [|left; split; [done|reflexivity]|exact R]. intros q Hq. cbn [addresses] in Hq.
      apply elem_of_cons in Hq as [->|Hq]; [done|]. by apply elem_of_list_singleton in Hq as ->.
    + by apply LA2.
    + cbn [sh_arena sh_with]. rewrite HP2; [done|apply IA|done].
    + intros j d Hd. cbn [sh_arena sh_with]. rewrite HP2.
      * apply (HC j d). by right.
      * eapply parent_lt. apply (HC j d). by right.
      * intros ->. apply Hnc. apply elem_of_list_fmap. by exists (j, c).
Qed.

Section Convert.
  Context {H : Type}.
  Variables (N : nat) (tb : dtree H hkind attrs string) (rb : rose) (pairs : list (nat * nat)) (ins : list nat).
  Hypothesis PB : presents tb rb.
  Hypothesis N0 : 0 < N.
  Hypothesis PL : forall x y, (x, y) ∈ pairs -> x < N.
  Hypothesis PF : forall x y y', (x, y) ∈ pairs -> (x, y') ∈ pairs -> y = y'.

  Definition old_op (op : hop) : Prop :=
    match op with UpdateProperties a _ _ | SetText a _ _ => a < N | _ => True end.

  Lemma convert_op_slots s op s' : cinv N pairs s -> sound_op tb pairs op -> old_op op ->
    convert_op tb ins s op = Val s' ->
    exists new, cs_out s' = cs_out s ++ new /\
      slots_run (sh_next (cs_shadow s)) new (sh_next (cs_shadow s')).
  Proof.
    intros CI OK OL. pose proof (ci_sh _ _ _ CI) as SI. pose proof (si_wf _ _ _ SI) as SW. pose proof (sw_wf _ SW) as W.
    pose proof (si_super _ _ _ SI) as ES. pose proof (sw_lt _ SW) as LT. rewrite ES in LT.
    destruct op as [a b ch|b pb pos k|a|a b pb pos|a b txt]; cbn [sound_op old_op] in OK, OL; cbn [convert_op]; cbv zeta.
    - destruct (compute_path_head N (cs_shadow s) a SI) as (q & -> & Hq); [lia|lia|]. cbn [obind]. intros [= <-].
      eexists. split; [done|]. apply slots_run_one; [|by left]. intros q' Hq'. by apply elem_of_list_singleton in Hq' as ->.
    - destruct (shadow_parent_total N pairs N0 s pb CI) as (sp & -> & IS & _). cbn [obind].
      set (d := mkTD k (t_props tb b) (t_text tb b)).
      destruct (sinv_new N N0 (cs_shadow s) d SI) as [SI1 LA1].
      destruct (new_node_full (sh_arena (cs_shadow s)) d W) as (W1 & HL & Hp & Hc & _ & HC & HP & _).
      change (new_node (sh_arena (cs_shadow s)) d) with
        (fst (new_node (sh_arena (cs_shadow s)) d), length (sh_arena (cs_shadow s))).
      cbv beta iota.
      set (a1 := fst (new_node (sh_arena (cs_shadow s)) d)) in *. set (n := length (sh_arena (cs_shadow s))) in *.
      assert (inner N (sh_with (cs_shadow s) a1) sp) as IS1 by (by apply LA1).
      assert (~ above a1 n sp) as NA.
      { apply leaf_not_above; [done|done|]. destruct IS as [? _]. unfold n. lia. }
      destruct (sh_insert_total N (sh_with (cs_shadow s) a1) sp pos n SI1 IS1) as (sh' & k' & E & SI' & LA');
        cbn [sh_arena sh_with]; try done; try lia.
      rewrite E. cbn [obind].
      destruct (sh_insert_slots N (sh_with (cs_shadow s) a1) sp pos n sh' k' SI1 IS1) as (NS & at_ & -> & HA);
        cbn [sh_arena sh_with]; try done; try lia.
      cbn [obind]. cbn [sh_next sh_with] in NS, HA.
      destruct k as [tag ns| |].
      + destruct (extract_children _ _ _ _) as [cs| | |]; try done. cbn [obind]. intros [= <-].
        eexists. split; [done|]. cbn [cs_shadow]. apply slots_run_one.
        * intros q Hq. by apply elem_of_list_singleton in Hq as ->.
        * destruct NS as [[-> ->]|[-> ->]]; [by left|by right].
      + cbn [obind]. intros [= <-]. eexists. split; [done|]. cbn [cs_shadow]. apply slots_run_one.
        * intros q Hq. by apply elem_of_list_singleton in Hq as ->.
        * destruct NS as [[-> ->]|[-> ->]]; [by left|by right].
      + cbn [obind]. intros [= <-]. eexists. split; [done|]. cbn [cs_shadow]. apply slots_run_one.
        * intros q Hq. by apply elem_of_list_singleton in Hq as ->.
        * destruct NS as [[-> ->]|[-> ->]]; [by left|by right].
    - done.
    - destruct OK as (Hp & Ha0 & Hpb).
      destruct (shadow_parent_total N pairs N0 s pb CI) as (sp & -> & IS & Hsp). cbn [obind].
      assert (inner N (cs_shadow s) a) as IA by (by apply (inner_old N N0 None); [|apply (PL a b)]).
      assert (a <> sp) as Hasp.
      { intros ->. destruct Hsp as [Hsp|[_ ->]]; [|done]. destruct (ci_real _ _ _ CI _ _ Hsp) as [_ Hq].
        apply Hpb, (PF sp); [|done]. apply Hq. by apply (PL sp b). }
      unfold sh_is_ancestor at 1.
      assert (exists s1, (if match is_ancestor (sh_arena (cs_shadow s)) a sp with Some x => x | None => false end
          then let! par := oget (parent (sh_arena (cs_shadow s)) a) in
               reparent_loop (rev (combine (seq 0 (length (children (sh_arena (cs_shadow s)) a)))
                                           (children (sh_arena (cs_shadow s)) a))) par
                 (pos_in (sh_arena (cs_shadow s)) par a) s
          else Val s) = Val s1 /\ is_ancestor (sh_arena (cs_shadow s)) a sp <> None /\
          (exists new, cs_out s1 = cs_out s ++ new /\
             slots_run (sh_next (cs_shadow s)) new (sh_next (cs_shadow s1))) /\
          sinv N None (cs_shadow s1) /\ later N (cs_shadow s) (cs_shadow s1) /\
          ~ above (sh_arena (cs_shadow s1)) a sp) as (s1 & E1 & EA & (new1 & Eo1 & R1) & SI1 & LA1 & NA).
      { destruct (is_ancestor_not_above (sh_arena (cs_shadow s)) a sp W Hasp) as [[-> Hna]|[-> Hab]].
        - exists s. split; [done|]. split; [done|]. split.
          { exists []. rewrite app_nil_r. split; [done|constructor]. }
          split; [done|]. split; [apply later_refl|done].
        - destruct (parent (sh_arena (cs_shadow s)) a) as [par|] eqn:Epar; cbn [oget obind].
          2:{ exfalso. destruct (si_conn _ _ _ SI a (proj1 IA) Epar) as [->|?]; [|done]. by destruct IA as (_ & ? & _). }
          set (cs := children (sh_arena (cs_shadow s)) a).
          assert (map snd (combine (seq 0 (length cs)) cs) = cs) as Ecs.
          { clear. generalize 0. induction cs as [|c cs IH]; intros k; [done|]. cbn. f_equal. apply IH. }
          assert (forall i c, (i, c) ∈ rev (combine (seq 0 (length cs)) cs) ->
            parent (sh_arena (cs_shadow s)) c = Some a) as HC.
          { intros i c Hin. apply elem_of_list_In, in_rev, elem_of_list_In, combine_elem in Hin as [_ Hc].
            by apply (wf_pc _ W). }
          assert (NoDup (map snd (rev (combine (seq 0 (length cs)) cs)))) as ND.
          { rewrite map_rev, Ecs. apply NoDup_ListNoDup, NoDup_rev, NoDup_ListNoDup. apply (wf_nd _ W). }
          destruct (reparent_total N a par (pos_in (sh_arena (cs_shadow s)) par a)
            (rev (combine (seq 0 (length cs)) cs)) s SI IA Ha0 Epar HC ND) as (s1 & E & EB & SI1 & LA1 & _ & Hch & _).
          exists s1. split; [exact E|]. split; [done|].
          split; [by apply (reparent_slots N a par (pos_in (sh_arena (cs_shadow s)) par a)
            (rev (combine (seq 0 (length cs)) cs)) s s1 SI IA Ha0 Epar HC ND)|].
          split; [done|]. split; [done|].
          apply (reparented_not_above N (cs_shadow s1) a sp (length (sh_arena (cs_shadow s)))); [done|apply IS|done|].
          intros y Hy. destruct (Hch y Hy) as [[H1 H2]|?]; [|done]. exfalso. apply H2.
          rewrite map_rev, Ecs. by apply elem_of_list_In, in_rev; rewrite rev_involutive; apply elem_of_list_In. }
      destruct (is_ancestor (sh_arena (cs_shadow s)) a sp) as [anc|] eqn:Eanc; [|done].
      cbn [ofuel obind]. rewrite E1. cbn [obind].
      assert (inner N (cs_shadow s1) a) as IA1 by (by apply LA1).
      assert (inner N (cs_shadow s1) sp) as IS1 by (by apply LA1).
      destruct (compute_path_head N (cs_shadow s1) a SI1) as (from & -> & HF); [apply IA1|apply IA1|]. cbn [obind].
      destruct (sh_move_total N (cs_shadow s1) a sp pos SI1) as (sh2 & k2 & E2 & SI2 & LA2); try done.
      rewrite E2. cbn [obind].
      destruct (sh_move_slots N (cs_shadow s1) a sp pos sh2 k2 SI1) as (NS & to & -> & HT); try done.
      cbn [obind]. intros [= <-]. cbn [cs_out cs_shadow].
      exists (new1 ++ [PMove from to k2]). rewrite Eo1, <- app_assoc. split; [done|].
      eapply slots_run_app; [exact R1|]. apply slots_run_one.
      + intros q Hq. cbn [addresses] in Hq. apply elem_of_cons in Hq as [->|Hq]; [done|].
        by apply elem_of_list_singleton in Hq as ->.
      + destruct NS as [[-> ->]|[-> ->]]; [by left|by right].
    - destruct (compute_path_head N (cs_shadow s) a SI) as (q & -> & Hq); [lia|lia|]. cbn [obind]. intros [= <-].
      eexists. split; [done|]. apply slots_run_one; [|by left]. intros q' Hq'. by apply elem_of_list_singleton in Hq' as ->.
  Qed.

  Lemma convert_ops_slots : forall ops s s', cinv N pairs s ->
    (forall op, op ∈ ops -> sound_op tb pairs op /\ old_op op) ->
    convert_loop tb ins s ops = Val s' ->
    exists new, cs_out s' = cs_out s ++ new /\
      slots_run (sh_next (cs_shadow s)) new (sh_next (cs_shadow s')).
  Proof.
    induction ops as [|op ops IH]; intros s s' CI OK; cbn [convert_loop].
    - intros [= <-]. exists []. rewrite app_nil_r. split; [done|constructor].
    - destruct (OK op) as [SO OO]; [left|].
      destruct (convert_op_total N tb rb pairs ins PB N0 PL PF s op CI SO) as (s1 & E1 & CI1).
      destruct (convert_op_slots s op s1 CI SO OO E1) as (n1 & Eo1 & R1).
      rewrite E1. cbn [obind]. intros E. destruct (IH s1 s' CI1) as (n2 & Eo2 & R2); [|done|].
      { intros o Ho. apply OK. by right. }
      exists (n1 ++ n2). rewrite Eo2, Eo1, app_assoc. split; [done|]. by eapply slots_run_app.
  Qed.

  (** Deletions introduce nothing. *)
  Lemma deletes_slots : forall ops s s', (forall op, op ∈ ops -> exists a, op = Delete a) ->
    convert_loop tb ins s ops = Val s' ->
    exists new, cs_out s' = cs_out s ++ new /\ (forall p, p ∈ new -> exists q, p = PRemove q).
  Proof.
    induction ops as [|op ops IH]; intros s s' OK; cbn [convert_loop].
    - intros [= <-]. exists []. rewrite app_nil_r. split; [done|]. intros p Hp. by apply elem_of_nil in Hp.
    - destruct (OK op) as (a & ->); [left|]. cbn [convert_op]. cbv zeta.
      destruct (compute_path (cs_shadow s) a) as [q| | |]; try done. cbn [obind].
      destruct (detach_with_placeholder (cs_shadow s) a) as [sh1| | |]; try done. cbn [obind].
      intros E. destruct (IH _ s' (fun o Ho => OK o (elem_of_list_further _ _ _ Ho)) E) as (new & Eo & Hn).
      cbn [cs_out emit] in Eo. rewrite <- app_assoc in Eo. eexists. split; [exact Eo|].
      intros p Hp. apply elem_of_cons in Hp as [->|Hp]; [by eexists|auto].
  Qed.
End Convert.

(** ** [diff] *)

Section Diff.
  Context {H : Type}.
  Variables (heqb : H -> H -> bool) (hcomb : hkind -> option string -> list H -> H) (h0 : H).

  Lemma opaque_patches_slots N sh : sinv N None sh -> forall l qs,
    (forall x c, (x, c) ∈ l -> x < N) -> opaque_patches sh l = Val qs ->
    slots_run (sh_next sh) qs (sh_next sh).
  Proof.
    intros SI. induction l as [|[x c] l IH]; intros qs HL; cbn [opaque_patches].
    - intros [= <-]. constructor.
    - assert (x < N) as Hx by (apply (HL x c); left).
      pose proof (sw_lt _ (si_wf _ _ _ SI)) as LT. rewrite (si_super _ _ _ SI) in LT.
      destruct (compute_path_head N sh x SI) as (q & -> & Hq); [lia|lia|]. cbn [obind].
      destruct (opaque_patches sh l) as [qs'| | |] eqn:E; try done. cbn [obind]. intros [= <-].
      eapply sr_cons; [|by left|apply IH; [|done]].
      + intros q' Hq'. by apply elem_of_list_singleton in Hq' as ->.
      + intros x' c' Hin. apply (HL x' c'). by right.
  Qed.

  Lemma opaque_contents_pairs new (ta tb : dtree H hkind attrs string) : forall pairs oc,
    opaque_contents heqb new ta tb pairs = Val oc -> forall x c, (x, c) ∈ oc -> exists y, (x, y) ∈ pairs.
  Proof.
    induction pairs as [|[x y] l IH]; intros oc; cbn [opaque_contents].
    - intros [= <-] x c Hin. by apply elem_of_nil in Hin.
    - assert (forall oc, opaque_contents heqb new ta tb l = Val oc ->
        forall x' c, (x', c) ∈ oc -> exists y', (x', y') ∈ (x, y) :: l) as HR.
      { intros oc' E x' c Hin. destruct (IH _ E _ _ Hin) as (y' & Hy). exists y'. by right. }
      destruct (negb (t_opaque tb y)); [apply HR|]. destruct (heqb _ _); [apply HR|].
      destruct (serialize_inner_html (doc_arena new) y) as [s|]; cbn [ofuel obind]; [|done].
      destruct (opaque_contents heqb new ta tb l) as [r| | |] eqn:E; try done. cbn [obind]. intros [= <-] x' c Hin.
      apply elem_of_cons in Hin as [[= -> ->]|Hin]; [exists y; left|by eapply HR].
  Qed.

  Lemma insert_all_slots a : forall l pos ps, insert_all a l pos = Val ps -> slots_run 1 ps 1.
  Proof.
    induction l as [|c l IH]; intros pos ps; cbn [insert_all]; [intros [= <-]; constructor|].
    destruct (create_insert_patch a c pos) as [p| | |] eqn:E; try done. cbn [obind].
    destruct (insert_all a l (S pos)) as [ps'| | |] eqn:E2; try done. cbn [obind]. intros [= <-].
    assert ((forall q, q ∈ addresses p -> heads 1 q) /\ introduces p = []) as [Ha Hi].
    { assert (forall q, q ∈ [[0; pos]] -> heads 1 q) as Hh.
      { intros q Hq. apply elem_of_list_singleton in Hq as ->. exists 0, [pos]. split; [done|lia]. }
      unfold create_insert_patch in E. destruct (node_kind a c) as [[]|]; try done.
      - destruct (insert_content (tree_fuel a) a c) as [ic|]; cbn [ofuel obind] in E; try done.
        destruct ic as [|[? ? cs|?|?] [|]]; try done. by injection E as <-.
      - by injection E as <-.
      - by injection E as <-. }
    eapply sr_cons; [done|by left|by eapply IH].
  Qed.

  (** The patches fall into a part in which slots are introduced before use,
      a list of removals, and patches that use slot 0. *)
  Theorem diff_slots old new ps : proper old -> proper new -> diff heqb hcomb h0 old new = Val ps ->
    exists ps1 rs qs k, ps = ps1 ++ rs ++ qs /\ slots_run 1 ps1 k /\
      (forall p, p ∈ rs -> exists q, p = PRemove q) /\ slots_run 1 qs 1.
  Proof.
    intros PO PN ED. destruct (body old) as [ob|] eqn:EO, (body new) as [nb|] eqn:EN.
    - destruct (diff_parts heqb hcomb h0 old new ob nb PO PN EO EN)
        as (t & ta & tb & rb & m & sh & oc & l1 & l2 & DP).
      destruct DP as [L0 PB ML MF _ _ C0 NX _ SO DE _ OC DD].
      rewrite DD in ED. rewrite convert_loop_app in ED.
      set (ins := insert_nodes (l1 ++ l2)) in ED.
      set (s0 := {| cs_shadow := sh; cs_b2s := b2s_of (m_pairs m); cs_out := [] |}) in *.
      destruct (convert_ops_total (length t) tb rb (m_pairs m) ins PB L0 ML MF l1 s0 C0) as (s1 & E1 & C1).
      { intros op Hop. by apply SO. }
      rewrite E1 in ED. cbn [obind] in ED.
      destruct (convert_ops_slots (length t) tb rb (m_pairs m) ins PB L0 ML MF l1 s0 s1 C0) as (n1 & Eo1 & R1).
      { intros op Hop. apply (SO op Hop). } { done. }
      cbn [cs_out s0] in Eo1. unfold s0 in Eo1, R1. cbn [cs_out cs_shadow app] in Eo1, R1. rewrite NX in R1.
      destruct (convert_loop tb ins s1 l2) as [s2| | |] eqn:E2; try done. cbn [obind] in ED.
      destruct (deletes_slots tb ins l2 s1 s2) as (n2 & Eo2 & HR); [|done|].
      { intros op Hop. destruct (DE op Hop) as (a & -> & _). by exists a. }
      exists n1, n2. destruct oc as [|o oc].
      + injection ED as <-. exists [], (sh_next (cs_shadow s1)). rewrite app_nil_r, Eo2, Eo1.
        split; [done|]. split; [done|]. split; [done|]. constructor.
      + destruct (opaque_patches sh (o :: oc)) as [qs| | |] eqn:EQ; try done. cbn [obind] in ED.
        injection ED as <-. exists qs, (sh_next (cs_shadow s1)). rewrite Eo2, Eo1, <- app_assoc.
        split; [done|]. split; [done|]. split; [done|]. rewrite <- NX.
        apply (opaque_patches_slots (length t) sh (ci_sh _ _ _ C0) (o :: oc) qs); [|done].
        intros x c Hin. destruct (opaque_contents_pairs new ta tb _ _ OC x c Hin) as (y & Hy). by eapply ML.
    - unfold diff in ED. rewrite EO, EN in ED. injection ED as <-.
      exists []. eexists _, [], 1. rewrite app_nil_r. cbn [app]. split; [reflexivity|]. split; [constructor|].
      split; [|constructor]. intros p Hp. apply elem_of_list_fmap in Hp as (y & -> & _). by eexists.
    - unfold diff in ED. rewrite EO, EN in ED. apply insert_all_slots in ED.
      exists ps, [], [], 1. rewrite !app_nil_r. split; [done|]. split; [done|]. split; [|constructor].
      intros p Hp. by apply elem_of_nil in Hp.
    - unfold diff in ED. rewrite EO, EN in ED. injection ED as <-. exists [], [], [], 1.
      split; [done|]. split; [constructor|]. split; [|constructor]. intros p Hp. by apply elem_of_nil in Hp.
  Qed.

  Lemma removes_introduce rs : (forall p, p ∈ rs -> exists q, p = PRemove q) -> flat_map introduces rs = [].
  Proof.
    induction rs as [|p rs IH]; intros HR; [done|]. cbn [flat_map]. destruct (HR p) as (q & ->); [left|].
    cbn [introduces app]. apply IH. intros p' Hp. apply HR. by right.
  Qed.
End Diff.
