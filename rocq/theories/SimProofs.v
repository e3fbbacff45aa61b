(** The simulation between the shadow tree of the conversion to patches
    (diff.rs:1191-1527) and the document the patches are applied to. *)
From stdpp Require Import list_numbers.
From Verif Require Import Base Arena Matching Chawathe Dom HtmlDiff
  ArenaProofs ArenaOps TreeProofs DomTree ApplyProofs ShadowProofs.

(** ** Insertion into a document *)

Record dtook (a a' : arena dnode) (p pos n d : nat) : Prop := {
  dt_wf : wf a';
  dt_len : length a' = length a;
  dt_data : forall j, data a' j = data a j;
  dt_children : forall j, children a' j =
     if Nat.eqb j p then <[pos := n]> (children a p) else children a j;
  dt_parent : forall j, parent a' j =
     if Nat.eqb j d then None else if Nat.eqb j n then Some p else parent a j
}.

(** [k] of the nodes from [pos] on make room for the new one: none for the
    native applier, at most one for the browser. *)
Record dgrew (k : nat) (a a' : arena dnode) (p pos n : nat) : Prop := {
  dg_wf : wf a';
  dg_len : length a' = length a + (pos - length (children a p));
  dg_data : forall j, j < length a -> data a' j = data a j;
  dg_data_new : forall j, length a <= j < length a' -> data a' j = Some (text_node "");
  dg_children : forall j, children a' j =
     if Nat.eqb j p
     then let X := children a p ++ seq (length a) (pos - length (children a p)) in
          take pos X ++ n :: drop (k + pos) X
     else children a j;
  dg_parent : forall j, parent a' j =
     if Nat.eqb j n then Some p
     else if Nat.leb (length a) j && Nat.ltb j (length a') then Some p
     else if bool_decide (j ∈ take k (drop pos (children a p))) then None else parent a j
}.

Lemma above_filled {D} (a a1 : arena D) p n k d : wf a -> p < length a -> filled a a1 p n d ->
  ~ above a k p -> ~ above a1 k p.
Proof.
  intros W Hp [W1 L1 D1 N1 C1 P1] Hna Ha. apply Hna. destruct Ha as (l & Hl & Hx).
  destruct (wf_chain _ W p) as [l0 Hl0]. exists l0. split; [done|].
  assert (chain a1 p l0) as Hc.
  { eapply chain_agree; [done|]. intros x Hx'. rewrite P1.
    assert (x < length a) by (destruct Hx' as [->|]; [done|by eapply chain_lt]).
    destruct (Nat.leb_spec (length a) x); simpl; [lia|done]. }
  by rewrite (chain_det _ _ _ _ Hc Hl).
Qed.

Lemma insert_at_position_grew a p pos n :
  wf a -> p < length a -> n < length a -> parent a n = None -> ~ above a n p ->
  exists a', insert_at_position a p pos n = Val a' /\ dgrew 0 a a' p pos n.
Proof.
  intros W Hp Hn Ho Hna. unfold insert_at_position.
  destruct (fill_gaps_full (text_node "") (pos - length (children a p)) a p W Hp)
    as (a1 & E1 & Fl). pose proof Fl as [W1 L1 D1 N1 C1 P1]. rewrite E1. simpl.
  pose proof (above_filled _ _ _ _ n _ W Hp Fl Hna) as Hna1.
  assert (parent a1 n = None) as Ho1.
  { rewrite P1. destruct (Nat.leb_spec (length a) n); simpl; [lia|done]. }
  set (X := children a p ++ seq (length a) (pos - length (children a p))) in *.
  assert (children a1 p = X) as HX by (by rewrite C1, Nat.eqb_refl).
  assert (exists a2, match children a1 p !! pos with
           | Some next => insert_before a1 next n | None => append a1 p n end = Val a2 /\
          linked a1 a2 p n (take pos X ++ n :: drop pos X)) as (a2 & E2 & [W2 L2 D2 C2 P2]).
  { destruct (children a1 p !! pos) as [nx|] eqn:En.
    - assert (parent a1 nx = Some p) as Hnx.
      { apply (wf_pc _ W1). by eapply elem_of_list_lookup_2. }
      destruct (insert_before_full a1 nx n p W1 ltac:(lia) Ho1 Hnx Hna1) as (a2 & E2 & K).
      exists a2. split; [done|].
      rewrite (insert_before_list_lookup _ _ _ pos) in K; [|apply W1|done]. by rewrite <- HX.
    - destruct (append_full a1 p n W1 ltac:(lia) ltac:(lia) Ho1 Hna1) as (a2 & E2 & K).
      exists a2. split; [done|]. apply lookup_ge_None in En. rewrite HX in *.
      rewrite take_ge, drop_ge by done. done. }
  exists a2. split.
  { destruct (children a1 p !! pos); done. }
  split.
  - done.
  - lia.
  - intros j Hj. rewrite D2. by apply D1.
  - intros j Hj. rewrite D2. apply N1. lia.
  - intros j. rewrite C2, C1. by destruct (Nat.eqb_spec j p).
  - intros j. rewrite P2, P1, L2, L1. done.
Qed.

Lemma insert_at_none a sl at_ n p pos :
  get_slot_parent a sl at_ = Val (p, pos) ->
  wf a -> p < length a -> n < length a -> parent a n = None -> ~ above a n p ->
  exists a', insert_at a sl at_ n None = ((a', sl), Val tt) /\ dgrew 0 a a' p pos n.
Proof.
  intros Hg W Hp Hn Ho Hna.
  destruct (insert_at_position_grew a p pos n W Hp Hn Ho Hna) as (a' & E & G).
  exists a'. split; [|done]. unfold insert_at. rewrite Hg. by rewrite E.
Qed.

Lemma insert_at_some a sl at_ n k p pos d :
  get_slot_parent a sl at_ = Val (p, pos) -> children a p !! pos = Some d ->
  wf a -> n < length a -> parent a n = None -> ~ above a n p ->
  exists a', insert_at a sl at_ n (Some k) = ((a', slot_set sl k d), Val tt) /\ dtook a a' p pos n d.
Proof.
  intros Hg Hd W Hn Ho Hna.
  assert (d ∈ children a p) as Hin by (by eapply elem_of_list_lookup_2).
  pose proof (proj2 (wf_pc _ W _ _) Hin) as Hpd.
  assert (p < length a) as Hp by (by eapply wf_parent_lt).
  unfold insert_at. rewrite Hg, Hd.
  destruct (detach_full a d W) as [W1 L1 D1 C1 P1]. set (a1 := detach a d) in *.
  assert (children a1 p = take pos (children a p) ++ drop (S pos) (children a p)) as Hc1.
  { rewrite C1. apply remove_id_lookup; [apply W|done]. }
  pose proof (lookup_lt_Some _ _ _ Hd) as Hlt.
  assert (parent a1 n = None) as Ho1. { rewrite P1. by destruct (Nat.eqb_spec n d). }
  assert (~ above a1 n p) as Hna1.
  { intros (l & Hl & Hx). apply Hna. destruct (wf_chain _ W p) as [l0 Hl0].
    destruct (not_above_chain a d p l0) as [Hdp Hdl]; [by apply above_not_parent|done|].
    pose proof (chain_detach_other a d p l0 Hl0 Hdp Hdl) as Hl1. fold a1 in Hl1.
    rewrite (chain_det _ _ _ _ Hl Hl1) in Hx. exists l0. done. }
  destruct (insert_at_position_grew a1 p pos n W1 ltac:(lia) ltac:(lia) Ho1 Hna1)
    as (a' & E & [W2 L2 D2 N2 C2 P2]).
  rewrite E. simpl. eexists. split; [reflexivity|].
  assert (pos - length (children a1 p) = 0) as Hz.
  { rewrite Hc1, app_length, take_length, drop_length. lia. }
  rewrite Hz, Nat.add_0_r in L2.
  split.
  - done.
  - lia.
  - intros j. destruct (decide (j < length a)).
    + rewrite D2 by lia. apply D1.
    + unfold data. rewrite !lookup_ge_None_2 by lia. done.
  - intros j. rewrite C2, Hz. cbn [seq]. rewrite app_nil_r.
    destruct (Nat.eqb_spec j p) as [->|].
    + rewrite Hc1. cbv zeta. rewrite insert_take_drop by done.
      rewrite take_app_alt, drop_app_alt by (rewrite take_length; lia). done.
    + rewrite C1. apply remove_id_notin. intros Hj. apply (wf_pc _ W) in Hj. congruence.
  - intros j. rewrite P2, P1. destruct (Nat.eqb_spec j n) as [->|].
    + destruct (Nat.eqb_spec n d); [congruence|done].
    + destruct (Nat.leb_spec (length a1) j), (Nat.ltb_spec j (length a')); simpl; try done. lia.
Qed.

Lemma slot_parent_path a sl q pos p :
  q <> [] -> navigate_slot_path a sl q = Val p -> get_slot_parent a sl (q ++ [pos]) = Val (p, pos).
Proof.
  intros Hq Hn. unfold get_slot_parent. rewrite app_length. simpl.
  destruct (Nat.ltb_spec (length q + 1) 2) as [Hl|_].
  { destruct q; [done|]. simpl in Hl. lia. }
  rewrite removelast_last, Hn, last_last. done.
Qed.

Lemma navigate_app a q r : forall cur n, navigate a cur q = Val n ->
  navigate a cur (q ++ r) = navigate a n r.
Proof.
  induction q as [|i q IH]; intros cur n; simpl; [by intros [= ->]|].
  destruct (children a cur !! i); [|done]. apply IH.
Qed.

Lemma navigate_slot_app a sl q r n : navigate_slot_path a sl q = Val n ->
  navigate_slot_path a sl (q ++ r) = navigate a n r.
Proof.
  destruct q as [|k q]; [done|]. simpl. destruct (slot_get sl k); [|done]. apply navigate_app.
Qed.

(** Nothing but new nodes. *)
Record kept (a a' : arena dnode) : Prop := {
  kp_wf : wf a';
  kp_len : length a <= length a';
  kp_data : forall j, j < length a -> data a' j = data a j;
  kp_children : forall j, j < length a -> children a' j = children a j;
  kp_parent : forall j, j < length a -> parent a' j = parent a j
}.

Lemma kept_refl a : wf a -> kept a a.
Proof. by split. Qed.

Lemma kept_replaced a a' n d : replaced a a' n d -> parent a n = None -> kept a a'.
Proof.
  intros [W L D DN CL PN P C CO] Ho. split.
  - done.
  - lia.
  - intros j Hj. apply D. lia.
  - intros j Hj. apply CO; [lia|]. by rewrite Ho.
  - intros j Hj. rewrite P by lia. by destruct (Nat.eqb_spec j n) as [->|].
Qed.

(** ** The simulation relation *)

Definition empty_leaf (a : arena dnode) (e : nat) : Prop :=
  node_kind a e = Some (NText "") /\ children a e = [].

Definition elemk (k : nkind) : Prop := match k with NElem _ _ => True | _ => False end.

(** Which attributes make the document's elements opaque: such elements are
    treated as leaves.  [no_opaques] makes none opaque.  [tight]: the document has
    no empty texts behind the children that the shadow knows. *)
Class opaques := { opq : attrs -> bool; tight : bool }.
Definition no_opaques : opaques := {| opq := fun _ => false; tight := false |}.

Definition contk {OQ : opaques} (k : nkind) : Prop :=
  match k with NElem _ l => opq l = false | _ => False end.

Lemma contk_elem {OQ : opaques} k : contk k -> elemk k.
Proof. by destruct k. Qed.

(** The shadow [s] and the document state [st] show the same tree: [f] maps the
    shadow nodes in [dom] to document nodes of kinds [kd]; document nodes may
    have further empty text children at the end.  [b] is the document's body,
    [lb] its ancestors; shadow node 0 stands for the body. *)
Record sim {OQ : opaques} (s : shadow) (st : pstate) (f : nat -> nat) (dom : nat -> Prop)
    (kd : nat -> nkind) (b : nat) (lb : list nat) : Prop := {
  sm_sh : shwf s;
  sm_wf : wf (fst st);
  sm_lt : forall x, dom x -> x < length (sh_arena s) /\ f x < length (fst st);
  sm_inj : forall x y, dom x -> dom y -> f x = f y -> x = y;
  sm_inner : forall x, dom x -> x <> sh_super s /\ parent (sh_arena s) x <> Some (sh_super s);
  sm_down : forall x c, dom x -> c ∈ children (sh_arena s) x -> dom c;
  sm_up : forall x p, dom x -> parent (sh_arena s) x = Some p ->
     p <> sh_super s -> parent (sh_arena s) p = Some (sh_super s) \/ dom p;
  sm_ch : forall x, dom x -> exists E,
     children (fst st) (f x) = map f (children (sh_arena s) x) ++ E /\
     (forall e, e ∈ E -> empty_leaf (fst st) e /\ forall y, dom y -> f y <> e);
  sm_slot : forall k sl c, children (sh_arena s) (sh_super s) !! k = Some sl ->
     c ∈ children (sh_arena s) sl -> dom c ->
     slot_get (snd st) k = Some (f c) /\ (k <> 0 -> parent (fst st) (f c) = None);
  sm_root : dom 0 /\ f 0 = b /\
     exists s0, children (sh_arena s) (sh_super s) !! 0 = Some s0 /\ children (sh_arena s) s0 = [0];
  sm_chain : chain (fst st) b lb;
  sm_out : forall x, dom x -> f x ∉ lb;
  sm_kind : forall x, dom x -> node_kind (fst st) (f x) = Some (kd x);
  sm_leaf : forall x, dom x -> ~ contk (kd x) -> children (fst st) (f x) = [];
  sm_tight : tight = true -> forall x, dom x ->
     length (children (fst st) (f x)) <= length (children (sh_arena s) x)
}.

Section Sim.
  Context {OQ : opaques}.
  Variables (s : shadow) (a : arena dnode) (sl : slots) (f : nat -> nat) (dom : nat -> Prop)
    (kd : nat -> nkind) (b : nat) (lb : list nat).
  Hypothesis SM : sim s (a, sl) f dom kd b lb.

  Let W : wf (sh_arena s) := sw_wf _ (sm_sh _ _ _ _ _ _ _ SM).
  Let WD : wf a := sm_wf _ _ _ _ _ _ _ SM.

  Lemma sim_child x i c : dom x -> children (sh_arena s) x !! i = Some c ->
    children a (f x) !! i = Some (f c).
  Proof.
    intros Hx Hi. destruct (sm_ch _ _ _ _ _ _ _ SM x Hx) as (E & HE & _). simpl in HE. rewrite HE.
    rewrite lookup_app_l by (rewrite map_length; by eapply lookup_lt_Some).
    change (map f) with (fmap (M := list) f). by rewrite list_lookup_fmap, Hi.
  Qed.

  Lemma sim_parent x p : dom x -> dom p -> parent (sh_arena s) x = Some p -> parent a (f x) = Some (f p).
  Proof.
    intros Hx Hp Hpa. apply (wf_pc _ W) in Hpa. apply elem_of_list_lookup in Hpa as [i Hi].
    apply (wf_pc _ WD). eapply elem_of_list_lookup_2. by apply (sim_child p i x).
  Qed.

  Lemma spath_dom x q : spath s x q -> dom x ->
    (exists sl' k, q = [k] /\ parent (sh_arena s) x = Some sl' /\
       children (sh_arena s) (sh_super s) !! k = Some sl') \/
    (exists p q' i, q = q' ++ [i] /\ parent (sh_arena s) x = Some p /\ dom p /\
       children (sh_arena s) p !! i = Some x /\ spath s p q').
  Proof.
    intros Hq Hx. inversion Hq as [? sl' k Hp Hk|? p q' i Hp Hns Hi Hq']; subst.
    - left. by exists sl', k.
    - right. exists p, q', i. split; [done|]. split; [done|].
      destruct (sm_up _ _ _ _ _ _ _ SM x p Hx Hp) as [?|Hd]; [|done|].
      + intros ->. inversion Hq' as [? ? ? Hp'|? ? ? ? Hp']; subst;
          rewrite (sw_top _ (sm_sh _ _ _ _ _ _ _ SM)) in Hp'; done.
      + done.
  Qed.

  Lemma sim_navigate x q : spath s x q -> dom x -> navigate_slot_path a sl q = Val (f x).
  Proof.
    intros Hq. remember q as q0 eqn:E0. revert x q E0 Hq.
    induction q0 as [|i q0 IH] using rev_ind; intros x q E0 Hq Hx.
    - exfalso. by apply (spath_length s x []).
    - destruct (spath_dom _ _ Hq Hx) as [(sl' & k & E & Hp & Hk)|(p & q' & j & E & Hp & Hd & Hi & Hq')].
      + rewrite E. apply (wf_pc _ W) in Hp.
        destruct (sm_slot _ _ _ _ _ _ _ SM k sl' x Hk Hp Hx) as [Hsl _]. simpl in *. by rewrite Hsl.
      + apply app_inj_tail in E as [-> ->].
        rewrite (navigate_slot_app _ _ _ _ (f p)) by (by eapply IH). simpl.
        by rewrite (sim_child p j x).
  Qed.

  Lemma sim_slot0 x q : spath s x q -> dom x -> forall sl', parent (sh_arena s) x = Some sl' ->
    children (sh_arena s) (sh_super s) !! 0 = Some sl' -> x = 0.
  Proof.
    intros _ _ sl' Hp H0. destruct (sm_root _ _ _ _ _ _ _ SM) as (_ & _ & s0 & Hs0 & Hc).
    assert (sl' = s0) as -> by congruence. apply (wf_pc _ W) in Hp. rewrite Hc in Hp.
    by apply elem_of_list_singleton in Hp.
  Qed.

  Lemma sim_chain x q : spath s x q -> dom x -> exists l, chain a (f x) l /\
    forall y, y ∈ l -> y ∈ lb \/ exists z, dom z /\ above (sh_arena s) z x /\ z <> x /\ y = f z.
  Proof.
    intros Hq. remember q as q0 eqn:E0. revert x q E0 Hq.
    induction q0 as [|i q0 IH] using rev_ind; intros x q E0 Hq Hx.
    - exfalso. by apply (spath_length s x []).
    - destruct (spath_dom _ _ Hq Hx) as [(sl' & k & E & Hp & Hk)|(p & q' & j & E & Hp & Hd & Hi & Hq')].
      + destruct (decide (k = 0)) as [->|Hk0].
        * assert (x = 0) as -> by (by eapply sim_slot0).
          destruct (sm_root _ _ _ _ _ _ _ SM) as (_ & -> & _).
          exists lb. split; [apply (sm_chain _ _ _ _ _ _ _ SM)|]. auto.
        * exists []. split; [|intros y Hy; inversion Hy].
          apply chain_root. apply (wf_pc _ W) in Hp.
          by destruct (sm_slot _ _ _ _ _ _ _ SM k sl' x Hk Hp Hx) as [_ Hn]; auto.
      + apply app_inj_tail in E as [-> ->].
        destruct (IH p _ eq_refl Hq' Hd) as (l & Hl & Hin).
        exists (f p :: l). split; [eapply chain_up; [by apply sim_parent|done]|].
        assert (p <> x) as Hpx.
        { intros ->. apply (above_not_parent _ _ _ W Hp). by apply above_refl. }
        intros y Hy. apply elem_of_cons in Hy as [->|Hy].
        * right. exists p. split; [done|]. split; [|done]. eapply above_parent; [by apply above_refl|done].
        * destruct (Hin y Hy) as [?|(z & Hz & Ha & Hne & ->)]; [by left|]. right.
          exists z. split; [done|]. split; [by eapply above_parent|]. split; [|done].
          intros ->. by apply (above_not_parent _ _ _ W Hp).
  Qed.

  Lemma sim_not_above n p q : spath s p q -> dom n -> dom p ->
    ~ above (sh_arena s) n p -> ~ above a (f n) (f p).
  Proof.
    intros Hq Hn Hp Hna (l & Hl & Hx). destruct (sim_chain p q Hq Hp) as (l' & Hl' & Hin).
    rewrite (chain_det _ _ _ _ Hl Hl') in Hx. destruct Hx as [Hx|Hx].
    - apply Hna. rewrite (sm_inj _ _ _ _ _ _ _ SM n p Hn Hp Hx). by apply above_refl.
    - destruct (Hin _ Hx) as [Ho|(z & Hz & Ha & _ & Ez)].
      + by apply (sm_out _ _ _ _ _ _ _ SM n).
      + apply Hna. by rewrite (sm_inj _ _ _ _ _ _ _ SM n z Hn Hz Ez).
  Qed.
End Sim.

Lemma node_kind_data (a a' : arena dnode) i : data a' i = data a i -> node_kind a' i = node_kind a i.
Proof. unfold node_kind. by intros ->. Qed.

(** ** Preservation *)

Section Steps.
  Context {OQ : opaques}.
  Variables (s : shadow) (a : arena dnode) (sl : slots) (f : nat -> nat) (dom : nat -> Prop)
    (kd : nat -> nkind) (b : nat) (lb : list nat).
  Hypothesis SM : sim s (a, sl) f dom kd b lb.

  Let SW := sm_sh _ _ _ _ _ _ _ SM.
  Let W : wf (sh_arena s) := sw_wf _ SW.
  Let WD : wf a := sm_wf _ _ _ _ _ _ _ SM.

  Lemma sim_root_ne n : parent (sh_arena s) n = None -> n <> 0.
  Proof.
    intros Hn ->. destruct (sm_root _ _ _ _ _ _ _ SM) as (_ & _ & s0 & _ & Hc).
    assert (0 ∈ children (sh_arena s) s0) as H0 by (rewrite Hc; by left).
    apply (wf_pc _ W) in H0. congruence.
  Qed.

  Lemma slot_not_dom k sl' : children (sh_arena s) (sh_super s) !! k = Some sl' -> ~ dom sl'.
  Proof.
    intros Hk Hd. apply (sm_inner _ _ _ _ _ _ _ SM) in Hd as [_ Hd]. apply Hd.
    apply (wf_pc _ W). by eapply elem_of_list_lookup_2.
  Qed.

  Lemma slot_lt k sl' : children (sh_arena s) (sh_super s) !! k = Some sl' ->
    sl' < length (sh_arena s) /\ sl' <> sh_super s /\ parent (sh_arena s) sl' = Some (sh_super s).
  Proof.
    intros Hk. apply elem_of_list_lookup_2 in Hk. split; [by eapply wf_child_lt|].
    apply (wf_pc _ W) in Hk. split; [|done]. intros ->. rewrite (sw_top _ SW) in Hk. done.
  Qed.

  (** A node was put at a taken position. *)
  Lemma sim_took s' a' p pos n occ :
    took s s' p pos n occ -> dtook a a' (f p) pos (f n) (f occ) ->
    dom n -> dom p -> contk (kd p) ->
    parent (sh_arena s) n = None -> children (sh_arena s) p !! pos = Some occ ->
    sim s' (a', slot_set sl (sh_next s) (f occ)) f dom kd b lb.
  Proof.
    intros [SW' Su' L' D' C' P'] [W2 L2 D2 C2 P2] Hn Hp Hep Hon Hocc.
    assert (dom occ) as Hdo.
    { eapply (sm_down _ _ _ _ _ _ _ SM p); [done|]. by eapply elem_of_list_lookup_2. }
    assert (parent (sh_arena s) occ = Some p) as Hpo.
    { apply (wf_pc _ W). by eapply elem_of_list_lookup_2. }
    pose proof (lookup_lt_Some _ _ _ Hocc) as Hlt.
    destruct (sm_inner _ _ _ _ _ _ _ SM p Hp) as [Hpsu Hpns].
    pose proof (sim_root_ne n Hon) as Hn0.
    assert (occ <> 0) as Hocc0.
    { intros ->. destruct (sm_root _ _ _ _ _ _ _ SM) as (_ & _ & s0 & Hs0 & Hc0).
      assert (0 ∈ children (sh_arena s) s0) as H0 by (rewrite Hc0; by left).
      apply (wf_pc _ W) in H0. assert (s0 = p) as -> by congruence. by apply (slot_not_dom 0 p). }
    assert (forall x, dom x -> x <> length (sh_arena s)) as Hnew.
    { intros x Hx. apply (sm_lt _ _ _ _ _ _ _ SM) in Hx as [Hx _]. lia. }
    assert (forall x, dom x -> children (sh_arena s') x =
              if Nat.eqb x p then <[pos := n]> (children (sh_arena s) p) else children (sh_arena s) x) as Cd.
    { intros x Hx. rewrite C'. pose proof (Hnew x Hx). destruct (sm_inner _ _ _ _ _ _ _ SM x Hx) as [? _].
      destruct (Nat.eqb_spec x (sh_super s)); [done|]. by destruct (Nat.eqb_spec x (length (sh_arena s))). }
    assert (forall x, x <> n -> x <> occ -> dom x -> parent a' (f x) = parent a (f x)) as Pd.
    { intros x Hxn Hxo Hx. rewrite P2. destruct (Nat.eqb_spec (f x) (f occ)) as [E|].
      { by apply (sm_inj _ _ _ _ _ _ _ SM) in E. }
      destruct (Nat.eqb_spec (f x) (f n)) as [E|]; [|done]. by apply (sm_inj _ _ _ _ _ _ _ SM) in E. }
    split; simpl.
    - done.
    - done.
    - intros x Hx. apply (sm_lt _ _ _ _ _ _ _ SM) in Hx. simpl in Hx. lia.
    - apply (sm_inj _ _ _ _ _ _ _ SM).
    - intros x Hx. rewrite Su'. destruct (sm_inner _ _ _ _ _ _ _ SM x Hx) as [? ?].
      split; [done|]. rewrite P'. pose proof (sw_lt _ SW). pose proof (Hnew x Hx).
      destruct (Nat.eqb_spec x occ); [intros [= E]; lia|].
      destruct (Nat.eqb_spec x (length (sh_arena s))); [done|].
      destruct (Nat.eqb_spec x n); [congruence|done].
    - intros x c Hx. rewrite Cd by done. destruct (Nat.eqb_spec x p) as [->|].
      + rewrite insert_take_drop by done. rewrite elem_of_app, elem_of_cons.
        intros [Hc|[->|Hc]]; [|done|].
        * eapply (sm_down _ _ _ _ _ _ _ SM p); [done|]. apply elem_of_list_lookup in Hc as [i Hi].
          apply lookup_take_Some in Hi as [Hi _]. by eapply elem_of_list_lookup_2.
        * eapply (sm_down _ _ _ _ _ _ _ SM p); [done|]. apply elem_of_list_lookup in Hc as [i Hi].
          rewrite lookup_drop in Hi. by eapply elem_of_list_lookup_2.
      + by apply (sm_down _ _ _ _ _ _ _ SM).
    - intros x q Hx. rewrite Su', P'. pose proof (Hnew x Hx).
      destruct (Nat.eqb_spec x occ) as [->|].
      { intros [= <-] _. left. rewrite P'. pose proof (Hnew occ Hdo).
        destruct (Nat.eqb_spec (length (sh_arena s)) occ); [done|]. by rewrite Nat.eqb_refl. }
      destruct (Nat.eqb_spec x (length (sh_arena s))); [done|].
      destruct (Nat.eqb_spec x n) as [->|]; [intros [= <-] _; by right|].
      intros Hq Hqs. destruct (sm_up _ _ _ _ _ _ _ SM x q Hx Hq Hqs) as [Hs|]; [left|by right].
      rewrite P'. destruct (Nat.eqb_spec q occ) as [->|].
      { exfalso. rewrite Hpo in Hs. congruence. }
      destruct (Nat.eqb_spec q (length (sh_arena s))); [done|].
      destruct (Nat.eqb_spec q n) as [->|]; [congruence|done].
    - intros x Hx. destruct (sm_ch _ _ _ _ _ _ _ SM x Hx) as (E & HE & HE'). simpl in *.
      exists E. split.
      + rewrite Cd by done. rewrite C2. destruct (Nat.eqb_spec (f x) (f p)) as [Ef|Ef].
        * apply (sm_inj _ _ _ _ _ _ _ SM) in Ef as ->; [|done|done]. rewrite Nat.eqb_refl.
          rewrite HE, insert_app_l by (by rewrite map_length).
          f_equal. symmetry. apply (list_fmap_insert f).
        * destruct (Nat.eqb_spec x p); [congruence|done].
      + intros e He. destruct (HE' e He) as [[Hk Hc] Hne]. split; [|done]. split.
        * by rewrite (node_kind_data a).
        * rewrite C2. destruct (Nat.eqb_spec e (f p)) as [->|]; [|done]. exfalso. by apply (Hne p).
    - intros k sl' c. rewrite Su', C', Nat.eqb_refl. intros Hk Hc Hdc.
      destruct (decide (k < length (children (sh_arena s) (sh_super s)))) as [Hk'|Hk'].
      + rewrite lookup_app_l in Hk by done.
        destruct (slot_lt _ _ Hk) as (Hl & Hns & Hps).
        rewrite C' in Hc. destruct (Nat.eqb_spec sl' (sh_super s)); [done|].
        destruct (Nat.eqb_spec sl' (length (sh_arena s))); [lia|].
        destruct (Nat.eqb_spec sl' p) as [->|]; [congruence|].
        destruct (sm_slot _ _ _ _ _ _ _ SM k sl' c Hk Hc Hdc) as [Hg Hpn]. simpl in *.
        rewrite (sw_next _ SW). destruct (Nat.eqb_spec (length (children (sh_arena s) (sh_super s))) k); [lia|].
        split; [done|]. intros Hk0. apply (wf_pc _ W) in Hc. rewrite Pd; [by apply Hpn| | |done].
        * intros ->. congruence.
        * intros ->. congruence.
      + apply lookup_app_Some in Hk as [Hk|[_ Hk]]; [apply lookup_lt_Some in Hk; lia|].
        apply list_lookup_singleton_Some in Hk as [Hk <-].
        rewrite C' in Hc. pose proof (sw_lt _ SW).
        destruct (Nat.eqb_spec (length (sh_arena s)) (sh_super s)); [lia|]. rewrite Nat.eqb_refl in Hc.
        apply elem_of_list_singleton in Hc as ->.
        rewrite (sw_next _ SW). destruct (Nat.eqb_spec (length (children (sh_arena s) (sh_super s))) k); [|lia].
        split; [done|]. intros _. by rewrite P2, Nat.eqb_refl.
    - destruct (sm_root _ _ _ _ _ _ _ SM) as (H0 & Hf & s0 & Hs0 & Hc0).
      split; [done|]. split; [done|]. exists s0. rewrite Su', C', Nat.eqb_refl. split.
      + rewrite lookup_app_l; [done|]. by eapply lookup_lt_Some.
      + destruct (slot_lt _ _ Hs0) as (Hl & Hns & Hps).
        rewrite C'. destruct (Nat.eqb_spec s0 (sh_super s)); [done|].
        destruct (Nat.eqb_spec s0 (length (sh_arena s))); [lia|].
        destruct (Nat.eqb_spec s0 p) as [->|]; [congruence|done].
    - destruct (sm_root _ _ _ _ _ _ _ SM) as (H0 & Hf & _).
      eapply chain_agree; [apply (sm_chain _ _ _ _ _ _ _ SM)|].
      intros x [->|Hx].
      + rewrite <- Hf. by apply Pd.
      + simpl. rewrite P2. destruct (Nat.eqb_spec x (f occ)) as [->|].
        { by apply (sm_out _ _ _ _ _ _ _ SM) in Hdo. }
        destruct (Nat.eqb_spec x (f n)) as [->|]; [|done]. by apply (sm_out _ _ _ _ _ _ _ SM) in Hn.
    - apply (sm_out _ _ _ _ _ _ _ SM).
    - intros x Hx. rewrite (node_kind_data a) by done. by apply (sm_kind _ _ _ _ _ _ _ SM).
    - intros x Hx He. rewrite C2. destruct (Nat.eqb_spec (f x) (f p)) as [Ef|_].
      { apply (sm_inj _ _ _ _ _ _ _ SM) in Ef as ->; done. }
      by apply (sm_leaf _ _ _ _ _ _ _ SM).
    - intros TI x Hx. pose proof (sm_tight _ _ _ _ _ _ _ SM TI x Hx) as Hl. simpl in Hl.
      rewrite Cd, C2 by done. destruct (Nat.eqb_spec (f x) (f p)) as [Ef|Ef].
      + apply (sm_inj _ _ _ _ _ _ _ SM) in Ef as ->; [|done|done]. rewrite Nat.eqb_refl.
        by rewrite !insert_length.
      + destruct (Nat.eqb_spec x p); [congruence|done].
  Qed.

  (** A fresh node on both sides, not linked yet. *)
  Lemma sim_new ds d k :
    d_kind d = k ->
    sim (sh_with s (fst (new_node (sh_arena s) ds))) (fst (new_node a d), sl)
        (fun x => if Nat.eqb x (length (sh_arena s)) then length a else f x)
        (fun x => dom x \/ x = length (sh_arena s))
        (fun x => if Nat.eqb x (length (sh_arena s)) then k else kd x) b lb.
  Proof.
    intros Hk.
    destruct (new_node_full (sh_arena s) ds W) as (W1 & L1 & P1 & C1 & D1 & Cj & Pj & Dj).
    destruct (new_node_full a d WD) as (W2 & L2 & P2 & C2 & D2 & Cj2 & Pj2 & Dj2).
    set (s1 := fst (new_node (sh_arena s) ds)) in *. set (a1 := fst (new_node a d)) in *.
    set (L := length (sh_arena s)) in *.
    pose proof (sw_lt _ SW) as HsuL. fold L in HsuL.
    assert (forall x, dom x -> x <> L) as Hnew.
    { intros x Hx. apply (sm_lt _ _ _ _ _ _ _ SM) in Hx as [Hx _]. fold L in Hx. lia. }
    assert (forall x, dom x -> (if Nat.eqb x L then length a else f x) = f x) as Hf.
    { intros x Hx. destruct (Nat.eqb_spec x L); [by apply Hnew in Hx|done]. }
    assert (forall x, dom x -> f x < length a) as Hfl.
    { intros x Hx. by apply (sm_lt _ _ _ _ _ _ _ SM) in Hx as [_ Hx]. }
    split; simpl.
    - destruct SW as [? ? ? ?]. split; simpl; [done|rewrite L1; lia|by rewrite Pj|by rewrite Cj].
    - done.
    - intros x [Hx| ->].
      + rewrite Hf by done. pose proof (Hfl x Hx). apply (sm_lt _ _ _ _ _ _ _ SM) in Hx as [Hx _].
        rewrite L1, L2. fold L in Hx. lia.
      + rewrite Nat.eqb_refl, L1, L2. lia.
    - intros x y [Hx| ->] [Hy| ->]; rewrite ?Nat.eqb_refl, ?Hf by done.
      + by apply (sm_inj _ _ _ _ _ _ _ SM).
      + intros E. pose proof (Hfl x Hx). lia.
      + intros E. pose proof (Hfl y Hy). lia.
      + done.
    - intros x [Hx| ->]; rewrite Pj.
      + by apply (sm_inner _ _ _ _ _ _ _ SM).
      + split; [lia|]. rewrite (parent_ge (sh_arena s)); [done|]. fold L. lia.
    - intros x c. rewrite Cj. intros [Hx| ->] Hc.
      + left. by eapply (sm_down _ _ _ _ _ _ _ SM).
      + rewrite children_ge in Hc by (fold L; lia). inversion Hc.
    - intros x q. rewrite !Pj. intros [Hx| ->] Hq Hqs.
      + destruct (sm_up _ _ _ _ _ _ _ SM x q Hx Hq Hqs); auto.
      + rewrite parent_ge in Hq by (fold L; lia). done.
    - intros x Hx. rewrite Cj, Cj2. destruct Hx as [Hx| ->].
      + destruct (sm_ch _ _ _ _ _ _ _ SM x Hx) as (E & HE & HE'). simpl in *.
        exists E. rewrite Hf by done. split.
        * rewrite HE. f_equal. apply map_ext_in. intros c Hc. apply elem_of_list_In in Hc.
          symmetry. apply Hf. by eapply (sm_down _ _ _ _ _ _ _ SM).
        * intros e He. destruct (HE' e He) as [[Hke Hc] Hne].
          assert (e < length a) as Hel.
          { eapply wf_child_lt; [exact WD|]. rewrite HE. apply elem_of_app. by right. }
          split; [split|].
          -- rewrite (node_kind_data a); [done|]. apply Dj2. lia.
          -- by rewrite Cj2.
          -- intros y [Hy| ->]; [rewrite Hf by done; by apply Hne|]. rewrite Nat.eqb_refl. lia.
      + exists []. rewrite Nat.eqb_refl, !children_ge by (fold L; lia). split; [done|].
        intros e He. inversion He.
    - intros k' sl' c. rewrite !Cj. intros Hk' Hc [Hdc| ->].
      + rewrite Hf, Pj2 by done. by eapply (sm_slot _ _ _ _ _ _ _ SM).
      + exfalso. apply (wf_pc _ W) in Hc. rewrite parent_ge in Hc by (fold L; lia). done.
    - destruct (sm_root _ _ _ _ _ _ _ SM) as (H0 & Hf0 & s0 & Hs0 & Hc0).
      split; [by left|]. split; [etransitivity; [exact (Hf 0 H0)|done]|]. exists s0. by rewrite !Cj.
    - eapply chain_agree; [apply (sm_chain _ _ _ _ _ _ _ SM)|]. intros x _. apply Pj2.
    - intros x [Hx| ->].
      + rewrite Hf by done. by apply (sm_out _ _ _ _ _ _ _ SM).
      + rewrite Nat.eqb_refl. intros Hin.
        pose proof (chain_lt _ _ _ _ WD (sm_chain _ _ _ _ _ _ _ SM) Hin) as Hlt. simpl in Hlt. lia.
    - intros x [Hx| ->].
      + rewrite Hf by done. destruct (Nat.eqb_spec x L); [by apply Hnew in Hx|].
        rewrite (node_kind_data a); [by apply (sm_kind _ _ _ _ _ _ _ SM)|]. apply Dj2.
        pose proof (Hfl x Hx). lia.
      + rewrite Nat.eqb_refl. unfold node_kind. rewrite D2. simpl. by rewrite Hk.
    - intros x [Hx| ->].
      + rewrite Hf by done. destruct (Nat.eqb_spec x L); [by apply Hnew in Hx|].
        rewrite Cj2. by apply (sm_leaf _ _ _ _ _ _ _ SM).
      + rewrite Nat.eqb_refl. intros _. apply C2.
    - intros TI x [Hx| ->]; rewrite Cj, Cj2.
      + rewrite Hf by done. by apply (sm_tight _ _ _ _ _ _ _ SM).
      + rewrite Nat.eqb_refl, !children_ge by (fold L; lia). done.
  Qed.

  (** Only the kind of one node changed. *)
  Lemma sim_kind x k :
    dom x -> (contk (kd x) -> contk k) -> sim s (set_kind a (f x) k, sl) f dom (fun y => if Nat.eqb y x then k else kd y) b lb.
  Proof.
    intros Hx Hek. pose proof (sm_kind _ _ _ _ _ _ _ SM x Hx) as Hkx. simpl in Hkx.
    unfold node_kind in Hkx. destruct (data a (f x)) as [d|] eqn:Ed; [|done].
    assert (f x < length a) as Hlt by (by eapply data_lt).
    assert (set_kind a (f x) k = set_data a (f x) (mkD k (d_ns d))) as -> by (unfold set_kind; by rewrite Ed).
    split; simpl.
    - done.
    - by apply wf_set_data.
    - intros y Hy. rewrite length_set_data. by apply (sm_lt _ _ _ _ _ _ _ SM).
    - apply (sm_inj _ _ _ _ _ _ _ SM).
    - apply (sm_inner _ _ _ _ _ _ _ SM).
    - apply (sm_down _ _ _ _ _ _ _ SM).
    - apply (sm_up _ _ _ _ _ _ _ SM).
    - intros y Hy. rewrite children_set_data.
      destruct (sm_ch _ _ _ _ _ _ _ SM y Hy) as (E & HE & HE'). exists E. split; [done|].
      intros e He. destruct (HE' e He) as [[Hk Hc] Hne]. split; [|done]. split.
      + rewrite (node_kind_data a); [done|]. rewrite data_set_data by done.
        destruct (Nat.eqb_spec e (f x)) as [->|]; [|done]. exfalso. by apply (Hne x).
      + by rewrite children_set_data.
    - intros k' sl' c Hk' Hc Hdc. rewrite parent_set_data. by eapply (sm_slot _ _ _ _ _ _ _ SM).
    - apply (sm_root _ _ _ _ _ _ _ SM).
    - eapply chain_agree; [apply (sm_chain _ _ _ _ _ _ _ SM)|]. intros z _. apply parent_set_data.
    - apply (sm_out _ _ _ _ _ _ _ SM).
    - intros y Hy. unfold node_kind. rewrite data_set_data by done.
      destruct (Nat.eqb_spec y x) as [->|].
      + by rewrite Nat.eqb_refl.
      + destruct (Nat.eqb_spec (f y) (f x)) as [E|]; [by apply (sm_inj _ _ _ _ _ _ _ SM) in E|].
        by apply (sm_kind _ _ _ _ _ _ _ SM).
    - intros y Hy He. rewrite children_set_data. apply (sm_leaf _ _ _ _ _ _ _ SM); [done|].
      destruct (Nat.eqb_spec y x) as [->|]; [tauto|done].
    - intros TI y Hy. rewrite children_set_data. by apply (sm_tight _ _ _ _ _ _ _ SM).
  Qed.

  (** An empty text was put in place of a node below another node. *)
  Lemma sim_replace s' a' n p d :
    replaced (sh_arena s) (sh_arena s') n d -> shwf s' -> sh_super s' = sh_super s ->
    replaced a a' (f n) (text_node "") ->
    dom n -> parent (sh_arena s) n = Some p -> dom p ->
    sim s' (a', sl)
        (fun x => if Nat.eqb x (length (sh_arena s)) then length a else f x)
        (fun x => dom x \/ x = length (sh_arena s))
        (fun x => if Nat.eqb x (length (sh_arena s)) then NText "" else kd x) b lb.
  Proof.
    intros R1 SW' Su' R2 Hn Hpn Hp.
    destruct R1 as [W1 L1 D1 DN1 CL1 PN1 P1 C1 CO1].
    destruct R2 as [W2 L2 D2 DN2 CL2 PN2 P2 C2 CO2].
    set (L := length (sh_arena s)) in *.
    pose proof (sw_lt _ SW) as HsuL. fold L in HsuL.
    assert (forall x, dom x -> x <> L) as Hnew.
    { intros x Hx. apply (sm_lt _ _ _ _ _ _ _ SM) in Hx as [Hx _]. fold L in Hx. lia. }
    assert (forall x, dom x -> (if Nat.eqb x L then length a else f x) = f x) as Hf.
    { intros x Hx. destruct (Nat.eqb_spec x L); [by apply Hnew in Hx|done]. }
    assert (forall x, dom x -> f x < length a) as Hfl.
    { intros x Hx. by apply (sm_lt _ _ _ _ _ _ _ SM) in Hx as [_ Hx]. }
    pose proof (sim_parent _ _ _ _ _ _ _ _ SM n p Hn Hp Hpn) as Hfpn.
    apply (wf_pc _ W) in Hpn as Hin. apply elem_of_list_lookup in Hin as [i Hi].
    pose proof (sim_child _ _ _ _ _ _ _ _ SM p i n Hp Hi) as Hfi.
    destruct (sm_inner _ _ _ _ _ _ _ SM p Hp) as [Hpsu Hpns].
    assert (n <> 0) as Hn0.
    { intros ->. destruct (sm_root _ _ _ _ _ _ _ SM) as (_ & _ & s0 & Hs0 & Hc0).
      assert (0 ∈ children (sh_arena s) s0) as H0 by (rewrite Hc0; by left).
      apply (wf_pc _ W) in H0. assert (s0 = p) as -> by congruence. by apply (slot_not_dom 0 p). }
    assert (forall x, dom x -> children (sh_arena s') x =
              if Nat.eqb x p then <[i := L]> (children (sh_arena s) p) else children (sh_arena s) x) as Cd.
    { intros x Hx. destruct (Nat.eqb_spec x p) as [->|].
      - by apply C1.
      - apply CO1; [by apply Hnew|]. rewrite Hpn. congruence. }
    assert (forall j, j <> length a -> children a' j =
              if Nat.eqb j (f p) then <[i := length a]> (children a (f p)) else children a j) as Cd2.
    { intros j Hj. destruct (Nat.eqb_spec j (f p)) as [->|].
      - by apply C2.
      - apply CO2; [done|]. rewrite Hfpn. congruence. }
    assert (forall q, parent (sh_arena s) q = Some (sh_super s) -> parent (sh_arena s') q = Some (sh_super s)) as Psl.
    { intros q Hq. assert (q < L) by (by eapply parent_lt).
      rewrite P1 by lia. destruct (Nat.eqb_spec q n) as [->|]; [|done]. congruence. }
    split; simpl.
    - done.
    - done.
    - intros x [Hx| ->].
      + rewrite Hf by done. pose proof (Hfl x Hx). apply (sm_lt _ _ _ _ _ _ _ SM) in Hx as [Hx _].
        rewrite L1, L2. fold L in Hx. lia.
      + rewrite Nat.eqb_refl, L1, L2. lia.
    - intros x y [Hx| ->] [Hy| ->]; rewrite ?Nat.eqb_refl, ?Hf by done.
      + by apply (sm_inj _ _ _ _ _ _ _ SM).
      + intros E. pose proof (Hfl x Hx). lia.
      + intros E. pose proof (Hfl y Hy). lia.
      + done.
    - intros x Hx. rewrite Su'. destruct Hx as [Hx| ->].
      + destruct (sm_inner _ _ _ _ _ _ _ SM x Hx) as [? ?]. split; [done|].
        rewrite P1 by (by apply Hnew). by destruct (Nat.eqb_spec x n).
      + split; [lia|]. rewrite PN1, Hpn. congruence.
    - intros x c [Hx| ->] Hc.
      + rewrite Cd in Hc by done. destruct (Nat.eqb_spec x p) as [->|].
        * apply elem_of_list_lookup in Hc as [j Hj]. rewrite list_lookup_insert_Some in Hj.
          destruct Hj as [(_ & <- & _)|[_ Hj]]; [by right|]. left.
          eapply (sm_down _ _ _ _ _ _ _ SM p); [done|]. by eapply elem_of_list_lookup_2.
        * left. by eapply (sm_down _ _ _ _ _ _ _ SM).
      + rewrite CL1 in Hc. inversion Hc.
    - intros x q. rewrite Su'. intros [Hx| ->] Hq Hqs.
      + rewrite P1 in Hq by (by apply Hnew). destruct (Nat.eqb_spec x n) as [->|]; [done|].
        destruct (sm_up _ _ _ _ _ _ _ SM x q Hx Hq Hqs) as [Hs|]; [left; by apply Psl|by right; left].
      + rewrite PN1, Hpn in Hq. injection Hq as <-. right. by left.
    - intros x Hx. destruct Hx as [Hx| ->].
      + destruct (sm_ch _ _ _ _ _ _ _ SM x Hx) as (E & HE & HE'). simpl in *.
        exists E. rewrite Hf by done. pose proof (Hfl x Hx). split.
        * rewrite Cd, Cd2 by (done || lia).
          assert (map (fun y => if Nat.eqb y L then length a else f y) (children (sh_arena s) x)
                  = map f (children (sh_arena s) x)) as Em.
          { apply map_ext_in. intros c Hc. apply elem_of_list_In in Hc.
            apply Hf. by eapply (sm_down _ _ _ _ _ _ _ SM). }
          destruct (Nat.eqb_spec (f x) (f p)) as [Ef|Ef].
          -- apply (sm_inj _ _ _ _ _ _ _ SM) in Ef as ->; [|done|done]. rewrite Nat.eqb_refl.
             pose proof (lookup_lt_Some _ _ _ Hi).
             rewrite HE, insert_app_l by (by rewrite map_length). f_equal.
             pose proof (list_fmap_insert (fun y => if Nat.eqb y L then length a else f y)
                           (children (sh_arena s) p) i L) as Ei.
             change (fmap (M := list)) with (@map nat nat) in Ei. cbv beta in Ei.
             rewrite Ei, Em, Nat.eqb_refl. done.
          -- destruct (Nat.eqb_spec x p); [congruence|]. by rewrite Em.
        * intros e He. destruct (HE' e He) as [[Hke Hc] Hne].
          assert (e < length a) as Hel.
          { eapply wf_child_lt; [exact WD|]. rewrite HE. apply elem_of_app. by right. }
          split; [split|].
          -- rewrite (node_kind_data a); [done|]. apply D2. lia.
          -- rewrite Cd2 by lia. destruct (Nat.eqb_spec e (f p)) as [->|]; [|done]. exfalso. by apply (Hne p).
          -- intros y [Hy| ->]; [rewrite Hf by done; by apply Hne|]. rewrite Nat.eqb_refl. lia.
      + exists []. rewrite Nat.eqb_refl, CL1, CL2. split; [done|]. intros e He. inversion He.
    - intros k' sl' c. rewrite Su'. intros Hk' Hc Hdc.
      rewrite CO1 in Hk'; [|lia|congruence].
      destruct (slot_lt _ _ Hk') as (Hl & Hns & Hps). fold L in Hl.
      rewrite CO1 in Hc; [|lia|congruence].
      destruct Hdc as [Hdc| ->].
      + rewrite Hf by done. destruct (sm_slot _ _ _ _ _ _ _ SM k' sl' c Hk' Hc Hdc) as [Hg Hpc].
        simpl in *. split; [done|]. intros Hk0. rewrite P2 by (pose proof (Hfl c Hdc); lia).
        rewrite Hpc by done. by destruct (Nat.eqb_spec (f c) (f n)).
      + exfalso. apply (wf_pc _ W) in Hc. rewrite parent_ge in Hc by (fold L; lia). done.
    - destruct (sm_root _ _ _ _ _ _ _ SM) as (H0 & Hf0 & s0 & Hs0 & Hc0).
      split; [by left|]. split; [etransitivity; [exact (Hf 0 H0)|done]|]. exists s0.
      destruct (slot_lt _ _ Hs0) as (Hl & Hns & Hps). fold L in Hl.
      rewrite Su', !CO1; try done; try lia; congruence.
    - destruct (sm_root _ _ _ _ _ _ _ SM) as (H0 & Hf0 & _).
      eapply chain_agree; [apply (sm_chain _ _ _ _ _ _ _ SM)|].
      intros x [->|Hx]; simpl.
      + rewrite <- Hf0, P2 by (pose proof (Hfl 0 H0); lia).
        destruct (Nat.eqb_spec (f 0) (f n)) as [E|]; [|done].
        apply (sm_inj _ _ _ _ _ _ _ SM) in E; [congruence|done|done].
      + pose proof (chain_lt _ _ _ _ WD (sm_chain _ _ _ _ _ _ _ SM) Hx) as Hlt. simpl in Hlt.
        rewrite P2 by lia. destruct (Nat.eqb_spec x (f n)) as [->|]; [|done].
        by apply (sm_out _ _ _ _ _ _ _ SM) in Hn.
    - intros x [Hx| ->].
      + rewrite Hf by done. by apply (sm_out _ _ _ _ _ _ _ SM).
      + rewrite Nat.eqb_refl. intros Hin.
        pose proof (chain_lt _ _ _ _ WD (sm_chain _ _ _ _ _ _ _ SM) Hin) as Hlt. simpl in Hlt. lia.
    - intros x [Hx| ->].
      + rewrite Hf by done. destruct (Nat.eqb_spec x L); [by apply Hnew in Hx|].
        rewrite (node_kind_data a); [by apply (sm_kind _ _ _ _ _ _ _ SM)|]. apply D2.
        pose proof (Hfl x Hx). lia.
      + rewrite Nat.eqb_refl. unfold node_kind. rewrite DN2. done.
    - intros x [Hx| ->].
      + rewrite Hf by done. destruct (Nat.eqb_spec x L); [by apply Hnew in Hx|]. intros He.
        pose proof (sm_leaf _ _ _ _ _ _ _ SM x Hx He) as Hl. simpl in Hl.
        rewrite CO2; [done|pose proof (Hfl x Hx); lia|].
        intros Hpf. apply (wf_pc _ WD) in Hpf. rewrite Hl in Hpf. by apply elem_of_nil in Hpf.
      + by rewrite Nat.eqb_refl, CL2.
    - intros TI x [Hx| ->].
      + pose proof (sm_tight _ _ _ _ _ _ _ SM TI x Hx) as Hl. simpl in Hl. rewrite Hf by done.
        pose proof (Hfl x Hx). rewrite Cd by done. rewrite Cd2 by lia.
        destruct (Nat.eqb_spec (f x) (f p)) as [Ef|Ef].
        * apply (sm_inj _ _ _ _ _ _ _ SM) in Ef as ->; [|done|done]. rewrite Nat.eqb_refl. by rewrite !insert_length.
        * destruct (Nat.eqb_spec x p); [congruence|done].
      + rewrite Nat.eqb_refl, CL2. cbn. lia.
  Qed.

  (** A slot's node was taken out of the slot. *)
  Lemma sim_unslot sl1 s' n sl' :
    unlinked (sh_arena s) (sh_arena s') n -> shwf s' -> sh_super s' = sh_super s ->
    dom n -> n <> 0 -> parent (sh_arena s) n = Some sl' -> parent (sh_arena s) sl' = Some (sh_super s) ->
    (forall k, children (sh_arena s) (sh_super s) !! k <> Some sl' -> slot_get sl1 k = slot_get sl k) ->
    sim s' (a, sl1) f dom kd b lb.
  Proof.
    intros [W1 L1 D1 C1 P1] SW' Su' Hn Hn0 Hpn Hps Hsl.
    assert (forall x, dom x -> children (sh_arena s') x = children (sh_arena s) x) as Cd.
    { intros x Hx. rewrite C1. apply remove_id_notin. intros Hin. apply (wf_pc _ W) in Hin.
      assert (x = sl') as -> by congruence. by apply (sm_inner _ _ _ _ _ _ _ SM) in Hx as [_ ?]. }
    assert (children (sh_arena s') (sh_super s) = children (sh_arena s) (sh_super s)) as Csu.
    { rewrite C1. apply remove_id_notin. intros Hin. apply (wf_pc _ W) in Hin.
      by apply (sm_inner _ _ _ _ _ _ _ SM) in Hn as [_ ?]. }
    split; simpl.
    - done.
    - done.
    - rewrite L1. apply (sm_lt _ _ _ _ _ _ _ SM).
    - apply (sm_inj _ _ _ _ _ _ _ SM).
    - intros x Hx. rewrite Su', P1. destruct (sm_inner _ _ _ _ _ _ _ SM x Hx). by destruct (Nat.eqb_spec x n).
    - intros x c Hx. rewrite Cd by done. by apply (sm_down _ _ _ _ _ _ _ SM).
    - intros x q Hx. rewrite Su', !P1. destruct (Nat.eqb_spec x n); [done|]. intros Hq Hqs.
      destruct (Nat.eqb_spec q n) as [->|]; [by right|]. by apply (sm_up _ _ _ _ _ _ _ SM x).
    - intros x Hx. rewrite Cd by done. by apply (sm_ch _ _ _ _ _ _ _ SM).
    - intros k x c. rewrite Su', Csu, C1. intros Hk Hc Hdc. apply elem_remove_id in Hc as [Hc Hcn].
      destruct (sm_slot _ _ _ _ _ _ _ SM k x c Hk Hc Hdc) as [Hg Hpc]. split; [|done]. cbn [snd] in Hg.
      rewrite Hsl; [done|]. rewrite Hk. intros [= ->]. apply Hcn.
      apply (sm_inj _ _ _ _ _ _ _ SM); [done|done|].
      apply (wf_pc _ W) in Hpn. destruct (sm_slot _ _ _ _ _ _ _ SM k sl' n Hk Hpn Hn) as [Hg' _].
      cbn [snd] in Hg'. congruence.
    - destruct (sm_root _ _ _ _ _ _ _ SM) as (H0 & Hf0 & s0 & Hs0 & Hc0).
      split; [done|]. split; [done|]. exists s0. rewrite Su', Csu, C1, Hc0. split; [done|].
      apply remove_id_notin. rewrite elem_of_list_singleton. done.
    - apply (sm_chain _ _ _ _ _ _ _ SM).
    - apply (sm_out _ _ _ _ _ _ _ SM).
    - apply (sm_kind _ _ _ _ _ _ _ SM).
    - apply (sm_leaf _ _ _ _ _ _ _ SM).
    - intros TI x Hx. rewrite Cd by done. by apply (sm_tight _ _ _ _ _ _ _ SM).
  Qed.

  (** A slot's node was deleted: the placeholder in the slot is of no concern. *)
  Lemma sim_drop sl1 s' a' n sl' d :
    replaced (sh_arena s) (sh_arena s') n d -> shwf s' -> sh_super s' = sh_super s ->
    kept a a' ->
    dom n -> n <> 0 -> parent (sh_arena s) n = Some sl' -> parent (sh_arena s) sl' = Some (sh_super s) ->
    (forall k, children (sh_arena s) (sh_super s) !! k <> Some sl' -> slot_get sl1 k = slot_get sl k) ->
    sim s' (a', sl1) f dom kd b lb.
  Proof.
    intros R1 SW' Su' [W2 L2 D2 Ca Pa] Hn Hn0 Hpn Hps Hsl.
    destruct R1 as [W1 L1 D1 DN1 CL1 PN1 P1 C1 CO1].
    set (L := length (sh_arena s)) in *.
    pose proof (sw_lt _ SW) as HsuL. fold L in HsuL.
    assert (sl' <> sh_super s) as Hsls. { intros ->. rewrite (sw_top _ SW) in Hps. done. }
    assert (forall x, dom x -> x <> L) as Hnew.
    { intros x Hx. apply (sm_lt _ _ _ _ _ _ _ SM) in Hx as [Hx _]. fold L in Hx. lia. }
    assert (forall x, dom x -> f x < length a) as Hfl.
    { intros x Hx. by apply (sm_lt _ _ _ _ _ _ _ SM) in Hx as [_ Hx]. }
    assert (forall x, dom x -> children (sh_arena s') x = children (sh_arena s) x) as Cd.
    { intros x Hx. apply CO1; [by apply Hnew|]. rewrite Hpn. intros [= ->].
      by apply (sm_inner _ _ _ _ _ _ _ SM) in Hx as [_ ?]. }
    assert (children (sh_arena s') (sh_super s) = children (sh_arena s) (sh_super s)) as Csu.
    { apply CO1; [lia|]. rewrite Hpn. congruence. }
    split; simpl.
    - done.
    - done.
    - intros x Hx. pose proof (Hfl x Hx). apply (sm_lt _ _ _ _ _ _ _ SM) in Hx as [Hx _].
      rewrite L1. fold L in Hx. lia.
    - apply (sm_inj _ _ _ _ _ _ _ SM).
    - intros x Hx. rewrite Su', P1 by (by apply Hnew). destruct (sm_inner _ _ _ _ _ _ _ SM x Hx).
      by destruct (Nat.eqb_spec x n).
    - intros x c Hx. rewrite Cd by done. by apply (sm_down _ _ _ _ _ _ _ SM).
    - intros x q Hx. rewrite Su', P1 by (by apply Hnew).
      destruct (Nat.eqb_spec x n); [done|]. intros Hq Hqs.
      destruct (sm_up _ _ _ _ _ _ _ SM x q Hx Hq Hqs) as [Hs|]; [left|by right].
      assert (q < L) by (by eapply parent_lt). rewrite P1 by lia.
      destruct (Nat.eqb_spec q n) as [->|]; [|done]. by apply (sm_inner _ _ _ _ _ _ _ SM) in Hn as [_ ?].
    - intros x Hx. rewrite Cd by done. pose proof (Hfl x Hx). rewrite Ca by lia.
      destruct (sm_ch _ _ _ _ _ _ _ SM x Hx) as (E & HE & HE'). simpl in *. exists E. split; [done|].
      intros e He. destruct (HE' e He) as [[Hke Hc] Hne].
      assert (e < length a) as Hel.
      { eapply wf_child_lt; [exact WD|]. rewrite HE. apply elem_of_app. by right. }
      split; [split|done].
      + rewrite (node_kind_data a); [done|]. apply D2. lia.
      + by rewrite Ca by lia.
    - intros k x c. rewrite Su', Csu. intros Hk Hc Hdc.
      destruct (slot_lt _ _ Hk) as (Hl & Hns & Hpx). fold L in Hl.
      assert (c ∈ children (sh_arena s) x /\ c <> n) as [Hc' Hcn].
      { split; [|intros ->; apply (wf_pc _ W1) in Hc; rewrite P1, Nat.eqb_refl in Hc by (by apply Hnew); done].
        destruct (decide (x = sl')) as [->|].
        - apply (wf_pc _ W) in Hpn as Hin. apply elem_of_list_lookup in Hin as [i Hi].
          rewrite (C1 _ i Hpn Hi) in Hc. apply elem_of_list_lookup in Hc as [j Hj].
          rewrite list_lookup_insert_Some in Hj. destruct Hj as [(_ & <- & _)|[_ Hj]].
          + by apply Hnew in Hdc.
          + by eapply elem_of_list_lookup_2.
        - rewrite CO1 in Hc; [done|lia|congruence]. }
      destruct (sm_slot _ _ _ _ _ _ _ SM k x c Hk Hc' Hdc) as [Hg Hpc].
      cbn [snd] in Hg. split.
      + rewrite Hsl; [done|]. rewrite Hk. intros [= ->]. apply Hcn.
        apply (sm_inj _ _ _ _ _ _ _ SM); [done|done|].
        apply (wf_pc _ W) in Hpn. destruct (sm_slot _ _ _ _ _ _ _ SM k sl' n Hk Hpn Hn) as [Hg' _].
        cbn [snd] in Hg'. congruence.
      + intros Hk0. pose proof (Hfl c Hdc). rewrite Pa by lia. by apply Hpc.
    - destruct (sm_root _ _ _ _ _ _ _ SM) as (H0 & Hf0 & s0 & Hs0 & Hc0).
      split; [done|]. split; [done|]. exists s0. rewrite Su', Csu. split; [done|].
      destruct (slot_lt _ _ Hs0) as (Hl & Hns & Hpx). fold L in Hl.
      rewrite CO1; [done|lia|]. rewrite Hpn. intros [= ->].
      apply (wf_pc _ W) in Hpn. rewrite Hc0 in Hpn. by apply elem_of_list_singleton in Hpn.
    - destruct (sm_root _ _ _ _ _ _ _ SM) as (H0 & Hf0 & _).
      eapply chain_agree; [apply (sm_chain _ _ _ _ _ _ _ SM)|].
      intros x [->|Hx]; simpl; apply Pa.
      + rewrite <- Hf0. pose proof (Hfl 0 H0). lia.
      + pose proof (chain_lt _ _ _ _ WD (sm_chain _ _ _ _ _ _ _ SM) Hx) as Hlt. simpl in Hlt. lia.
    - apply (sm_out _ _ _ _ _ _ _ SM).
    - intros x Hx. rewrite (node_kind_data a); [by apply (sm_kind _ _ _ _ _ _ _ SM)|]. apply D2.
      pose proof (Hfl x Hx). lia.
    - intros x Hx He. pose proof (Hfl x Hx). rewrite Ca by lia. by apply (sm_leaf _ _ _ _ _ _ _ SM).
    - intros TI x Hx. pose proof (Hfl x Hx). rewrite Cd by done. rewrite Ca by lia. by apply (sm_tight _ _ _ _ _ _ _ SM).
  Qed.

  (** A node was put behind the children: the gaps of the shadow correspond to
      the document's empty texts there, then to its new gaps. *)
  Lemma sim_grew gk s' a' p pos n :
    grew s s' p pos n -> dgrew gk a a' (f p) pos (f n) ->
    dom n -> dom p -> contk (kd p) ->
    parent (sh_arena s) n = None -> length (children (sh_arena s) p) <= pos ->
    exists f' kd',
      sim s' (a', sl) f'
        (fun x => dom x \/ length (sh_arena s) <= x < length (sh_arena s'))
        kd' b lb /\
      (forall x, x < length (sh_arena s) -> f' x = f x /\ kd' x = kd x) /\
      (forall x, length (sh_arena s) <= x < length (sh_arena s') -> kd' x = NText "").
  Proof.
    intros [SW' Su' L' D' C' P'] [W2 L2 D2 N2 C2 P2] Hn Hp Hep Hon Hpos.
    set (L := length (sh_arena s)) in *. set (cs := children (sh_arena s) p) in *.
    destruct (sm_ch _ _ _ _ _ _ _ SM p Hp) as (E & HE & HE'). simpl in HE, HE'. fold cs in HE.
    set (g := pos - length cs) in *. set (gd := pos - length (children a (f p))) in *.
    assert (length (children a (f p)) = length cs + length E) as HlE.
    { by rewrite HE, app_length, map_length. }
    set (X := E ++ seq (length a) gd).
    assert (g <= length X) as HgX. { unfold X. rewrite app_length, seq_length. lia. }
    pose proof (sw_lt _ SW) as HsuL. fold L in HsuL.
    destruct (sm_inner _ _ _ _ _ _ _ SM p Hp) as [Hpsu Hpns].
    pose proof (sim_root_ne n Hon) as Hn0.
    assert (forall x, dom x -> x < L) as Hnew.
    { intros x Hx. by apply (sm_lt _ _ _ _ _ _ _ SM) in Hx as [Hx _]. }
    assert (forall x, dom x -> f x < length a) as Hfl.
    { intros x Hx. by apply (sm_lt _ _ _ _ _ _ _ SM) in Hx as [_ Hx]. }
    assert (forall e, e ∈ E -> e < length a) as HElt.
    { intros e He. eapply wf_child_lt; [exact WD|]. rewrite HE. apply elem_of_app. by right. }
    assert (NoDup X) as HXnd.
    { unfold X. apply NoDup_app. split; [|split].
      - pose proof (wf_nd _ WD (f p)) as Hnd. rewrite HE in Hnd. by apply NoDup_app in Hnd as (_ & _ & ?).
      - intros e He Hs. apply HElt in He. apply elem_of_seq in Hs. lia.
      - apply NoDup_seq. }
    assert (forall e, e ∈ X -> empty_leaf a' e /\ (forall y, dom y -> f y <> e) /\ e < length a' /\
              (e ∈ children a (f p) \/ length a <= e)) as HXe.
    { intros e He. unfold X in He. apply elem_of_app in He as [He|He].
      - destruct (HE' e He) as [[Hk Hc] Hne]. pose proof (HElt e He). split; [split|split; [done|split]].
        + rewrite (node_kind_data a); [done|]. by apply D2.
        + rewrite C2. destruct (Nat.eqb_spec e (f p)) as [->|]; [|done]. exfalso. by apply (Hne p).
        + lia.
        + left. rewrite HE. apply elem_of_app. by right.
      - apply elem_of_seq in He. split; [split|split; [|split]].
        + unfold node_kind. by rewrite N2 by lia.
        + rewrite C2. pose proof (Hfl p Hp). destruct (Nat.eqb_spec e (f p)); [lia|]. apply children_ge. lia.
        + intros y Hy. pose proof (Hfl y Hy). lia.
        + lia.
        + right. lia. }
    set (f' := fun x => if Nat.leb L x && Nat.ltb x (L + g) then nth (x - L) X 0 else f x).
    exists f', (fun x => if Nat.leb L x && Nat.ltb x (L + g) then NText "" else kd x).
    assert (forall x, x < L -> f' x = f x) as Hf'.
    { intros x Hx. unfold f'. destruct (Nat.leb_spec L x); [lia|done]. }
    assert (forall x, L <= x < L + g -> X !! (x - L) = Some (f' x)) as Hf'g.
    { intros x Hx. unfold f'. destruct (Nat.leb_spec L x); [|lia]. destruct (Nat.ltb_spec x (L + g)); [|lia].
      simpl. destruct (X !! (x - L)) as [v|] eqn:Ev.
      - f_equal. symmetry. by apply nth_lookup_Some.
      - apply lookup_ge_None in Ev. lia. }
    assert (forall x, L <= x < L + g -> f' x ∈ X) as Hf'in.
    { intros x Hx. eapply elem_of_list_lookup_2. by apply Hf'g. }
    assert (map f' (seq L g) = take g X) as Hmap.
    { apply list_eq. intros i. change (map f') with (fmap (M := list) f'). rewrite list_lookup_fmap.
      destruct (decide (i < g)) as [Hi|Hi].
      - rewrite lookup_seq_lt by done. simpl. rewrite lookup_take by done.
        rewrite <- (Hf'g (L + i)) by lia. f_equal. lia.
      - rewrite lookup_seq_ge by lia. rewrite lookup_take_ge by lia. done. }
    assert (forall c, c ∈ cs -> dom c) as Hcs. { intros c. by apply (sm_down _ _ _ _ _ _ _ SM). }
    assert (length (sh_arena s') = L + g) as Ls' by done.
    assert (forall x, x < L -> x <> p -> children (sh_arena s') x = children (sh_arena s) x) as Cd.
    { intros x _ Hx. rewrite C'. by destruct (Nat.eqb_spec x p). }
    assert (children (sh_arena s') p = cs ++ seq L g ++ [n]) as Cp by (by rewrite C', Nat.eqb_refl).
    assert (children a' (f p) = map f' (cs ++ seq L g ++ [n]) ++ drop (gk + g) X) as Cfp.
    { rewrite C2, Nat.eqb_refl. cbv zeta. rewrite HE. rewrite <- app_assoc. fold X.
      assert (length (map f cs) = length cs) as Hlm by apply map_length.
      rewrite take_app_ge, drop_app_ge by lia. rewrite Hlm. fold g.
      replace (gk + pos - length cs) with (gk + g) by lia.
      rewrite !map_app, Hmap. simpl. rewrite Hf' by (by apply Hnew).
      rewrite <- !app_assoc. simpl. f_equal. apply map_ext_in. intros c Hc. apply elem_of_list_In in Hc.
      symmetry. apply Hf', Hnew. by apply Hcs. }
    assert (forall x, dom x -> x <> n -> parent (sh_arena s') x = parent (sh_arena s) x) as Pd.
    { intros x Hx Hxn. rewrite P'. destruct (Nat.eqb_spec x n); [done|].
      pose proof (Hnew x Hx). destruct (Nat.leb_spec L x); [lia|done]. }
    assert (forall q, q < L -> q <> n -> parent (sh_arena s') q = parent (sh_arena s) q) as Pd'.
    { intros x Hx Hxn. rewrite P'. destruct (Nat.eqb_spec x n); [done|].
      destruct (Nat.leb_spec L x); [lia|done]. }
    assert (forall q, q < length a -> q <> f n -> q ∉ E -> parent a' q = parent a q) as Pa.
    { intros x Hx Hxn HxE. rewrite P2. destruct (Nat.eqb_spec x (f n)); [done|].
      destruct (Nat.leb_spec (length a) x); [lia|]. simpl. rewrite bool_decide_eq_false_2; [done|].
      intros Hin. apply HxE. apply elem_of_take in Hin as (i & Hi & _). rewrite lookup_drop, HE in Hi.
      rewrite lookup_app_r in Hi by (rewrite map_length; lia). by eapply elem_of_list_lookup_2. }
    assert (forall x, x = b \/ x ∈ lb -> x ∉ E) as HbE.
    { destruct (sm_root _ _ _ _ _ _ _ SM) as (H0 & Hf0 & _). intros x Hx Hin.
      assert (parent a x = Some (f p)) as Hor.
      { apply (wf_pc _ WD). rewrite HE. apply elem_of_app. by right. }
      destruct Hx as [->|Hx]; [by apply (proj2 (HE' _ Hin) 0)|].
      destruct (chain_split _ _ _ _ (sm_chain _ _ _ _ _ _ _ SM) Hx) as (l1 & l2 & El & Hc2).
      inversion Hc2 as [|? q l3 Hq _]; subst; simpl in *; [congruence|].
      assert (q = f p) as -> by congruence. apply (sm_out _ _ _ _ _ _ _ SM p Hp).
      apply elem_of_app. right. right. by left. }
    split; [split; simpl|split].
    - done.
    - done.
    - intros x [Hx|Hx].
      + rewrite Hf' by (by apply Hnew). pose proof (Hfl x Hx). pose proof (Hnew x Hx). lia.
      + split; [lia|]. apply HXe. apply Hf'in. lia.
    - intros x y [Hx|Hx] [Hy|Hy] Exy.
      + rewrite !Hf' in Exy by (by apply Hnew). by apply (sm_inj _ _ _ _ _ _ _ SM).
      + exfalso. rewrite Hf' in Exy by (by apply Hnew).
        destruct (HXe (f' y)) as (_ & Hne & _); [apply Hf'in; lia|]. by apply (Hne x).
      + exfalso. rewrite (Hf' y) in Exy by (by apply Hnew).
        destruct (HXe (f' x)) as (_ & Hne & _); [apply Hf'in; lia|]. by apply (Hne y).
      + pose proof (Hf'g x ltac:(lia)) as E1. pose proof (Hf'g y ltac:(lia)) as E2. rewrite Exy in E1.
        pose proof (NoDup_lookup _ _ _ _ HXnd E1 E2). lia.
    - intros x Hx. rewrite Su', P'. destruct Hx as [Hx|Hx].
      + destruct (sm_inner _ _ _ _ _ _ _ SM x Hx). split; [done|].
        destruct (Nat.eqb_spec x n); [congruence|]. pose proof (Hnew x Hx).
        destruct (Nat.leb_spec L x); [lia|done].
      + split; [lia|]. destruct (Nat.eqb_spec x n); [congruence|].
        destruct (Nat.leb_spec L x); [|lia]. destruct (Nat.ltb_spec x (L + g)); [|lia]. simpl. congruence.
    - intros x c Hx Hc. destruct Hx as [Hx|Hx].
      + destruct (decide (x = p)) as [->|Hxp].
        * rewrite Cp in Hc. rewrite !elem_of_app, elem_of_list_singleton in Hc.
          destruct Hc as [Hc|[Hc| ->]]; [left; by apply Hcs| |by left].
          right. apply elem_of_seq in Hc. lia.
        * rewrite Cd in Hc by (try apply Hnew; done). left. by eapply (sm_down _ _ _ _ _ _ _ SM).
      + rewrite C' in Hc. pose proof (Hnew p Hp). destruct (Nat.eqb_spec x p); [lia|].
        rewrite children_ge in Hc by (fold L; lia). inversion Hc.
    - intros x q Hx. rewrite Su'. destruct Hx as [Hx|Hx].
      + destruct (decide (x = n)) as [->|Hxn].
        { rewrite P', Nat.eqb_refl. intros [= <-] _. right. by left. }
        rewrite Pd by done. intros Hq Hqs.
        destruct (sm_up _ _ _ _ _ _ _ SM x q Hx Hq Hqs) as [Hs|]; [left|right; by left].
        rewrite Pd'; [done|by eapply parent_lt|]. intros ->. congruence.
      + rewrite P'. pose proof (Hnew n Hn). destruct (Nat.eqb_spec x n); [lia|].
        destruct (Nat.leb_spec L x); [|lia]. destruct (Nat.ltb_spec x (L + g)); [|lia]. simpl.
        intros [= <-] _. right. by left.
    - intros x Hx. destruct Hx as [Hx|Hx].
      + pose proof (Hnew x Hx) as Hlt. rewrite (Hf' x) by done.
        destruct (decide (x = p)) as [->|Hxp].
        * exists (drop (gk + g) X). rewrite Cp, Cfp. split; [done|].
          intros e He. apply elem_of_list_lookup in He as [i Hi]. rewrite lookup_drop in Hi.
          destruct (HXe e) as (He1 & He2 & _); [by eapply elem_of_list_lookup_2|].
          split; [done|]. intros y [Hy|Hy].
          -- rewrite Hf' by (by apply Hnew). by apply He2.
          -- intros Ey. pose proof (Hf'g y ltac:(lia)) as E2. rewrite Ey in E2.
             pose proof (NoDup_lookup _ _ _ _ HXnd Hi E2). lia.
        * destruct (sm_ch _ _ _ _ _ _ _ SM x Hx) as (E0 & HE0 & HE0'). simpl in *. exists E0.
          rewrite Cd by done. rewrite C2. destruct (Nat.eqb_spec (f x) (f p)) as [Ef|_].
          { by apply (sm_inj _ _ _ _ _ _ _ SM) in Ef. }
          split.
          -- rewrite HE0. f_equal. apply map_ext_in. intros c Hc. apply elem_of_list_In in Hc.
             symmetry. apply Hf', Hnew. by eapply (sm_down _ _ _ _ _ _ _ SM).
          -- intros e He. destruct (HE0' e He) as [[Hke Hc] Hne].
             assert (e < length a) as Hel.
             { eapply wf_child_lt; [exact WD|]. rewrite HE0. apply elem_of_app. by right. }
             assert (parent a e = Some (f x)) as Hpe.
             { apply (wf_pc _ WD). rewrite HE0. apply elem_of_app. by right. }
             split; [split|].
             ++ rewrite (node_kind_data a); [done|]. by apply D2.
             ++ rewrite C2. destruct (Nat.eqb_spec e (f p)) as [->|]; [|done]. exfalso. by apply (Hne p).
             ++ intros y [Hy|Hy]; [rewrite Hf' by (by apply Hnew); by apply Hne|].
                intros Ey. destruct (HXe (f' y)) as (_ & _ & _ & Hor); [apply Hf'in; lia|].
                rewrite Ey in Hor. destruct Hor as [Hor|Hor]; [|lia].
                apply (wf_pc _ WD) in Hor. rewrite Hpe in Hor. injection Hor as Hor.
                by apply (sm_inj _ _ _ _ _ _ _ SM) in Hor.
      + exists []. rewrite C'. pose proof (Hnew p Hp). destruct (Nat.eqb_spec x p); [lia|].
        rewrite (children_ge (sh_arena s) x) by (fold L; lia). simpl.
        destruct (HXe (f' x)) as ([_ Hc] & _); [apply Hf'in; lia|]. rewrite Hc. split; [done|].
        intros e He. inversion He.
    - intros k sl' c. rewrite Su'. intros Hk Hc Hdc.
      rewrite C' in Hk. destruct (Nat.eqb_spec (sh_super s) p); [congruence|].
      destruct (slot_lt _ _ Hk) as (Hl & Hns & Hpx). fold L in Hl.
      rewrite C' in Hc. destruct (Nat.eqb_spec sl' p) as [->|]; [congruence|].
      apply (wf_pc _ W) in Hc as Hpc. assert (c < L) as HcL by (by eapply parent_lt).
      destruct Hdc as [Hdc|]; [|lia]. rewrite Hf' by done.
      destruct (sm_slot _ _ _ _ _ _ _ SM k sl' c Hk Hc Hdc) as [Hg Hpn']. split; [done|].
      intros Hk0. rewrite Pa; [by apply Hpn'|by apply Hfl| |].
      + intros Ef. apply (sm_inj _ _ _ _ _ _ _ SM) in Ef as ->; [congruence|done|done].
      + intros Hin. by apply (proj2 (HE' _ Hin) c).
    - destruct (sm_root _ _ _ _ _ _ _ SM) as (H0 & Hf0 & s0 & Hs0 & Hc0).
      split; [by left|]. split; [by rewrite Hf' by (by apply Hnew)|]. exists s0.
      destruct (slot_lt _ _ Hs0) as (Hl & Hns & Hpx). fold L in Hl.
      rewrite Su', !C'. destruct (Nat.eqb_spec (sh_super s) p); [congruence|].
      destruct (Nat.eqb_spec s0 p) as [->|]; [congruence|done].
    - destruct (sm_root _ _ _ _ _ _ _ SM) as (H0 & Hf0 & _).
      eapply chain_agree; [apply (sm_chain _ _ _ _ _ _ _ SM)|].
      intros x [->|Hx]; simpl; (apply Pa; [| |apply HbE; auto]).
      + rewrite <- Hf0. by apply Hfl.
      + rewrite <- Hf0. intros Ef. apply (sm_inj _ _ _ _ _ _ _ SM) in Ef; [congruence|done|done].
      + exact (chain_lt _ _ _ _ WD (sm_chain _ _ _ _ _ _ _ SM) Hx).
      + intros ->. by apply (sm_out _ _ _ _ _ _ _ SM) in Hn.
    - intros x [Hx|Hx].
      + rewrite Hf' by (by apply Hnew). by apply (sm_out _ _ _ _ _ _ _ SM).
      + intros Hin. destruct (HXe (f' x)) as (_ & _ & _ & Hor); [apply Hf'in; lia|].
        pose proof (chain_lt _ _ _ _ WD (sm_chain _ _ _ _ _ _ _ SM) Hin) as Hlt. simpl in Hlt.
        destruct Hor as [Hor|Hor]; [|lia].
        (* the parent of an ancestor of the body is such an ancestor, or it has none *)
        apply (wf_pc _ WD) in Hor.
        destruct (chain_split _ _ _ _ (sm_chain _ _ _ _ _ _ _ SM) Hin) as (l1 & l2 & El & Hc2).
        inversion Hc2 as [|? q l3 Hq _]; subst; simpl in *; [congruence|].
        assert (q = f p) as -> by congruence. apply (sm_out _ _ _ _ _ _ _ SM p Hp).
        apply elem_of_app. right. right. by left.
    - intros x [Hx|Hx].
      + pose proof (Hnew x Hx). rewrite Hf' by done. destruct (Nat.leb_spec L x); [lia|]. simpl.
        rewrite (node_kind_data a); [by apply (sm_kind _ _ _ _ _ _ _ SM)|]. apply D2. by apply Hfl.
      + destruct (Nat.leb_spec L x); [|lia]. destruct (Nat.ltb_spec x (L + g)); [|lia]. simpl.
        destruct (HXe (f' x)) as ([Hk _] & _); [apply Hf'in; lia|]. done.
    - intros x [Hx|Hx].
      + pose proof (Hnew x Hx). rewrite Hf' by done. destruct (Nat.leb_spec L x); [lia|]. simpl.
        intros He. rewrite C2. destruct (Nat.eqb_spec (f x) (f p)) as [Ef|_].
        { apply (sm_inj _ _ _ _ _ _ _ SM) in Ef as ->; done. }
        by apply (sm_leaf _ _ _ _ _ _ _ SM).
      + intros _. destruct (HXe (f' x)) as ([_ Hc] & _); [apply Hf'in; lia|]. done.
    - intros TI x [Hx|Hx].
      + pose proof (Hnew x Hx). rewrite Hf' by done.
        pose proof (sm_tight _ _ _ _ _ _ _ SM TI x Hx) as Hl. simpl in Hl.
        destruct (decide (x = p)) as [->|Hxp].
        * rewrite Cp, Cfp, app_length, map_length, drop_length. fold cs in Hl.
          assert (length X <= g) by (unfold X; rewrite app_length, seq_length; lia). lia.
        * rewrite Cd, C2 by done. destruct (Nat.eqb_spec (f x) (f p)) as [Ef|_]; [|done].
          by apply (sm_inj _ _ _ _ _ _ _ SM) in Ef.
      + destruct (HXe (f' x)) as ([_ Hc] & _); [apply Hf'in; lia|]. rewrite Hc. cbn. lia.
    - intros x Hx. split; [by apply Hf'|]. cbv beta. destruct (Nat.leb_spec L x); [lia|done].
    - intros x Hx. cbv beta. rewrite Ls' in Hx.
      destruct (Nat.leb_spec L x); [|lia]. destruct (Nat.ltb_spec x (L + g)); [done|lia].
  Qed.
End Steps.
