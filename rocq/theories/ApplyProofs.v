(** Patch application: C17, C18, C19, C21. *)
From Verif Require Import Base Arena Dom ArenaProofs ArenaOps TreeProofs DomTree.

(** ** Filling gaps *)

Record filled {D} (a a' : arena D) (p n : nat) (d : D) : Prop := {
  fl_wf : wf a';
  fl_len : length a' = length a + n;
  fl_data : forall j, j < length a -> data a' j = data a j;
  fl_data_new : forall j, length a <= j < length a + n -> data a' j = Some d;
  fl_children : forall j, children a' j =
     if Nat.eqb j p then children a p ++ seq (length a) n else children a j;
  fl_parent : forall j, parent a' j =
     if Nat.leb (length a) j && Nat.ltb j (length a + n) then Some p else parent a j
}.

Lemma fill_gaps_full {D} (d : D) n : forall a p, wf a -> p < length a ->
  exists a', fill_gaps n d a p = Val a' /\ filled a a' p n d.
Proof.
  induction n as [|n IH]; intros a p W Hp.
  - exists a. split; [done|]. split; try done.
    all: try lia.
    + intros j. simpl. rewrite app_nil_r. by destruct (Nat.eqb_spec j p) as [->|].
    + intros j. destruct (Nat.leb_spec (length a) j), (Nat.ltb_spec j (length a + 0)); simpl; try done. lia.
  - cbn [fill_gaps].
    destruct (new_node_full a d W) as (W1 & L1 & P1 & C1 & D1 & Cj & Pj & Dj).
    change (new_node a d) with (fst (new_node a d), length a).
    set (a1 := fst (new_node a d)) in *. cbv iota beta.
    destruct (append_full a1 p (length a)) as (a2 & E2 & K); [done|lia|lia|done| |].
    { apply leaf_not_above; [done|done|lia]. }
    destruct K as [W2 L2 D2 C2 P2]. rewrite E2. simpl.
    destruct (IH a2 p W2 ltac:(lia)) as (a3 & E3 & [W3 L3 D3 N3 C3 P3]).
    exists a3. split; [done|]. split.
    + done.
    + lia.
    + intros j Hj. rewrite D3 by lia. rewrite D2. apply Dj. lia.
    + intros j Hj. destruct (decide (j = length a)) as [->|Hne].
      * rewrite D3 by lia. by rewrite D2.
      * apply N3. lia.
    + intros j. rewrite C3, !C2, Nat.eqb_refl. rewrite L2, L1.
      destruct (Nat.eqb_spec j p) as [->|]; [|apply Cj].
      rewrite Cj, <- app_assoc. done.
    + intros j. rewrite P3, P2, Pj, L2, L1.
      destruct (Nat.leb_spec (length a) j), (Nat.ltb_spec j (length a + S n)),
        (Nat.leb_spec (S (length a)) j), (Nat.ltb_spec j (S (length a) + n)); simpl; try lia;
        destruct (Nat.eqb_spec j (length a)); try lia; done.
Qed.

(** ** Navigation *)

Lemma navigate_lt a cur p n :
  wf a -> cur < length a -> navigate a cur p = Val n -> n < length a.
Proof.
  intros W. revert cur. induction p as [|i p IH]; intros cur Hc; simpl; [by intros [= <-]|].
  destruct (children a cur !! i) as [c|] eqn:E; [|done].
  apply IH. eapply wf_child_lt; [done|]. by eapply elem_of_list_lookup_2.
Qed.

Lemma navigate_total a cur p : (exists n, navigate a cur p = Val n) \/ (exists e, navigate a cur p = Fail e).
Proof.
  revert cur. induction p as [|i p IH]; intros cur; simpl; [eauto|].
  destruct (children a cur !! i); eauto.
Qed.

Lemma navigate_slot_total a sl p :
  (exists n, navigate_slot_path a sl p = Val n) \/ (exists e, navigate_slot_path a sl p = Fail e).
Proof.
  destruct p as [|s p]; simpl; [eauto|]. destruct (slot_get sl s); [apply navigate_total|eauto].
Qed.

Definition slots_ok (a : arena dnode) (sl : slots) : Prop :=
  forall k v, slot_get sl k = Some v -> v < length a.

Lemma slots_ok_set a sl k v : slots_ok a sl -> v < length a -> slots_ok a (slot_set sl k v).
Proof.
  intros Hs Hv k' v'. unfold slot_set. simpl. destruct (Nat.eqb k k'); [by intros [= <-]|apply Hs].
Qed.

Lemma slots_ok_mono a a' sl : slots_ok a sl -> length a <= length a' -> slots_ok a' sl.
Proof. intros Hs Hl k v Hv. specialize (Hs k v Hv). lia. Qed.

Lemma navigate_slot_lt a sl p n :
  wf a -> slots_ok a sl -> navigate_slot_path a sl p = Val n -> n < length a.
Proof.
  intros W Hs. destruct p as [|s p]; simpl; [done|].
  destruct (slot_get sl s) as [r|] eqn:E; [|done]. apply navigate_lt; [done|by eapply Hs].
Qed.

(** Same navigation in arenas that agree on old children. *)
Lemma navigate_agree a a' cur p :
  wf a -> (forall j, j < length a -> children a' j = children a j) -> cur < length a ->
  navigate a' cur p = navigate a cur p.
Proof.
  intros W Hag. revert cur. induction p as [|i p IH]; intros cur Hc; simpl; [done|].
  rewrite Hag by done. destruct (children a cur !! i) as [c|] eqn:E; [|done].
  apply IH. eapply wf_child_lt; [done|]. by eapply elem_of_list_lookup_2.
Qed.

Lemma navigate_slot_agree a a' sl p :
  wf a -> slots_ok a sl -> (forall j, j < length a -> children a' j = children a j) ->
  navigate_slot_path a' sl p = navigate_slot_path a sl p.
Proof.
  intros W Hs Hag. destruct p as [|s p]; simpl; [done|].
  destruct (slot_get sl s) as [r|] eqn:E; [|done]. apply navigate_agree; [done|done|by eapply Hs].
Qed.

(** ** Move-free patch lists keep the document a tree (C19) *)

Definition is_move (p : patch) : bool := match p with PMove _ _ _ => true | _ => false end.

(** A result without panic or divergence. *)
Definition settled {A} (o : outcome A) : Prop :=
  match o with Val _ | Fail _ => True | Panic | Diverge => False end.

Definition st_ok (st : pstate) : Prop := wf (fst st) /\ slots_ok (fst st) (snd st).

Definition good (st : pstate) (r : presult) : Prop :=
  st_ok (fst r) /\ length (fst st) <= length (fst (fst r)) /\ settled (snd r).


Lemma insert_at_position_good a p pos n :
  wf a -> p < length a -> n < length a -> parent a n = None -> ~ above a n p ->
  exists a', insert_at_position a p pos n = Val a' /\ wf a' /\ length a <= length a'.
Proof.
  intros W Hp Hn Ho Hna. unfold insert_at_position.
  destruct (fill_gaps_full (text_node "") (pos - length (children a p)) a p W Hp)
    as (a1 & E1 & [W1 L1 D1 N1 C1 P1]). rewrite E1. simpl.
  assert (parent a1 n = None) as Ho1.
  { rewrite P1. destruct (Nat.leb_spec (length a) n); simpl; [lia|done]. }
  assert (~ above a1 n p) as Hna1.
  { intros (l & Hl & Hin). apply Hna. destruct (wf_chain a W p) as [k Hk].
    assert (chain a1 p k) as Hk1.
    { eapply chain_agree; [done|]. intros x Hx. rewrite P1.
      assert (x < length a) by (destruct Hx as [->|Hx]; [done|by eapply chain_lt]).
      destruct (Nat.leb_spec (length a) x); simpl; [lia|done]. }
    rewrite (chain_det _ _ _ _ Hl Hk1) in Hin. by exists k. }
  destruct (children a1 p !! pos) as [next|] eqn:En.
  - destruct (insert_before_full a1 next n p) as (a2 & E2 & K); [done|lia|done| |done|].
    { apply (wf_pc a1 W1). by eapply elem_of_list_lookup_2. }
    exists a2. split; [done|]. split; [apply K|]. rewrite (lk_len _ _ _ _ _ K). lia.
  - destruct (append_full a1 p n) as (a2 & E2 & K); [done|lia|lia|done|done|].
    exists a2. split; [done|]. split; [apply K|]. rewrite (lk_len _ _ _ _ _ K). lia.
Qed.

Lemma insert_at_good a0 a sl at_ n slot :
  wf a0 -> extends a0 a -> slots_ok a0 sl -> length a0 <= n -> n < length a -> parent a n = None ->
  good (a, sl) (insert_at a sl at_ n slot).
Proof.
  intros W0 X Hs Hn0 Hn Ho. pose proof (ex_wf _ _ X) as W.
  assert (slots_ok a sl) as Hsa by (eapply slots_ok_mono; [done|]; apply X).
  unfold insert_at, get_slot_parent.
  destruct (Nat.ltb (length at_) 2); [split; [split; done|split; done]|].
  assert (navigate_slot_path a sl (removelast at_) = navigate_slot_path a0 sl (removelast at_)) as En.
  { apply navigate_slot_agree; [done|done|]. intros; by apply (ex_children _ _ X). }
  rewrite En. destruct (navigate_slot_total a0 sl (removelast at_)) as [[p Hp]|[e He]].
  2:{ rewrite He. simpl. split; [split; done|split; done]. }
  rewrite Hp. simpl. apply navigate_slot_lt in Hp; [|done|done].
  assert (~ above a n p) as Hna by (by apply (extends_not_above a0 a)).
  assert (p < length a) as Hpa by (pose proof (ex_len _ _ X); lia).
  set (pos := List.last at_ 0).
  assert (forall a1 sl1, wf a1 -> length a1 = length a -> slots_ok a1 sl1 -> parent a1 n = None ->
    ~ above a1 n p -> good (a, sl) (plift (a1, sl1) (insert_at_position a1 p pos n))) as Hgen.
  { intros a1 sl1 W1 L1 S1 O1 N1.
    destruct (insert_at_position_good a1 p pos n) as (a2 & E2 & W2 & L2); [done|lia|lia|done|done|].
    rewrite E2. simpl. split_and!; simpl; [|lia|done]. split; [done|].
    eapply slots_ok_mono; [done|]. simpl. lia. }
  destruct slot as [k|]; [|by apply Hgen].
  destruct (children a p !! pos) as [disp|] eqn:Ed; [|by apply Hgen].
  assert (disp < length a) as Hd by (eapply wf_child_lt; [done|]; by eapply elem_of_list_lookup_2).
  destruct (detach_full a disp W) as [W1 L1 D1 C1 P1].
  apply Hgen; [done|done| | |].
  - apply slots_ok_set; [|by rewrite L1]. eapply slots_ok_mono; [done|]. lia.
  - rewrite P1. by destruct (Nat.eqb n disp).
  - intros (l & Hl & Hin). apply Hna.
    assert (forall q l, chain (detach a disp) q l -> n = q \/ n ∈ l -> above a n q) as Hup.
    { intros q k0 Hk. induction Hk as [q E|q r k0 E Hk IH]; intros Hq.
      - destruct Hq as [->|Hq]; [by apply above_refl|inversion Hq].
      - destruct Hq as [->|Hq]; [by apply above_refl|].
        rewrite P1 in E. destruct (Nat.eqb_spec q disp); [done|].
        eapply above_parent; [|done]. apply IH. by apply elem_of_cons in Hq. }
    by eapply Hup.
Qed.

Section Apply.
  Variable parse_inner : string -> list htree.
  Notation apply_patch := (apply_patch parse_inner).
  Notation apply_all := (apply_all parse_inner).
  Notation apply_patches := (apply_patches parse_inner).

  Lemma wf_set_kind a n k : wf a -> wf (set_kind a n k).
  Proof. intros W. unfold set_kind. destruct (data a n); [by apply wf_set_data|done]. Qed.

  Lemma length_set_kind a n k : length (set_kind a n k) = length a.
  Proof. unfold set_kind. destruct (data a n); [by rewrite length_set_data|done]. Qed.

  Lemma good_refl st o : st_ok st -> settled o -> good st (st, o).
  Proof. intros [? ?] ?. split; [split; done|split; done]. Qed.

  Lemma good_set_kind a sl n k : st_ok (a, sl) -> good (a, sl) ((set_kind a n k, sl), Val tt).
  Proof.
    intros [W S]. split; [split|split; [|done]]; simpl.
    - by apply wf_set_kind.
    - unfold slots_ok. rewrite length_set_kind. apply S.
    - by rewrite length_set_kind.
  Qed.

  Lemma detach_all_wf l : forall a, wf a -> wf (detach_all a l) /\ length (detach_all a l) = length a.
  Proof.
    unfold detach_all. induction l as [|x l IH]; intros a W; simpl; [done|].
    destruct (IH (detach a x)) as [? ?]; [by apply wf_detach|]. by rewrite length_detach in *.
  Qed.

  Lemma apply_patch_good st p : is_move p = false -> st_ok st -> good st (apply_patch st p).
  Proof.
    intros Hm Hok. destruct st as [a sl]. pose proof Hok as [W S]. simpl in W, S.
    assert (forall q f, (forall n, n < length a -> good (a, sl) (f n)) ->
              good (a, sl) (with_node (a, sl) q f)) as Hwith.
    { intros q f Hf. unfold with_node. simpl.
      destruct (navigate_slot_total a sl q) as [[n Hn]|[e He]].
      - rewrite Hn. apply Hf. by eapply navigate_slot_lt.
      - rewrite He. by apply good_refl. }
    assert (forall d, extends a (fst (new_node a d))) as Xn by (intros; by apply extends_new).
    assert (forall s : pstate, forall r, st_ok (a, sl) -> length a <= length (fst s) ->
            good s r -> good (a, sl) r) as Htr.
    { intros [b t] r _ Hl (G1 & G2 & G3). split_and!; [done| |done]. simpl in *. lia. }
    destruct p as [at_ tag ats cs slot|at_ s slot|at_ s slot|q|q s|q nm v|q nm|f t s|q ch|q c];
      try discriminate Hm; simpl.
    - change (a ++ [mkNode (elem tag ats NsHtml) None []]) with (fst (new_node a (elem tag ats NsHtml))).
      destruct (new_node_full a (elem tag ats NsHtml) W) as (W1 & L1 & P1 & C1 & D1 & Cj & Pj & Dj).
      set (a1 := fst (new_node a (elem tag ats NsHtml))) in *.
      rewrite create_contents_clone.
      destruct (clone_under_all a1 (length a) (map htree_of_ic cs) W1 ltac:(lia))
        as (a2 & ids & E2 & [W2 L2 D2 C2 P2 I2 H2]).
      rewrite E2. eapply (Htr (a2, sl)); [done|simpl; lia|].
      apply (insert_at_good a); [done| |done|lia|lia|].
      + split; [done|lia| | |]; intros j Hj.
        * rewrite D2 by lia. apply Dj. lia.
        * rewrite C2 by lia. destruct (Nat.eqb_spec j (length a)); [lia|]. apply Cj.
        * rewrite P2 by lia. apply Pj.
      + rewrite P2 by lia. done.
    - destruct (new_node_full a (text_node s) W) as (W1 & L1 & P1 & _).
      eapply (Htr (fst (new_node a (text_node s)), sl)); [done|simpl; rewrite app_length; lia|].
      apply (insert_at_good a); [done|apply Xn|done|lia|rewrite app_length; simpl; lia|done].
    - destruct (new_node_full a (comment_node s) W) as (W1 & L1 & P1 & _).
      eapply (Htr (fst (new_node a (comment_node s)), sl)); [done|simpl; rewrite app_length; lia|].
      apply (insert_at_good a); [done|apply Xn|done|lia|rewrite app_length; simpl; lia|done].
    - apply Hwith. intros n Hn.
      destruct (replace_leaf_full a n (text_node "") W Hn) as (a' & E & R).
      change (replace_by_empty a n) with (replace_leaf a n (text_node "")). rewrite E. simpl.
      destruct R. split_and!; simpl; [|lia|done]. split; [done|].
      eapply slots_ok_mono; [done|]. simpl. lia.
    - apply Hwith. intros n Hn. destruct (node_kind a n) as [[]|];
        try (by apply good_set_kind); by apply good_refl.
    - apply Hwith. intros n Hn. destruct (node_kind a n) as [[]|];
        try (by apply good_set_kind); by apply good_refl.
    - apply Hwith. intros n Hn. destruct (node_kind a n) as [[]|];
        try (by apply good_set_kind); by apply good_refl.
    - apply Hwith. intros n Hn.
      destruct (node_kind a n) as [[]|]; try (by apply good_set_kind); try (by apply good_refl);
      (destruct (find _ ch) as [c|]; [destruct (pc_value c)|]);
        try (by apply good_set_kind); by apply good_refl.
    - apply Hwith. intros n Hn.
      destruct (detach_all_wf (children a n) a W) as [W1 L1].
      set (a1 := detach_all a (children a n)) in *.
      destruct (clone_under_all a1 n (parse_inner c) W1 ltac:(lia)) as (a2 & ids & E2 & [W2 L2 _ _ _ _ _]).
      rewrite E2. simpl. split_and!; simpl; [|lia|done]. split; [done|].
      eapply slots_ok_mono; [done|]. simpl. lia.
  Qed.

  Lemma apply_all_good ps : forall st,
    forallb (fun p => negb (is_move p)) ps = true -> st_ok st -> good st (apply_all st ps).
  Proof.
    induction ps as [|p ps IH]; intros st Hm Hok; simpl; [by apply good_refl|].
    simpl in Hm. apply andb_true_iff in Hm as [Hp Hm]. apply negb_true_iff in Hp.
    pose proof (apply_patch_good st p Hp Hok) as G. destruct (apply_patch st p) as [st1 r].
    destruct G as (G1 & G2 & G3). simpl in *.
    destruct r as [[]|e| |]; try done.
    destruct (IH st1 Hm G1) as (I1 & I2 & I3). split_and!; [done|lia|done].
  Qed.

  Lemma ensure_body_ok d : wf (doc_arena d) -> doc_root d < length (doc_arena d) ->
    exists d' b, ensure_body d = Val (d', b) /\ wf (doc_arena d') /\ b < length (doc_arena d') /\
      length (doc_arena d) <= length (doc_arena d') /\
      doc_root d' = doc_root d /\ doc_doctype d' = doc_doctype d.
  Proof.
    intros W Hr. unfold ensure_body. destruct (body d) as [b|] eqn:Eb.
    - exists d, b. split_and!; try done. unfold body, body_in in Eb.
      apply find_some in Eb as [Hin _]. apply elem_of_list_In in Hin. by eapply wf_child_lt.
    - set (a := doc_arena d) in *.
      destruct (new_node_full a (elem "body" [] NsHtml) W) as (W1 & L1 & P1 & C1 & D1 & Cj & Pj & Dj).
      change (new_node a (elem "body" [] NsHtml))
        with (fst (new_node a (elem "body" [] NsHtml)), length a).
      set (a1 := fst (new_node a (elem "body" [] NsHtml))) in *. cbv iota beta.
      destruct (append_full a1 (doc_root d) (length a)) as (a2 & E2 & K); [done|lia|lia|done| |].
      { apply leaf_not_above; [done|done|lia]. }
      rewrite E2. simpl. destruct K as [W2 L2 D2 C2 P2].
      exists (mkDoc a2 (doc_root d) (doc_doctype d)), (length a). simpl.
      split_and!; try done; lia.
  Qed.

  Lemma apply_patches_good d ps :
    forallb (fun p => negb (is_move p)) ps = true ->
    wf (doc_arena d) -> doc_root d < length (doc_arena d) ->
    let '(d', r) := apply_patches d ps in
    wf (doc_arena d') /\ doc_root d' < length (doc_arena d') /\ settled r.
  Proof.
    intros Hm W Hr. unfold Dom.apply_patches. destruct ps as [|p ps]; [done|].
    unfold init_patch_slots.
    destruct (ensure_body_ok d W Hr) as (d' & b & E & W' & Hb & Hl & Er & _).
    rewrite E. cbn [obind]. cbv iota beta.
    assert (st_ok (doc_arena d', [(0, b)])) as Hok.
    { split; [done|]. intros k v. simpl. destruct k; [by intros [= <-]|done]. }
    pose proof (apply_all_good (p :: ps) _ Hm Hok) as G. revert G.
    match goal with |- context [Dom.apply_all _ ?s ?l] =>
      change (good s (apply_all s l) -> let '(d', r) := let '(a, _, r) := apply_all s l in
        (mkDoc a (doc_root d') (doc_doctype d'), r) in
        wf (doc_arena d') /\ doc_root d' < length (doc_arena d') /\ settled r);
      destruct (apply_all s l) as [[a sl] r] end. intros G.
    destruct G as ([G1 _] & G2 & G3). simpl in *. split_and!; [done|lia|done].
  Qed.

  (** ** Incremental application (C18) *)

  Lemma apply_all_app ps qs : forall st,
    apply_all st (ps ++ qs) =
    match apply_all st ps with (st', Val tt) => apply_all st' qs | r => r end.
  Proof.
    induction ps as [|p ps IH]; intros st; simpl; [done|].
    destruct (apply_patch st p) as [st1 r]. destruct r as [[]|e| |]; done.
  Qed.
End Apply.
