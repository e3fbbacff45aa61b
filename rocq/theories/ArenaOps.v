(** Effects of linking operations on well-formed arenas, in the form used by the
    proofs about patch application and the shadow tree. *)
From Verif Require Import Base Arena ArenaProofs.

Section Ops.
  Context {D : Type}.
  Implicit Types (a : arena D).

  (** [c] is [p] or one of its ancestors. *)
  Definition above a c p : Prop := exists l, chain a p l /\ (c = p \/ c ∈ l).

  Lemma not_above_chain a c p l : ~ above a c p -> chain a p l -> c <> p /\ c ∉ l.
  Proof. intros Hn Hl. split; intros ?; apply Hn; exists l; auto. Qed.

  Lemma above_refl a p : wf a -> above a p p.
  Proof. intros W. destruct (wf_chain a W p) as [l Hl]. exists l. auto. Qed.

  Lemma above_parent a c p q : above a c p -> parent a q = Some p -> above a c q.
  Proof.
    intros (l & Hl & Hc) Hq. exists (p :: l). split; [by eapply chain_up|].
    right. destruct Hc as [->|Hc]; [left|by right].
  Qed.

  Lemma above_inv a c q : above a c q -> c = q \/ exists p, parent a q = Some p /\ above a c p.
  Proof.
    intros (l & Hl & Hc). destruct Hc as [->|Hc]; [by left|]. right.
    inversion Hl as [|? p k E Hk]; subst; [inversion Hc|].
    exists p. split; [done|]. exists k. split; [done|]. by apply elem_of_cons in Hc.
  Qed.

  Lemma above_trans a x y z : wf a -> above a x y -> above a y z -> above a x z.
  Proof.
    intros W Hxy (l & Hl & Hy). induction Hl as [z E|z p l E Hl IH].
    - destruct Hy as [->|Hy]; [done|inversion Hy].
    - destruct Hy as [->|Hy]; [done|].
      eapply above_parent; [|done]. apply IH. apply elem_of_cons in Hy as [->|]; auto.
  Qed.

  Lemma above_antisym a x y : wf a -> above a x y -> above a y x -> x = y.
  Proof.
    intros W (l & Hl & Hx) (k & Hk & Hy).
    destruct Hx as [->|Hx]; [done|]. destruct Hy as [->|Hy]; [done|].
    destruct (chain_split _ _ _ _ Hl Hx) as (l1 & l2 & -> & Hc).
    rewrite (chain_det _ _ _ _ Hc Hk) in Hl.
    destruct (chain_split _ _ _ _ Hk Hy) as (k1 & k2 & -> & Hc').
    pose proof (chain_det _ _ _ _ Hc' Hl) as E.
    assert (length k2 = length (l1 ++ x :: k1 ++ y :: k2)) as E' by congruence.
    rewrite !app_length in E'. simpl in E'. rewrite app_length in E'. simpl in E'. lia.
  Qed.

  Lemma above_dec a x y : wf a -> above a x y \/ ~ above a x y.
  Proof.
    intros W. destruct (wf_chain a W y) as [l Hl].
    destruct (decide (x = y)) as [->|Hne]; [left; exists l; auto|].
    destruct (decide (x ∈ l)) as [Hin|Hn]; [left; exists l; auto|].
    right. intros (l' & Hl' & Hx). rewrite (chain_det _ _ _ _ Hl' Hl) in Hx. tauto.
  Qed.

  Lemma above_comparable a x y z : above a x z -> above a y z -> above a x y \/ above a y x.
  Proof.
    intros (l & Hl & Hx). revert x y Hx. induction Hl as [z E|z p l E Hl IH]; intros x y Hx Hy.
    - destruct Hx as [->|Hx]; [by right|inversion Hx].
    - destruct Hx as [->|Hx]; [by right|]. apply above_inv in Hy as [->|(q & Hq & Hy)].
      + left. exists (p :: l). split; [by eapply chain_up|]. by right.
      + assert (q = p) as -> by congruence. apply IH; [|done]. by apply elem_of_cons in Hx.
  Qed.

  Lemma above_not_parent a x y : wf a -> parent a x = Some y -> ~ above a x y.
  Proof.
    intros W Hp Ha. pose proof (above_parent a _ _ _ (above_refl a _ W) Hp) as Ha'.
    pose proof (above_antisym a _ _ W Ha Ha') as ->.
    destruct (wf_chain a W y) as [l Hc]. pose proof (chain_not_self _ _ _ Hc) as Hs.
    inversion Hc as [|? p ? Hpp]; subst; [congruence|]. assert (p = y) as -> by congruence. apply Hs. by left.
  Qed.

  (** Two different siblings are not above each other. *)
  Lemma above_sibling a x y p : wf a -> parent a x = Some p -> parent a y = Some p -> above a x y -> x = y.
  Proof.
    intros W Hx Hy Ha. apply above_inv in Ha as [->|(q & Hq & Ha)]; [done|].
    assert (q = p) as -> by congruence. exfalso. by apply (above_not_parent a x p W Hx).
  Qed.

  (** A node without children is above itself only. *)
  Lemma leaf_not_above a c p : wf a -> children a c = [] -> c <> p -> ~ above a c p.
  Proof.
    intros W Hc Hne (l & Hl & Hin). destruct Hin as [->|Hin]; [done|]. clear Hne.
    induction Hl as [p E|p q l E Hl IH]; [inversion Hin|].
    apply elem_of_cons in Hin as [->|Hin]; [|auto].
    apply (wf_pc a W) in E. rewrite Hc in E. inversion E.
  Qed.

  (** Above a valid node there are only valid nodes. *)
  Lemma above_lt a c p : wf a -> above a c p -> p < length a -> c < length a.
  Proof.
    intros W (l & Hl & [->|Hin]) Hp; [done|]. by eapply chain_lt.
  Qed.

  (** [a'] is [a] with the orphan [c] linked under [p], whose children become [cs]. *)
  Record linked a a' (p c : nat) (cs : list nat) : Prop := {
    lk_wf : wf a';
    lk_len : length a' = length a;
    lk_data : forall j, data a' j = data a j;
    lk_children : forall j, children a' j = if Nat.eqb j p then cs else children a j;
    lk_parent : forall j, parent a' j = if Nat.eqb j c then Some p else parent a j
  }.

  Lemma orphan_notin a c q : wf a -> parent a c = None -> c ∉ children a q.
  Proof. intros W Hc Hin. apply (wf_pc a W) in Hin. congruence. Qed.

  Lemma detach_orphan a c : parent a c = None -> detach a c = a.
  Proof. intros Hc. unfold detach. by rewrite Hc. Qed.

  Lemma append_full a p c :
    wf a -> p < length a -> c < length a -> parent a c = None -> ~ above a c p ->
    exists a', append a p c = Val a' /\ linked a a' p c (children a p ++ [c]).
  Proof.
    intros W Hp Hc Ho Hna. destruct (wf_chain a W p) as [l Hl].
    destruct (not_above_chain _ _ _ _ Hna Hl) as [Hne Hnl].
    pose proof (append_spec a p c l W Hl Hne Hnl) as E.
    eexists. split; [exact E|]. split.
    - by eapply (append_wf a p c l).
    - by rewrite length_attach, length_detach.
    - intros j. by rewrite data_attach, data_detach.
    - intros j. rewrite children_attach by (by rewrite length_detach).
      rewrite (detach_orphan a c) by done.
      rewrite remove_id_notin by (by apply orphan_notin). done.
    - intros j. rewrite parent_attach by (by rewrite length_detach).
      by rewrite (detach_orphan a c) by done.
  Qed.

  Lemma insert_before_full a sib c p :
    wf a -> c < length a -> parent a c = None -> parent a sib = Some p -> ~ above a c p ->
    exists a', insert_before a sib c = Val a' /\
               linked a a' p c (insert_before_list sib c (children a p)).
  Proof.
    intros W Hc Ho Hs Hna. destruct (wf_chain a W p) as [l Hl].
    destruct (not_above_chain _ _ _ _ Hna Hl) as [Hne Hnl].
    assert (sib <> c) as Hsc by congruence.
    pose proof (insert_before_spec a sib c p W Hsc Hne Hs) as E.
    eexists. split; [exact E|]. split.
    - by eapply (insert_before_wf a sib c p l).
    - by rewrite length_attach, length_detach.
    - intros j. by rewrite data_attach, data_detach.
    - intros j. rewrite children_attach by (rewrite length_detach; by eapply wf_parent_lt).
      rewrite (detach_orphan a c) by done.
      rewrite remove_id_notin by (by apply orphan_notin). done.
    - intros j. rewrite parent_attach by (by rewrite length_detach).
      by rewrite (detach_orphan a c) by done.
  Qed.

  (** A fresh node. *)
  Lemma new_node_full a d :
    wf a ->
    let a' := fst (new_node a d) in
    wf a' /\ length a' = S (length a) /\ parent a' (length a) = None /\
    children a' (length a) = [] /\ data a' (length a) = Some d /\
    (forall j, children a' j = children a j) /\ (forall j, parent a' j = parent a j) /\
    (forall j, j <> length a -> data a' j = data a j).
  Proof.
    intros W a'. subst a'. split_and!.
    - by apply wf_new.
    - apply length_new.
    - rewrite parent_new. by apply parent_ge.
    - rewrite children_new. by apply children_ge.
    - by rewrite data_new, Nat.eqb_refl.
    - intros j. apply children_new.
    - intros j. apply parent_new.
    - intros j Hj. rewrite data_new. by destruct (Nat.eqb_spec j (length a)).
  Qed.

  (** ** Replacing a node by a fresh leaf (insert before, then detach) *)

  (** [a'] is [a] with [n] unlinked and the fresh leaf [length a] in its place. *)
  Record replaced a a' (n : nat) (d : D) : Prop := {
    rp_wf : wf a';
    rp_len : length a' = S (length a);
    rp_data : forall j, j <> length a -> data a' j = data a j;
    rp_data_new : data a' (length a) = Some d;
    rp_new_leaf : children a' (length a) = [];
    rp_new_parent : parent a' (length a) = parent a n;
    rp_parent : forall j, j <> length a -> parent a' j = if Nat.eqb j n then None else parent a j;
    rp_children : forall p i, parent a n = Some p -> children a p !! i = Some n ->
       children a' p = <[i := length a]> (children a p);
    rp_children_other : forall j, j <> length a -> parent a n <> Some j -> children a' j = children a j
  }.

  Definition replace_leaf a (n : nat) (d : D) : outcome (arena D) :=
    let '(a1, e) := new_node a d in
    let! a2 := insert_before a1 n e in
    Val (detach a2 n).

  Lemma replace_leaf_full a n d :
    wf a -> n < length a ->
    exists a', replace_leaf a n d = Val a' /\ replaced a a' n d.
  Proof.
    intros W Hn. unfold replace_leaf.
    destruct (new_node_full a d W) as (W1 & L1 & P1 & C1 & D1 & Cj & Pj & Dj).
    change (new_node a d) with (fst (new_node a d), length a).
    set (a1 := fst (new_node a d)) in *. cbv iota beta.
    destruct (parent a n) as [p|] eqn:Ep.
    - assert (p < length a) as Hp by (by eapply wf_parent_lt).
      destruct (insert_before_full a1 n (length a) p) as (a2 & E2 & K).
      { done. } { lia. } { done. } { by rewrite Pj. }
      { apply leaf_not_above; [done|done|lia]. }
      rewrite E2. simpl. eexists. split; [reflexivity|]. destruct K as [W2 L2 D2 C2 P2].
      assert (forall j, children (detach a2 n) j =
        remove_id n (if Nat.eqb j p then insert_before_list n (length a) (children a1 p) else children a1 j)) as Cd.
      { intros j. rewrite children_detach by done. by rewrite C2. }
      split.
      + by apply wf_detach.
      + rewrite length_detach. lia.
      + intros j Hj. rewrite data_detach, D2. auto.
      + by rewrite data_detach, D2.
      + rewrite Cd. destruct (Nat.eqb_spec (length a) p); [lia|]. by rewrite C1.
      + rewrite parent_detach, P2, Nat.eqb_refl. destruct (Nat.eqb_spec (length a) n); [lia|]. by rewrite Ep.
      + intros j Hj. rewrite parent_detach. destruct (Nat.eqb_spec j n); [done|].
        rewrite P2. destruct (Nat.eqb_spec j (length a)); [done|]. apply Pj.
      + intros p' i Hp' Hi. assert (p' = p) as -> by congruence. rewrite Cd, Nat.eqb_refl, Cj.
        apply replace_occupant; [apply W|done|].
        intros Hin. pose proof (wf_child_lt _ _ _ W Hin). lia.
      + intros j Hj Hne. rewrite Cd. destruct (Nat.eqb_spec j p); [congruence|].
        rewrite Cj. apply remove_id_notin. intros Hin. apply (wf_pc a W) in Hin. congruence.
    - rewrite insert_before_orphan by (try lia; by rewrite Pj).
      simpl. rewrite (detach_orphan a1) by done.
      rewrite (detach_orphan a1) by (by rewrite Pj).
      eexists. split; [reflexivity|]. split; try done.
      + by rewrite Ep.
      + intros j Hj. rewrite Pj. destruct (Nat.eqb_spec j n) as [->|]; done.
      + intros p i Hp. congruence.
  Qed.

  (** ** Unlinking *)
  Record unlinked a a' (n : nat) : Prop := {
    ul_wf : wf a';
    ul_len : length a' = length a;
    ul_data : forall j, data a' j = data a j;
    ul_children : forall j, children a' j = remove_id n (children a j);
    ul_parent : forall j, parent a' j = if Nat.eqb j n then None else parent a j
  }.

  Lemma detach_full a n : wf a -> unlinked a (detach a n) n.
  Proof.
    intros W. split.
    - by apply wf_detach.
    - apply length_detach.
    - intros j. apply data_detach.
    - intros j. by apply children_detach.
    - intros j. apply parent_detach.
  Qed.

  (** ** Growing: old nodes keep their links *)
  Record extends a a' : Prop := {
    ex_wf : wf a';
    ex_len : length a <= length a';
    ex_data : forall j, j < length a -> data a' j = data a j;
    ex_children : forall j, j < length a -> children a' j = children a j;
    ex_parent : forall j, j < length a -> parent a' j = parent a j
  }.

  Lemma extends_refl a : wf a -> extends a a.
  Proof. by split. Qed.

  Lemma extends_trans a b c : extends a b -> extends b c -> extends a c.
  Proof.
    intros [W1 L1 D1 C1 P1] [W2 L2 D2 C2 P2]. split; [done|lia| | |]; intros j Hj.
    - rewrite D2 by lia. auto.
    - rewrite C2 by lia. auto.
    - rewrite P2 by lia. auto.
  Qed.

  Lemma extends_new a d : wf a -> extends a (fst (new_node a d)).
  Proof.
    intros W. destruct (new_node_full a d W) as (? & ? & ? & ? & ? & ? & ? & Hd).
    split; auto; [lia|]. intros j Hj. apply Hd. lia.
  Qed.

  (** Nodes that are not old are below nodes that are not old only. *)
  Lemma extends_new_closed a a' j c :
    wf a -> extends a a' -> length a <= j -> c ∈ children a' j -> length a <= c.
  Proof.
    intros W [W' L D' C P'] Hj Hc. apply (wf_pc a' W') in Hc.
    destruct (decide (c < length a)) as [Hlt|]; [|lia].
    rewrite P' in Hc by done. apply (wf_parent_lt _ _ _ W) in Hc. lia.
  Qed.

  Lemma extends_chain a a' p l : wf a -> extends a a' -> p < length a -> chain a p l -> chain a' p l.
  Proof.
    intros W E Hp Hl. eapply chain_agree; [done|]. intros x [->|Hx]; apply (ex_parent _ _ E); [done|].
    by eapply chain_lt.
  Qed.

  Lemma extends_not_above a a' c p :
    wf a -> extends a a' -> p < length a -> length a <= c -> ~ above a' c p.
  Proof.
    intros W E Hp Hc (l & Hl & Hin). destruct (wf_chain a W p) as [k Hk].
    pose proof (extends_chain a a' p k W E Hp Hk) as Hk'.
    rewrite (chain_det _ _ _ _ Hl Hk') in Hin. destruct Hin as [->|Hin]; [lia|].
    pose proof (chain_lt _ _ _ _ W Hk Hin). lia.
  Qed.
End Ops.
