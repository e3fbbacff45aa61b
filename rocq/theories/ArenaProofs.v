(** Well-formed arenas (forests) and the effect of the arena operations. *)
From Verif Require Import Base Arena.

(** ** Lists *)

Lemma elem_remove_id x y l : y ∈ remove_id x l <-> y ∈ l /\ y <> x.
Proof.
  induction l as [|z l IH]; simpl; [rewrite elem_of_nil; tauto|].
  destruct (Nat.eqb_spec z x) as [->|]; rewrite ?elem_of_cons, IH; naive_solver.
Qed.

Lemma remove_id_notin x l : x ∉ l -> remove_id x l = l.
Proof.
  induction l as [|z l IH]; simpl; [done|]. rewrite not_elem_of_cons. intros [? ?].
  destruct (Nat.eqb_spec z x); [congruence|]. by rewrite IH.
Qed.

Lemma remove_id_nodup x l : NoDup l -> NoDup (remove_id x l).
Proof.
  induction 1 as [|z l Hz Hnd IH]; simpl; [constructor|].
  destruct (Nat.eqb_spec z x); [done|]. constructor; [|done].
  rewrite elem_remove_id. tauto.
Qed.

Lemma remove_id_app x l k : remove_id x (l ++ k) = remove_id x l ++ remove_id x k.
Proof.
  induction l as [|z l IH]; simpl; [done|]. destruct (Nat.eqb z x); simpl; congruence.
Qed.

Lemma remove_id_lookup x l i :
  NoDup l -> l !! i = Some x -> remove_id x l = take i l ++ drop (S i) l.
Proof.
  revert i; induction l as [|z l IH]; intros [|i] Hnd Hl; simpl in *; try done.
  - injection Hl as ->. rewrite Nat.eqb_refl. inversion Hnd; subst.
    rewrite drop_0. by apply remove_id_notin.
  - inversion Hnd as [|? ? Hz Hnd']; subst.
    destruct (Nat.eqb_spec z x) as [->|].
    + exfalso. apply Hz. by eapply elem_of_list_lookup_2.
    + f_equal. by apply IH.
Qed.

Lemma insert_before_list_lookup sib new l i :
  NoDup l -> l !! i = Some sib -> insert_before_list sib new l = take i l ++ new :: drop i l.
Proof.
  revert i; induction l as [|z l IH]; intros [|i] Hnd Hl; simpl in *; try done.
  - injection Hl as ->. by rewrite Nat.eqb_refl.
  - inversion Hnd as [|? ? Hz Hnd']; subst.
    destruct (Nat.eqb_spec z sib) as [->|].
    + exfalso. apply Hz. by eapply elem_of_list_lookup_2.
    + f_equal. by apply IH.
Qed.

Lemma elem_insert_before_list sib new l x :
  sib ∈ l -> x ∈ insert_before_list sib new l <-> x = new \/ x ∈ l.
Proof.
  induction l as [|z l IH]; simpl; intros Hs; [inversion Hs|].
  destruct (Nat.eqb_spec z sib) as [->|].
  - rewrite elem_of_cons. done.
  - apply elem_of_cons in Hs as [?|Hs]; [congruence|].
    rewrite !elem_of_cons, IH by done. naive_solver.
Qed.

Lemma insert_before_list_nodup sib new l :
  NoDup l -> new ∉ l -> NoDup (insert_before_list sib new l).
Proof.
  induction l as [|z l IH]; simpl; intros Hnd Hn; [constructor|].
  inversion Hnd as [|? ? Hz Hnd']; subst. apply not_elem_of_cons in Hn as [Hn1 Hn2].
  destruct (Nat.eqb_spec z sib) as [->|].
  - constructor; [|done]. rewrite not_elem_of_cons. done.
  - constructor; [|by apply IH]. intros Hin.
    destruct (decide (sib ∈ l)) as [Hs|Hs].
    + apply elem_insert_before_list in Hin as [?|?]; [congruence|done|done].
    + assert (insert_before_list sib new l = []  \/ True) by tauto.
      assert (forall k, sib ∉ k -> insert_before_list sib new k = k) as Hno.
      { clear. induction k as [|y k IH]; simpl; [done|]. rewrite not_elem_of_cons.
        intros [? ?]. destruct (Nat.eqb_spec y sib); [congruence|]. by rewrite IH. }
      rewrite Hno in Hin by done. done.
Qed.

(** Inserting before the occupant and then removing the occupant replaces it. *)
Lemma replace_occupant l i occ new :
  NoDup l -> l !! i = Some occ -> new ∉ l ->
  remove_id occ (insert_before_list occ new l) = <[i := new]> l.
Proof.
  intros Hnd Hl Hn. rewrite (insert_before_list_lookup _ _ _ i) by done.
  assert (i < length l) as Hi by (by eapply lookup_lt_Some).
  assert (occ <> new) as Hon.
  { intros ->. apply Hn. by eapply elem_of_list_lookup_2. }
  rewrite remove_id_app. simpl. destruct (Nat.eqb_spec new occ); [congruence|].
  assert (drop i l = occ :: drop (S i) l) as Hd.
  { by apply drop_S. }
  assert (NoDup (take i l ++ occ :: drop (S i) l)) as Hnd'.
  { rewrite <- Hd, take_drop. done. }
  apply NoDup_app in Hnd' as (? & Hdis & Hnd2). inversion Hnd2; subst.
  rewrite Hd. simpl. rewrite Nat.eqb_refl.
  rewrite (remove_id_notin _ (take i l)).
  2:{ intros Hin. eapply Hdis; [done|left]. }
  rewrite (remove_id_notin _ (drop (S i) l)) by done.
  rewrite insert_take_drop by done. done.
Qed.

Lemma index_of_lookup x l i : index_of x l = Some i -> l !! i = Some x.
Proof.
  revert i; induction l as [|z l IH]; intros i; simpl; [done|].
  destruct (Nat.eqb_spec z x) as [->|]; [by intros [= <-]|].
  destruct (index_of x l) as [k|]; [|done]. intros [= <-]. simpl. auto.
Qed.

Lemma index_of_nodup x l i : NoDup l -> l !! i = Some x -> index_of x l = Some i.
Proof.
  revert i; induction l as [|z l IH]; intros [|i] Hnd Hl; simpl in *; try done.
  - injection Hl as ->. by rewrite Nat.eqb_refl.
  - inversion Hnd as [|? ? Hz Hnd']; subst.
    destruct (Nat.eqb_spec z x) as [->|].
    + exfalso. apply Hz. by eapply elem_of_list_lookup_2.
    + by rewrite (IH i).
Qed.

Lemma index_of_elem x l : x ∈ l -> exists i, index_of x l = Some i.
Proof.
  induction l as [|z l IH]; intros Hin; [inversion Hin|]. simpl.
  destruct (Nat.eqb_spec z x); [eauto|].
  apply elem_of_cons in Hin as [?|Hin]; [congruence|].
  destruct (IH Hin) as [i ->]. eauto.
Qed.

Section Arena.
  Context {D : Type}.
  Implicit Types (a : arena D).

  (** ** Reading after writing *)

  Lemma children_new a d j : children (fst (new_node a d)) j = children a j.
  Proof.
    unfold children, new_node; simpl. destruct (decide (j < length a)).
    - by rewrite lookup_app_l.
    - rewrite lookup_app_r by lia. rewrite (lookup_ge_None_2 a j) by lia.
      destruct (j - length a) as [|k]; simpl; done.
  Qed.

  Lemma parent_new a d j : parent (fst (new_node a d)) j = parent a j.
  Proof.
    unfold parent, new_node; simpl. destruct (decide (j < length a)).
    - by rewrite lookup_app_l.
    - rewrite lookup_app_r by lia. rewrite (lookup_ge_None_2 a j) by lia.
      destruct (j - length a) as [|k]; simpl; done.
  Qed.

  Lemma data_new a d j :
    data (fst (new_node a d)) j = if Nat.eqb j (length a) then Some d else data a j.
  Proof.
    unfold data, new_node; simpl. destruct (Nat.eqb_spec j (length a)) as [->|].
    - rewrite lookup_app_r by lia. by rewrite Nat.sub_diag.
    - destruct (decide (j < length a)).
      + by rewrite lookup_app_l.
      + rewrite (lookup_ge_None_2 a j) by lia.
        rewrite lookup_ge_None_2; [done|]. rewrite app_length. simpl. lia.
  Qed.

  Lemma length_new a d : length (fst (new_node a d)) = S (length a).
  Proof. unfold new_node; simpl. rewrite app_length; simpl. lia. Qed.

  Lemma children_set_children a p cs j :
    p < length a ->
    children (set_children a p cs) j = if Nat.eqb j p then cs else children a j.
  Proof.
    intros Hp. unfold children, set_children. destruct (Nat.eqb_spec j p) as [->|].
    - rewrite list_lookup_alter. destruct (lookup_lt_is_Some_2 a p Hp) as [n ->]. done.
    - by rewrite list_lookup_alter_ne.
  Qed.

  Lemma parent_set_children a p cs j : parent (set_children a p cs) j = parent a j.
  Proof.
    unfold parent, set_children. destruct (decide (j = p)) as [->|].
    - rewrite list_lookup_alter. by destruct (a !! p).
    - by rewrite list_lookup_alter_ne.
  Qed.

  Lemma data_set_children a p cs j : data (set_children a p cs) j = data a j.
  Proof.
    unfold data, set_children. destruct (decide (j = p)) as [->|].
    - rewrite list_lookup_alter. by destruct (a !! p).
    - by rewrite list_lookup_alter_ne.
  Qed.

  Lemma children_set_parent a c p j : children (set_parent a c p) j = children a j.
  Proof.
    unfold children, set_parent. destruct (decide (j = c)) as [->|].
    - rewrite list_lookup_alter. by destruct (a !! c).
    - by rewrite list_lookup_alter_ne.
  Qed.

  Lemma parent_set_parent a c p j :
    c < length a -> parent (set_parent a c p) j = if Nat.eqb j c then p else parent a j.
  Proof.
    intros Hc. unfold parent, set_parent. destruct (Nat.eqb_spec j c) as [->|].
    - rewrite list_lookup_alter. destruct (lookup_lt_is_Some_2 a c Hc) as [n ->]. done.
    - by rewrite list_lookup_alter_ne.
  Qed.

  Lemma data_set_parent a c p j : data (set_parent a c p) j = data a j.
  Proof.
    unfold data, set_parent. destruct (decide (j = c)) as [->|].
    - rewrite list_lookup_alter. by destruct (a !! c).
    - by rewrite list_lookup_alter_ne.
  Qed.

  Lemma children_set_data a i d j : children (set_data a i d) j = children a j.
  Proof.
    unfold children, set_data. destruct (decide (j = i)) as [->|].
    - rewrite list_lookup_alter. by destruct (a !! i).
    - by rewrite list_lookup_alter_ne.
  Qed.

  Lemma parent_set_data a i d j : parent (set_data a i d) j = parent a j.
  Proof.
    unfold parent, set_data. destruct (decide (j = i)) as [->|].
    - rewrite list_lookup_alter. by destruct (a !! i).
    - by rewrite list_lookup_alter_ne.
  Qed.

  Lemma data_set_data a i d j :
    i < length a -> data (set_data a i d) j = if Nat.eqb j i then Some d else data a j.
  Proof.
    intros Hi. unfold data, set_data. destruct (Nat.eqb_spec j i) as [->|].
    - rewrite list_lookup_alter. destruct (lookup_lt_is_Some_2 a i Hi) as [n ->]. done.
    - by rewrite list_lookup_alter_ne.
  Qed.

  Lemma length_set_children a p cs : length (set_children a p cs) = length a.
  Proof. apply alter_length. Qed.
  Lemma length_set_parent a p cs : length (set_parent a p cs) = length a.
  Proof. apply alter_length. Qed.
  Lemma length_set_data a p cs : length (set_data a p cs) = length a.
  Proof. apply alter_length. Qed.

  Lemma parent_lt a i p : parent a i = Some p -> i < length a.
  Proof.
    unfold parent. destruct (a !! i) eqn:E; [|done]. intros _. by eapply lookup_lt_Some.
  Qed.

  Lemma children_lt a i c : c ∈ children a i -> i < length a.
  Proof.
    unfold children. destruct (a !! i) eqn:E; [|intros H; inversion H].
    intros _. by eapply lookup_lt_Some.
  Qed.

  Lemma data_lt a i d : data a i = Some d -> i < length a.
  Proof.
    unfold data. destruct (a !! i) eqn:E; [|done]. intros _. by eapply lookup_lt_Some.
  Qed.

  Lemma data_some a i : i < length a -> exists d, data a i = Some d.
  Proof.
    intros H. unfold data. destruct (lookup_lt_is_Some_2 a i H) as [n ->]. eauto.
  Qed.

  Lemma parent_ge a i : length a <= i -> parent a i = None.
  Proof. intros H. unfold parent. by rewrite lookup_ge_None_2. Qed.

  Lemma children_ge a i : length a <= i -> children a i = [].
  Proof. intros H. unfold children. by rewrite lookup_ge_None_2. Qed.

  (** ** Ancestor chains *)

  Inductive chain a : nat -> list nat -> Prop :=
  | chain_root i : parent a i = None -> chain a i []
  | chain_up i p l : parent a i = Some p -> chain a p l -> chain a i (p :: l).

  Lemma chain_det a i l l' : chain a i l -> chain a i l' -> l = l'.
  Proof.
    intros H; revert l'. induction H as [i E|i p l E H IH]; intros l' H'.
    - inversion H'; congruence.
    - inversion H' as [|? p' k E' H'']; subst; [congruence|].
      assert (p' = p) as -> by congruence. f_equal. auto.
  Qed.

  Lemma chain_split a i l x :
    chain a i l -> x ∈ l -> exists l1 l2, l = l1 ++ x :: l2 /\ chain a x l2.
  Proof.
    induction 1 as [i E|i p l E H IH]; intros Hx; [inversion Hx|].
    apply elem_of_cons in Hx as [->|Hx].
    - by exists [], l.
    - destruct (IH Hx) as (l1 & l2 & -> & Hc). by exists (p :: l1), l2.
  Qed.

  Lemma chain_not_self a i l : chain a i l -> i ∉ l.
  Proof.
    intros H Hin. destruct (chain_split _ _ _ _ H Hin) as (l1 & l2 & El & Hc).
    pose proof (chain_det _ _ _ _ H Hc) as E.
    assert (length l = length l2) by congruence.
    rewrite El in H0. rewrite app_length in H0. simpl in H0. lia.
  Qed.

  Lemma chain_nodup a i l : chain a i l -> NoDup (i :: l).
  Proof.
    intros H. constructor; [by eapply chain_not_self|].
    induction H as [i E|i p l E H IH]; constructor; [|done]. by eapply chain_not_self.
  Qed.

  (** ** Well-formed arenas *)

  Record wf a : Prop := {
    wf_pc : forall i p, parent a i = Some p <-> i ∈ children a p;
    wf_nd : forall p, NoDup (children a p);
    wf_chain : forall i, exists l, chain a i l
  }.

  Lemma wf_child_lt a p c : wf a -> c ∈ children a p -> c < length a.
  Proof. intros W H. apply (wf_pc a W) in H. by eapply parent_lt. Qed.

  Lemma wf_parent_lt a p c : wf a -> parent a c = Some p -> p < length a.
  Proof. intros W H. apply (wf_pc a W) in H. by eapply children_lt. Qed.

  Lemma chain_lt a i l x : wf a -> chain a i l -> x ∈ l -> x < length a.
  Proof.
    intros W. induction 1 as [|i p l E H IH]; intros Hx; [inversion Hx|].
    apply elem_of_cons in Hx as [->|Hx]; [by eapply wf_parent_lt|auto].
  Qed.

  Lemma nodup_lt_length (l : list nat) n :
    NoDup l -> (forall x, x ∈ l -> x < n) -> length l <= n.
  Proof.
    intros Hnd Hlt. rewrite <- (seq_length n 0). apply NoDup_incl_length.
    - by apply NoDup_ListNoDup.
    - intros x Hx. apply in_seq. apply elem_of_list_In in Hx. apply Hlt in Hx. lia.
  Qed.

  Lemma chain_length a i l : wf a -> chain a i l -> length l <= length a.
  Proof.
    intros W H. apply nodup_lt_length.
    - apply chain_nodup in H. by inversion H.
    - intros x. by apply chain_lt with i.
  Qed.

  Lemma chain_length_lt a i l : wf a -> i < length a -> chain a i l -> length l < length a.
  Proof.
    intros W Hi H. apply (nodup_lt_length (i :: l)).
    - by apply chain_nodup in H.
    - intros x Hx. apply elem_of_cons in Hx as [->|Hx]; [done|by eapply chain_lt].
  Qed.

  Lemma ancestors_chain a i l f : chain a i l -> length l < f -> ancestors f a i = Some l.
  Proof.
    intros H; revert f. induction H as [i E|i p l E H IH]; intros [|f] Hf;
      simpl in *; try lia; rewrite E; [done|].
    rewrite IH by lia. done.
  Qed.

  Lemma ancestors_some a i l f : ancestors f a i = Some l -> chain a i l.
  Proof.
    revert i l. induction f as [|f IH]; intros i l; simpl; [done|].
    destruct (parent a i) as [p|] eqn:E; [|intros [= <-]; by constructor].
    destruct (ancestors f a p) eqn:E'; [|done]. intros [= <-].
    eapply chain_up; eauto.
  Qed.

  Lemma is_ancestor_spec a anc i l :
    wf a -> chain a i l -> is_ancestor a anc i = Some (existsb (Nat.eqb anc) l).
  Proof.
    intros W H. unfold is_ancestor, chain_fuel.
    erewrite ancestors_chain; [done|done|]. pose proof (chain_length _ _ _ W H). lia.
  Qed.

  Lemma is_ancestor_false a anc i l :
    wf a -> chain a i l -> anc ∉ l -> is_ancestor a anc i = Some false.
  Proof.
    intros W H Hn. rewrite (is_ancestor_spec _ _ _ _ W H). f_equal.
    apply not_true_iff_false. rewrite existsb_exists. intros (x & Hx & E).
    apply Nat.eqb_eq in E as ->. apply Hn. by apply elem_of_list_In.
  Qed.

  (** Chains are unaffected by changes elsewhere. *)
  Lemma chain_agree a a' i l :
    chain a i l -> (forall x, x = i \/ x ∈ l -> parent a' x = parent a x) -> chain a' i l.
  Proof.
    induction 1 as [i E|i p l E H IH]; intros Hag.
    - constructor. rewrite Hag; auto.
    - eapply chain_up; [rewrite Hag; eauto|]. apply IH. intros x [->|Hx].
      + apply Hag. right. left.
      + apply Hag. right. by right.
  Qed.

  (** ** New nodes *)

  Lemma wf_new a d : wf a -> wf (fst (new_node a d)).
  Proof.
    intros [P N C]. split.
    - intros i p. rewrite parent_new, children_new. apply P.
    - intros p. rewrite children_new. apply N.
    - intros i. destruct (C i) as [l Hl]. exists l.
      eapply chain_agree; [done|]. intros x _. by rewrite parent_new.
  Qed.

  Lemma wf_set_data a i d : wf a -> wf (set_data a i d).
  Proof.
    intros [P N C]. split.
    - intros j p. rewrite parent_set_data, children_set_data. apply P.
    - intros p. rewrite children_set_data. apply N.
    - intros j. destruct (C j) as [l Hl]. exists l.
      eapply chain_agree; [done|]. intros x _. by rewrite parent_set_data.
  Qed.

  (** ** detach *)

  Lemma length_detach a i : length (detach a i) = length a.
  Proof.
    unfold detach. destruct (parent a i); [|done].
    by rewrite length_set_parent, length_set_children.
  Qed.

  Lemma data_detach a i j : data (detach a i) j = data a j.
  Proof.
    unfold detach. destruct (parent a i); [|done].
    by rewrite data_set_parent, data_set_children.
  Qed.

  Lemma children_detach a i j :
    wf a -> children (detach a i) j = remove_id i (children a j).
  Proof.
    intros W. unfold detach. destruct (parent a i) as [p|] eqn:E.
    - rewrite children_set_parent, children_set_children by (by eapply wf_parent_lt).
      destruct (Nat.eqb_spec j p) as [->|Hne]; [done|].
      rewrite remove_id_notin; [done|]. intros H. apply (wf_pc a W) in H. congruence.
    - rewrite remove_id_notin; [done|]. intros H. apply (wf_pc a W) in H. congruence.
  Qed.

  Lemma parent_detach a i j :
    parent (detach a i) j = if Nat.eqb j i then None else parent a j.
  Proof.
    unfold detach. destruct (parent a i) as [p|] eqn:E.
    - rewrite parent_set_parent by (rewrite length_set_children; by eapply parent_lt).
      by rewrite parent_set_children.
    - destruct (Nat.eqb_spec j i) as [->|]; done.
  Qed.

  Lemma chain_detach_other a i j l :
    chain a j l -> i <> j -> i ∉ l -> chain (detach a i) j l.
  Proof.
    intros H Hij Hn. eapply chain_agree; [done|]. intros x Hx. rewrite parent_detach.
    destruct (Nat.eqb_spec x i) as [->|]; [|done]. destruct Hx; congruence.
  Qed.

  Lemma wf_detach a i : wf a -> wf (detach a i).
  Proof.
    intros W. pose proof W as [P N C]. split.
    - intros j p. rewrite parent_detach, children_detach by done.
      rewrite elem_remove_id, <- P. destruct (Nat.eqb_spec j i); naive_solver.
    - intros p. rewrite children_detach by done. by apply remove_id_nodup.
    - intros j. destruct (C j) as [l Hl].
      induction Hl as [j E|j p l E H IH].
      + exists []. constructor. rewrite parent_detach. by destruct (Nat.eqb_spec j i).
      + destruct (Nat.eqb_spec j i) as [->|Hne].
        * exists []. constructor. by rewrite parent_detach, Nat.eqb_refl.
        * destruct IH as [k Hk]. exists (p :: k). eapply chain_up; [|done].
          rewrite parent_detach. destruct (Nat.eqb_spec j i); [congruence|done].
  Qed.

  (** ** Linking a parentless node *)

  Definition attach a p c cs : arena D := set_parent (set_children a p cs) c (Some p).

  Lemma length_attach a p c cs : length (attach a p c cs) = length a.
  Proof. unfold attach. by rewrite length_set_parent, length_set_children. Qed.

  Lemma data_attach a p c cs j : data (attach a p c cs) j = data a j.
  Proof. unfold attach. by rewrite data_set_parent, data_set_children. Qed.

  Lemma children_attach a p c cs j :
    p < length a -> children (attach a p c cs) j = if Nat.eqb j p then cs else children a j.
  Proof. intros. unfold attach. by rewrite children_set_parent, children_set_children. Qed.

  Lemma parent_attach a p c cs j :
    c < length a -> parent (attach a p c cs) j = if Nat.eqb j c then Some p else parent a j.
  Proof.
    intros. unfold attach. rewrite parent_set_parent by (by rewrite length_set_children).
    by rewrite parent_set_children.
  Qed.

  Lemma wf_attach a p c cs l :
    wf a -> parent a c = None -> c < length a -> p < length a ->
    chain a p l -> c <> p -> c ∉ l ->
    (forall x, x ∈ cs <-> x = c \/ x ∈ children a p) -> NoDup cs ->
    wf (attach a p c cs).
  Proof.
    intros W Hc Hcl Hpl Hch Hne Hn Hcs Hnd. pose proof W as [P N C].
    assert (chain (attach a p c cs) p l) as Hp.
    { eapply chain_agree; [done|]. intros x Hx. rewrite parent_attach by done.
      destruct (Nat.eqb_spec x c) as [->|]; [|done]. destruct Hx; congruence. }
    split.
    - intros i q. rewrite parent_attach, children_attach by done.
      destruct (Nat.eqb_spec i c) as [->|Hic], (Nat.eqb_spec q p) as [->|Hqp].
      + rewrite Hcs. tauto.
      + split; [congruence|]. intros H. apply P in H. congruence.
      + rewrite Hcs, P. naive_solver.
      + apply P.
    - intros q. rewrite children_attach by done. by destruct (Nat.eqb q p).
    - intros j. destruct (C j) as [k Hk]. induction Hk as [j E|j q k E H IH].
      + destruct (Nat.eqb_spec j c) as [->|Hjc].
        * exists (p :: l). eapply chain_up; [|done].
          by rewrite parent_attach, Nat.eqb_refl.
        * exists []. constructor. rewrite parent_attach by done.
          destruct (Nat.eqb_spec j c); [congruence|done].
      + destruct IH as [k' Hk']. exists (q :: k'). eapply chain_up; [|done].
        rewrite parent_attach by done. destruct (Nat.eqb_spec j c); [congruence|done].
  Qed.

  (** ** append and insert_before *)

  Lemma append_spec a p c l :
    wf a -> chain a p l -> c <> p -> c ∉ l ->
    append a p c = Val (attach (detach a c) p c (remove_id c (children a p) ++ [c])).
  Proof.
    intros W Hch Hne Hn. unfold append.
    destruct (Nat.eqb_spec p c); [congruence|].
    rewrite (is_ancestor_false _ _ _ _ W Hch Hn).
    unfold attach. by rewrite children_detach.
  Qed.

  Lemma append_wf a p c l a' :
    wf a -> p < length a -> c < length a -> chain a p l -> c <> p -> c ∉ l ->
    append a p c = Val a' -> wf a'.
  Proof.
    intros W Hp Hc Hch Hne Hn E. rewrite (append_spec _ _ _ _ W Hch Hne Hn) in E.
    injection E as <-. eapply wf_attach.
    - by apply wf_detach.
    - by rewrite parent_detach, Nat.eqb_refl.
    - by rewrite length_detach.
    - by rewrite length_detach.
    - apply chain_detach_other; eauto.
    - done.
    - done.
    - intros x. rewrite children_detach by done.
      rewrite elem_of_app, elem_of_list_singleton. tauto.
    - apply NoDup_app. split; [apply remove_id_nodup, W|]. split.
      + intros x Hx Hx'. apply elem_of_list_singleton in Hx' as ->.
        apply elem_remove_id in Hx. tauto.
      + apply NoDup_singleton.
  Qed.

  Lemma insert_before_spec a sib new p :
    wf a -> sib <> new -> new <> p -> parent a sib = Some p ->
    insert_before a sib new
    = Val (attach (detach a new) p new (insert_before_list sib new (remove_id new (children a p)))).
  Proof.
    intros W Hne Hnp Hp. unfold insert_before.
    destruct (Nat.eqb_spec sib new); [congruence|].
    rewrite parent_detach. destruct (Nat.eqb_spec sib new); [congruence|].
    rewrite Hp. destruct (Nat.eqb_spec p new); [congruence|].
    unfold attach. by rewrite children_detach.
  Qed.

  Lemma insert_before_orphan a sib new :
    sib <> new -> parent a sib = None -> insert_before a sib new = Val (detach a new).
  Proof.
    intros Hne Hp. unfold insert_before.
    destruct (Nat.eqb_spec sib new); [congruence|].
    rewrite parent_detach. destruct (Nat.eqb_spec sib new); [congruence|].
    by rewrite Hp.
  Qed.

  Lemma insert_before_wf a sib new p l a' :
    wf a -> new < length a -> chain a p l -> new <> p -> new ∉ l ->
    sib <> new -> parent a sib = Some p ->
    insert_before a sib new = Val a' -> wf a'.
  Proof.
    intros W Hn Hch Hne Hnl Hs Hp E.
    rewrite (insert_before_spec _ _ _ _ W Hs Hne Hp) in E. injection E as <-.
    assert (sib ∈ children a p) as Hsib by (by apply (wf_pc a W)).
    assert (sib ∈ remove_id new (children a p)) as Hsib' by (by apply elem_remove_id).
    eapply wf_attach.
    - by apply wf_detach.
    - by rewrite parent_detach, Nat.eqb_refl.
    - by rewrite length_detach.
    - rewrite length_detach. by eapply wf_parent_lt.
    - apply chain_detach_other; eauto.
    - done.
    - done.
    - intros x. rewrite children_detach by done. by apply elem_insert_before_list.
    - apply insert_before_list_nodup; [apply remove_id_nodup, W|].
      rewrite elem_remove_id. tauto.
  Qed.
End Arena.
