(** The links of [Links.v] represent the children lists of [Arena.v]. *)
From Verif Require Import Base Arena Links ArenaProofs ArenaOps.

(** ** Neighbours in lists without repetitions *)
Lemma next_in_app j l1 l2 : NoDup (l1 ++ l2) ->
  next_in j (l1 ++ l2) =
  if decide (j ∈ l1) then (if is_some_eqb (last l1) j then head l2 else next_in j l1) else next_in j l2.
Proof.
  induction l1 as [|x l1 IH]; intros Hn.
  - rewrite decide_False by (intros H; inversion H). done.
  - cbn [app] in Hn. apply NoDup_cons in Hn as [Hx Hn]. specialize (IH Hn). cbn [app next_in].
    destruct (Nat.eqb_spec x j) as [->|Hne].
    + rewrite decide_True by left. destruct l1 as [|y l1]; cbn [app].
      * cbn. by rewrite Nat.eqb_refl.
      * cbn [head]. rewrite last_cons_cons. destruct (last (y :: l1)) as [z|] eqn:E; [|done]. cbn.
        destruct (Nat.eqb_spec z j) as [->|]; [|done]. exfalso. apply Hx. apply elem_of_app. left.
        by apply last_Some_elem_of.
    + rewrite IH. destruct (decide (j ∈ l1)) as [Hi|Hi].
      * rewrite decide_True by (by right). destruct l1 as [|y l1]; [inversion Hi|]. done.
      * rewrite decide_False; [done|]. rewrite elem_of_cons. naive_solver.
Qed.

Lemma next_in_notin j l : j ∉ l -> next_in j l = None.
Proof.
  induction l as [|x l IH]; [done|]. intros H. rewrite elem_of_cons in H. cbn.
  destruct (Nat.eqb_spec x j) as [->|]; [naive_solver|]. apply IH. naive_solver.
Qed.

Lemma prev_in_cons j x l : prev_in j (x :: l) = if is_some_eqb (head l) j then Some x else prev_in j l.
Proof. destruct l; done. Qed.

Lemma prev_in_notin j l : j ∉ l -> prev_in j l = None.
Proof.
  induction l as [|x l IH]; [done|]. intros H. rewrite elem_of_cons in H. rewrite prev_in_cons.
  destruct l as [|y l]; [done|]. cbn [head is_some_eqb].
  destruct (Nat.eqb_spec y j) as [->|]; [|apply IH; naive_solver].
  exfalso. apply H. right. left.
Qed.

Lemma prev_in_head j l : j ∉ l -> prev_in j (j :: l) = None.
Proof.
  intros H. rewrite prev_in_cons. rewrite prev_in_notin by done. destruct l as [|y l]; [done|].
  cbn [head is_some_eqb]. destruct (Nat.eqb_spec y j) as [->|]; [exfalso; apply H; left|]. done.
Qed.

Lemma prev_in_app j l1 l2 : NoDup (l1 ++ l2) ->
  prev_in j (l1 ++ l2) =
  if decide (j ∈ l2) then (if is_some_eqb (head l2) j then last l1 else prev_in j l2) else prev_in j l1.
Proof.
  induction l1 as [|x l1 IH]; intros Hn; cbn [app] in *.
  - destruct (decide (j ∈ l2)) as [H|H]; [|by rewrite prev_in_notin].
    destruct l2 as [|y l2]; [done|]. cbn [head is_some_eqb]. destruct (Nat.eqb_spec y j) as [->|]; [|done].
    apply NoDup_cons in Hn as [Hn _]. by rewrite prev_in_head.
  - apply NoDup_cons in Hn as [Hx Hn]. specialize (IH Hn). rewrite prev_in_cons, IH. clear IH.
    destruct l1 as [|y l1]; cbn [app head last].
    + destruct (decide (j ∈ l2)) as [Hi|Hi]; [by destruct (is_some_eqb _ _)|].
      destruct l2 as [|z l2]; [done|]. cbn [head is_some_eqb].
      destruct (Nat.eqb_spec z j) as [->|]; [exfalso; apply Hi; left|]. done.
    + change (last (x :: y :: l1)) with (last (y :: l1)). rewrite (prev_in_cons j x). cbn [head is_some_eqb].
      destruct (decide (j ∈ l2)) as [Hi|Hi]; [|done].
      destruct (Nat.eqb_spec y j) as [->|]; [|done].
      exfalso. cbn [app] in Hn. apply NoDup_cons in Hn as [Hn _]. apply Hn, elem_of_app. by right.
Qed.

Section Repr.
  Context {D : Type}.
  Implicit Types (a : arena D) (L : list (lnode D)).

  (** ** Reading after writing *)
  Lemma length_put_data L i v : length (put_data L i v) = length L.
  Proof. apply alter_length. Qed.
  Lemma length_put_parent L i v : length (put_parent L i v) = length L.
  Proof. apply alter_length. Qed.
  Lemma length_put_prev L i v : length (put_prev L i v) = length L.
  Proof. apply alter_length. Qed.
  Lemma length_put_next L i v : length (put_next L i v) = length L.
  Proof. apply alter_length. Qed.
  Lemma length_put_ends L i v w : length (put_ends L i v w) = length L.
  Proof. apply alter_length. Qed.

  Ltac rw := match goal with |- context [alter ?f ?i ?L !! ?j] =>
    destruct (decide (i = j)) as [<-|]; [rewrite list_lookup_alter|rewrite list_lookup_alter_ne by done] end.
  Ltac same := intros; unfold l_data, l_parent, l_prev, l_next, l_first, l_last,
    put_data, put_parent, put_prev, put_next, put_ends; rw; [destruct (_ !! _); done|done].
  Ltac here := intros; unfold l_data, l_parent, l_prev, l_next, l_first, l_last,
    put_data, put_parent, put_prev, put_next, put_ends in *; rw;
    [rewrite Nat.eqb_refl; match goal with H : ?i < length ?L |- _ => destruct (lookup_lt_is_Some_2 _ _ H) as [? ->]; done end
    |match goal with |- context [Nat.eqb ?a ?b] => destruct (Nat.eqb_spec a b); [congruence|done] end].

  Lemma data_put_data L i v j : i < length L -> l_data (put_data L i v) j = if Nat.eqb j i then Some v else l_data L j.
  Proof. here. Qed.
  Lemma parent_put_data L i v j : l_parent (put_data L i v) j = l_parent L j. Proof. same. Qed.
  Lemma prev_put_data L i v j : l_prev (put_data L i v) j = l_prev L j. Proof. same. Qed.
  Lemma next_put_data L i v j : l_next (put_data L i v) j = l_next L j. Proof. same. Qed.
  Lemma first_put_data L i v j : l_first (put_data L i v) j = l_first L j. Proof. same. Qed.
  Lemma last_put_data L i v j : l_last (put_data L i v) j = l_last L j. Proof. same. Qed.

  Lemma parent_put_parent L i v j : i < length L -> l_parent (put_parent L i v) j = if Nat.eqb j i then v else l_parent L j.
  Proof. here. Qed.
  Lemma data_put_parent L i v j : l_data (put_parent L i v) j = l_data L j. Proof. same. Qed.
  Lemma prev_put_parent L i v j : l_prev (put_parent L i v) j = l_prev L j. Proof. same. Qed.
  Lemma next_put_parent L i v j : l_next (put_parent L i v) j = l_next L j. Proof. same. Qed.
  Lemma first_put_parent L i v j : l_first (put_parent L i v) j = l_first L j. Proof. same. Qed.
  Lemma last_put_parent L i v j : l_last (put_parent L i v) j = l_last L j. Proof. same. Qed.

  Lemma prev_put_prev L i v j : i < length L -> l_prev (put_prev L i v) j = if Nat.eqb j i then v else l_prev L j.
  Proof. here. Qed.
  Lemma data_put_prev L i v j : l_data (put_prev L i v) j = l_data L j. Proof. same. Qed.
  Lemma parent_put_prev L i v j : l_parent (put_prev L i v) j = l_parent L j. Proof. same. Qed.
  Lemma next_put_prev L i v j : l_next (put_prev L i v) j = l_next L j. Proof. same. Qed.
  Lemma first_put_prev L i v j : l_first (put_prev L i v) j = l_first L j. Proof. same. Qed.
  Lemma last_put_prev L i v j : l_last (put_prev L i v) j = l_last L j. Proof. same. Qed.

  Lemma next_put_next L i v j : i < length L -> l_next (put_next L i v) j = if Nat.eqb j i then v else l_next L j.
  Proof. here. Qed.
  Lemma data_put_next L i v j : l_data (put_next L i v) j = l_data L j. Proof. same. Qed.
  Lemma parent_put_next L i v j : l_parent (put_next L i v) j = l_parent L j. Proof. same. Qed.
  Lemma prev_put_next L i v j : l_prev (put_next L i v) j = l_prev L j. Proof. same. Qed.
  Lemma first_put_next L i v j : l_first (put_next L i v) j = l_first L j. Proof. same. Qed.
  Lemma last_put_next L i v j : l_last (put_next L i v) j = l_last L j. Proof. same. Qed.

  Lemma first_put_ends L i v w j : i < length L -> l_first (put_ends L i v w) j = if Nat.eqb j i then v else l_first L j.
  Proof. here. Qed.
  Lemma last_put_ends L i v w j : i < length L -> l_last (put_ends L i v w) j = if Nat.eqb j i then w else l_last L j.
  Proof. here. Qed.
  Lemma data_put_ends L i v w j : l_data (put_ends L i v w) j = l_data L j. Proof. same. Qed.
  Lemma parent_put_ends L i v w j : l_parent (put_ends L i v w) j = l_parent L j. Proof. same. Qed.
  Lemma prev_put_ends L i v w j : l_prev (put_ends L i v w) j = l_prev L j. Proof. same. Qed.
  Lemma next_put_ends L i v w j : l_next (put_ends L i v w) j = l_next L j. Proof. same. Qed.

  Definition in_range L (o : option nat) : Prop := forall x, o = Some x -> x < length L.

  Lemma length_connect L par prev next : length (connect L par prev next) = length L.
  Proof.
    unfold connect. destruct prev, next, par; rewrite ?length_put_ends, ?length_put_prev, ?length_put_next; done.
  Qed.

  Lemma connect_spec L par prev next :
    in_range L par -> in_range L prev -> in_range L next ->
    let L' := connect L par prev next in
    (forall j, l_data L' j = l_data L j) /\ (forall j, l_parent L' j = l_parent L j) /\
    (forall j, l_next L' j = if is_some_eqb prev j then next else l_next L j) /\
    (forall j, l_prev L' j = if is_some_eqb next j then prev else l_prev L j) /\
    (forall j, l_first L' j = if is_some_eqb par j
                              then match prev with
                                   | Some x => match l_first L j with Some f => Some f | None => Some x end
                                   | None => next
                                   end
                              else l_first L j) /\
    (forall j, l_last L' j = if is_some_eqb par j
                             then match next with
                                  | Some y => match l_last L j with Some l => Some l | None => Some y end
                                  | None => prev
                                  end
                             else l_last L j).
  Proof.
    intros Hp Hv Hn L'. subst L'. unfold connect.
    destruct prev as [x|], next as [y|], par as [p|];
      repeat match goal with H : in_range _ (Some _) |- _ => specialize (H _ eq_refl) | H : in_range _ None |- _ => clear H end;
      cbn [is_some_eqb]; split_and!; intros j;
      repeat first
        [ rewrite data_put_ends | rewrite data_put_next | rewrite data_put_prev
        | rewrite parent_put_ends | rewrite parent_put_next | rewrite parent_put_prev
        | rewrite next_put_ends | rewrite next_put_prev | rewrite next_put_next by (rewrite ?length_put_prev; done)
        | rewrite prev_put_ends | rewrite prev_put_next | rewrite prev_put_prev by (rewrite ?length_put_next; done)
        | rewrite first_put_next | rewrite first_put_prev
        | rewrite first_put_ends by (rewrite ?length_put_prev, ?length_put_next; done)
        | rewrite last_put_next | rewrite last_put_prev
        | rewrite last_put_ends by (rewrite ?length_put_prev, ?length_put_next; done) ];
      try done;
      repeat match goal with |- context [Nat.eqb ?a ?b] => destruct (Nat.eqb_spec a b); subst end;
      try done; congruence.
  Qed.

  (** ** Representation *)
  Record repr L a : Prop := {
    re_len : length L = length a;
    re_data : forall i, l_data L i = data a i;
    re_parent : forall i, l_parent L i = parent a i;
    re_prev : forall i, l_prev L i = previous_sibling a i;
    re_next : forall i, l_next L i = next_sibling a i;
    re_first : forall i, l_first L i = head (children a i);
    re_last : forall i, l_last L i = last (children a i)
  }.

  Lemma repr_nil : repr [] ([] : arena D).
  Proof. by split. Qed.

  Lemma sibs_new a d i : wf a ->
    previous_sibling (fst (new_node a d)) i = previous_sibling a i /\ next_sibling (fst (new_node a d)) i = next_sibling a i.
  Proof.
    intros W. unfold previous_sibling, next_sibling. rewrite parent_new. destruct (parent a i); [|done].
    by rewrite children_new.
  Qed.

  Lemma repr_new L a d : wf a -> repr L a -> repr (fst (l_new_node L d)) (fst (new_node a d)).
  Proof.
    intros W [Hl Hd Hp Hv Hn Hf Ht]. cbn [l_new_node fst].
    assert (forall j, (L ++ [mkL d None None None None None]) !! j
                      = if Nat.eqb j (length a) then Some (mkL d None None None None None) else L !! j) as E.
    { intros j. rewrite <- Hl. destruct (Nat.eqb_spec j (length L)) as [->|Hne].
      - by rewrite lookup_app_r, Nat.sub_diag by lia.
      - destruct (decide (j < length L)); [by rewrite lookup_app_l|].
        rewrite !lookup_ge_None_2; [done|lia|rewrite app_length; cbn; lia]. }
    split.
    - rewrite length_new, app_length. cbn. lia.
    - intros i. unfold l_data. rewrite E, data_new. destruct (Nat.eqb_spec i (length a)); [done|apply Hd].
    - intros i. unfold l_parent. rewrite E, parent_new. destruct (Nat.eqb_spec i (length a)) as [->|]; [|apply Hp].
      cbn. by rewrite parent_ge.
    - intros i. unfold l_prev. rewrite E. destruct (sibs_new a d i W) as [-> _].
      destruct (Nat.eqb_spec i (length a)) as [->|]; [|apply Hv]. cbn. unfold previous_sibling. by rewrite parent_ge.
    - intros i. unfold l_next. rewrite E. destruct (sibs_new a d i W) as [_ ->].
      destruct (Nat.eqb_spec i (length a)) as [->|]; [|apply Hn]. cbn. unfold next_sibling. by rewrite parent_ge.
    - intros i. unfold l_first. rewrite E, children_new. destruct (Nat.eqb_spec i (length a)) as [->|]; [|apply Hf].
      by rewrite children_ge.
    - intros i. unfold l_last. rewrite E, children_new. destruct (Nat.eqb_spec i (length a)) as [->|]; [|apply Ht].
      by rewrite children_ge.
  Qed.

  Lemma repr_set_data L a i d : i < length a -> repr L a -> repr (put_data L i d) (set_data a i d).
  Proof.
    intros Hi [Hl Hd Hp Hv Hn Hf Ht]. split.
    - by rewrite length_put_data, length_set_data.
    - intros j. rewrite data_put_data by lia. rewrite data_set_data by done. by rewrite Hd.
    - intros j. by rewrite parent_put_data, parent_set_data.
    - intros j. rewrite prev_put_data, Hv. unfold previous_sibling. rewrite parent_set_data.
      destruct (parent a j); [|done]. by rewrite children_set_data.
    - intros j. rewrite next_put_data, Hn. unfold next_sibling. rewrite parent_set_data.
      destruct (parent a j); [|done]. by rewrite children_set_data.
    - intros j. by rewrite first_put_data, children_set_data.
    - intros j. by rewrite last_put_data, children_set_data.
  Qed.

  Lemma head_lt a p l1 l2 x : wf a -> children a p = l1 ++ l2 -> head l2 = Some x -> x < length a.
  Proof.
    intros W E Hx. destruct l2 as [|y l2]; [done|]. injection Hx as ->.
    apply (wf_child_lt a p x W). rewrite E. apply elem_of_app. right. left.
  Qed.
  Lemma last_lt a p l1 l2 x : wf a -> children a p = l1 ++ l2 -> last l1 = Some x -> x < length a.
  Proof.
    intros W E Hx. apply last_Some_elem_of in Hx.
    apply (wf_child_lt a p x W). rewrite E. apply elem_of_app. by left.
  Qed.

  Lemma remove_mid i l1 l2 : NoDup (l1 ++ i :: l2) -> remove_id i (l1 ++ i :: l2) = l1 ++ l2.
  Proof.
    intros H. apply NoDup_app in H as (H1 & H2 & H3). apply NoDup_cons in H3 as [H3 _].
    rewrite remove_id_app. rewrite (remove_id_notin i l1) by (intros Hi; apply (H2 i Hi); left).
    cbn. rewrite Nat.eqb_refl. by rewrite remove_id_notin.
  Qed.

  Lemma is_some_eqb_true o i : is_some_eqb o i = true <-> o = Some i.
  Proof.
    destruct o as [x|]; cbn; [|done]. rewrite Nat.eqb_eq. naive_solver.
  Qed.
  Lemma is_some_eqb_false o i : is_some_eqb o i = false <-> o <> Some i.
  Proof.
    destruct o as [x|]; cbn; [|done]. rewrite Nat.eqb_neq. naive_solver.
  Qed.

  Lemma last_cons_ne {A} (x : A) l : last (x :: l) <> None.
  Proof. revert x. induction l as [|y l IH]; intros x; [done|]. apply IH. Qed.

  Lemma detach_from_siblings_orphan L a i : repr L a -> i < length a -> parent a i = None ->
    repr (detach_from_siblings L i) a.
  Proof.
    intros [Hl Hd Hp Hv Hn Hf Ht] Hi Ho. unfold detach_from_siblings.
    rewrite Hp, Hv, Hn, Ho. unfold previous_sibling, next_sibling. rewrite Ho. cbn [connect].
    split.
    - by rewrite length_put_next, length_put_prev.
    - intros j. by rewrite data_put_next, data_put_prev.
    - intros j. by rewrite parent_put_next, parent_put_prev.
    - intros j. rewrite prev_put_next, prev_put_prev by lia. destruct (Nat.eqb_spec j i) as [->|]; [|done].
      unfold previous_sibling. by rewrite Ho.
    - intros j. rewrite next_put_next by (rewrite length_put_prev; lia). rewrite next_put_prev.
      destruct (Nat.eqb_spec j i) as [->|]; [|done]. unfold next_sibling. by rewrite Ho.
    - intros j. by rewrite first_put_next, first_put_prev.
    - intros j. by rewrite last_put_next, last_put_prev.
  Qed.

  Lemma repr_detach L a i : wf a -> i < length a -> repr L a -> repr (l_detach L i) (detach a i).
  Proof.
    intros W Hi R. unfold l_detach. destruct (parent a i) as [p|] eqn:Ep.
    2:{ pose proof (detach_from_siblings_orphan L a i R Hi Ep) as [Hl Hd Hp Hv Hn Hf Ht].
        rewrite detach_orphan by done. split.
        - by rewrite length_put_parent.
        - intros j. by rewrite data_put_parent.
        - intros j. rewrite parent_put_parent by lia. destruct (Nat.eqb_spec j i) as [->|]; [done|apply Hp].
        - intros j. by rewrite prev_put_parent.
        - intros j. by rewrite next_put_parent.
        - intros j. by rewrite first_put_parent.
        - intros j. by rewrite last_put_parent. }
    destruct R as [Hl Hd Hp Hv Hn Hf Ht].
    assert (i ∈ children a p) as Hin by (by apply W).
    apply elem_of_list_split in Hin as (l1 & l2 & Ec).
    pose proof (wf_nd a W p) as Hnd. rewrite Ec in Hnd.
    assert (NoDup (l1 ++ l2)) as Hnd'.
    { rewrite <- (remove_mid i l1 l2) by done. by apply remove_id_nodup. }
    pose proof (wf_parent_lt _ _ _ W Ep) as Hpl.
    assert (i ∉ l1 /\ i ∉ l2) as [Hi1 Hi2].
    { apply NoDup_app in Hnd as (? & H2 & H3). apply NoDup_cons in H3 as [H3 _]. split; [|done].
      intros H'. apply (H2 i H'). left. }
    assert (l_prev L i = last l1) as Ev.
    { rewrite Hv. unfold previous_sibling. rewrite Ep, Ec. rewrite prev_in_app by done.
      rewrite decide_True by left. cbn. by rewrite Nat.eqb_refl. }
    assert (l_next L i = head l2) as En.
    { rewrite Hn. unfold next_sibling. rewrite Ep, Ec. rewrite next_in_app by done.
      rewrite decide_False by done. cbn. by rewrite Nat.eqb_refl. }
    unfold detach_from_siblings. rewrite Hp, Ep, Ev, En.
    set (L0 := put_next (put_prev L i None) i None).
    assert (length L0 = length a) as Hl0 by (subst L0; by rewrite length_put_next, length_put_prev).
    destruct (connect_spec L0 (Some p) (last l1) (head l2)) as (Cd & Cp & Cn & Cv & Cf & Ct).
    { intros x [= <-]. lia. }
    { intros x Hx. rewrite Hl0. by eapply last_lt. }
    { intros x Hx. rewrite Hl0. eapply (head_lt a p (l1 ++ [i]) l2); [done| |done]. by rewrite <- app_assoc. }
    pose proof (length_connect L0 (Some p) (last l1) (head l2)) as Hlc.
    set (L' := connect L0 (Some p) (last l1) (head l2)) in *. clearbody L'.
    assert (forall j, l_data L0 j = l_data L j) as D0 by (intros; subst L0; by rewrite data_put_next, data_put_prev).
    assert (forall j, l_parent L0 j = l_parent L j) as P0 by (intros; subst L0; by rewrite parent_put_next, parent_put_prev).
    assert (forall j, l_prev L0 j = if Nat.eqb j i then None else l_prev L j) as V0
      by (intros; subst L0; by rewrite prev_put_next, prev_put_prev by lia).
    assert (forall j, l_next L0 j = if Nat.eqb j i then None else l_next L j) as N0
      by (intros; subst L0; rewrite next_put_next by (rewrite length_put_prev; lia); by rewrite next_put_prev).
    assert (forall j, l_first L0 j = l_first L j) as F0 by (intros; subst L0; by rewrite first_put_next, first_put_prev).
    assert (forall j, l_last L0 j = l_last L j) as T0 by (intros; subst L0; by rewrite last_put_next, last_put_prev).
    clearbody L0.
    assert (forall j, j <> p -> remove_id i (children a j) = children a j) as Hoth.
    { intros j Hj. apply remove_id_notin. intros H. apply (wf_pc a W) in H. congruence. }
    assert (remove_id i (children a p) = l1 ++ l2) as Hrm by (rewrite Ec; by apply remove_mid).
    split.
    - rewrite length_put_parent, length_detach. lia.
    - intros j. by rewrite data_put_parent, data_detach, Cd, D0.
    - intros j. rewrite parent_put_parent by lia. by rewrite parent_detach, Cp, P0, Hp.
    - intros j. rewrite prev_put_parent, Cv, V0. unfold previous_sibling. rewrite parent_detach.
      destruct (Nat.eqb_spec j i) as [->|Hji].
      { destruct (is_some_eqb (head l2) i) eqn:E; [|done]. apply is_some_eqb_true in E.
        exfalso. apply Hi2. destruct l2; [done|]. injection E as ->. left. }
      rewrite Hv. unfold previous_sibling. destruct (parent a j) as [q|] eqn:Eq.
      + rewrite children_detach by done. destruct (decide (q = p)) as [->|Hqp].
        * rewrite Hrm, Ec. rewrite !prev_in_app by done. cbn [head is_some_eqb].
          destruct (Nat.eqb_spec i j) as [->|]; [done|].
          destruct (decide (j ∈ l2)) as [Hj|Hj].
          -- rewrite decide_True by (by right). rewrite (prev_in_cons j i).
             destruct (is_some_eqb (head l2) j); done.
          -- rewrite decide_False by (rewrite elem_of_cons; naive_solver).
             destruct (is_some_eqb (head l2) j) eqn:E; [|done]. apply is_some_eqb_true in E.
             exfalso. apply Hj. destruct l2; [done|]. injection E as ->. left.
        * rewrite Hoth by done. destruct (is_some_eqb (head l2) j) eqn:E; [|done]. apply is_some_eqb_true in E.
          exfalso. apply Hqp. assert (j ∈ children a p) as Hj.
          { rewrite Ec. apply elem_of_app. right. right. destruct l2; [done|]. injection E as ->. left. }
          apply (wf_pc a W) in Hj. congruence.
      + destruct (is_some_eqb (head l2) j) eqn:E; [|done]. apply is_some_eqb_true in E.
        assert (j ∈ children a p) as Hj.
        { rewrite Ec. apply elem_of_app. right. right. destruct l2; [done|]. injection E as ->. left. }
        apply (wf_pc a W) in Hj. congruence.
    - intros j. rewrite next_put_parent, Cn, N0. unfold next_sibling. rewrite parent_detach.
      destruct (Nat.eqb_spec j i) as [->|Hji].
      { destruct (is_some_eqb (last l1) i) eqn:E; [|done]. apply is_some_eqb_true in E.
        exfalso. apply Hi1. by apply last_Some_elem_of. }
      rewrite Hn. unfold next_sibling. destruct (parent a j) as [q|] eqn:Eq.
      + rewrite children_detach by done. destruct (decide (q = p)) as [->|Hqp].
        * rewrite Hrm, Ec. rewrite !next_in_app by done.
          destruct (decide (j ∈ l1)) as [Hj|Hj]; [by destruct (is_some_eqb (last l1) j)|].
          destruct (is_some_eqb (last l1) j) eqn:E.
          { apply is_some_eqb_true in E. exfalso. apply Hj. by apply last_Some_elem_of. }
          cbn [next_in]. destruct (Nat.eqb_spec i j) as [->|]; done.
        * rewrite Hoth by done. destruct (is_some_eqb (last l1) j) eqn:E; [|done]. apply is_some_eqb_true in E.
          exfalso. apply Hqp. assert (j ∈ children a p) as Hj.
          { rewrite Ec. apply elem_of_app. left. by apply last_Some_elem_of. }
          apply (wf_pc a W) in Hj. congruence.
      + destruct (is_some_eqb (last l1) j) eqn:E; [|done]. apply is_some_eqb_true in E.
        assert (j ∈ children a p) as Hj.
        { rewrite Ec. apply elem_of_app. left. by apply last_Some_elem_of. }
        apply (wf_pc a W) in Hj. congruence.
    - intros j. rewrite first_put_parent, Cf, F0. rewrite children_detach by done. cbn [is_some_eqb].
      destruct (Nat.eqb_spec p j) as [<-|]; [|by rewrite Hoth, Hf].
      rewrite Hrm, Hf, Ec. destruct l1 as [|x l1]; [done|].
      destruct (last (x :: l1)) eqn:E; [done|]. by apply last_cons_ne in E.
    - intros j. rewrite last_put_parent, Ct, T0. rewrite children_detach by done. cbn [is_some_eqb].
      destruct (Nat.eqb_spec p j) as [<-|]; [|by rewrite Hoth, Ht].
      rewrite Hrm, Ht, Ec. destruct l2 as [|y l2].
      + by rewrite app_nil_r.
      + cbn [head]. rewrite !last_app. change (last (i :: y :: l2)) with (last (y :: l2)).
        destruct (last (y :: l2)) eqn:E; [done|]. by apply last_cons_ne in E.
  Qed.

  (** Linking an orphan between two neighbours. *)
  Lemma repr_insert L a n p l1 l2 : wf a -> repr L a -> n < length a -> p < length a -> parent a n = None -> n <> p ->
    children a p = l1 ++ l2 ->
    exists L', insert_with_neighbors L n (Some p) (last l1) (head l2) = Val L' /\
               repr L' (attach a p n (l1 ++ n :: l2)).
  Proof.
    intros W R Hn Hp Ho Hne Ec. unfold insert_with_neighbors.
    assert (n ∉ children a p) as Hni by (intros H; apply (wf_pc a W) in H; congruence).
    rewrite Ec in Hni. rewrite elem_of_app in Hni.
    assert (n ∉ l1 /\ n ∉ l2) as [Hn1 Hn2] by tauto.
    assert (is_some_eqb (last l1) n = false) as E1.
    { apply is_some_eqb_false. intros H. apply Hn1. by apply last_Some_elem_of. }
    assert (forall x, head l2 = Some x -> x ∈ l2) as Hh.
    { intros x. destruct l2; [done|]. intros [= ->]. left. }
    assert (is_some_eqb (head l2) n = false) as E2.
    { apply is_some_eqb_false. intros H. by apply Hn2, Hh. }
    assert (is_some_eqb (Some p) n = false) as E3 by (apply is_some_eqb_false; congruence).
    rewrite E1, E2, E3. cbn [orb]. eexists. split; [reflexivity|].
    destruct (detach_from_siblings_orphan L a n R Hn Ho) as [Hl Hd Hpa Hv Hnx Hf Ht].
    set (L0 := detach_from_siblings L n) in *. clearbody L0.
    set (L1 := put_parent L0 n (Some p)).
    assert (length L1 = length a) as Hl1 by (subst L1; by rewrite length_put_parent).
    assert (in_range L1 (last l1)) as R1 by (intros x Hx; rewrite Hl1; by eapply last_lt).
    assert (in_range L1 (head l2)) as R2 by (intros x Hx; rewrite Hl1; by eapply head_lt).
    assert (in_range L1 (Some p)) as R3 by (intros x [= <-]; lia).
    assert (in_range L1 (Some n)) as R4 by (intros x [= <-]; lia).
    destruct (connect_spec L1 (Some p) (last l1) (Some n) R3 R1 R4) as (Cd & Cp & Cn & Cv & Cf & Ct).
    pose proof (length_connect L1 (Some p) (last l1) (Some n)) as Hl2.
    set (L2 := connect L1 (Some p) (last l1) (Some n)) in *. clearbody L2.
    destruct (connect_spec L2 (Some p) (Some n) (head l2)) as (Cd' & Cp' & Cn' & Cv' & Cf' & Ct');
      [intros x Hx; rewrite Hl2; eauto..|].
    pose proof (length_connect L2 (Some p) (Some n) (head l2)) as Hl3.
    set (L3 := connect L2 (Some p) (Some n) (head l2)) in *. clearbody L3.
    pose proof (wf_nd a W p) as Hnd. rewrite Ec in Hnd.
    assert (NoDup (l1 ++ n :: l2)) as Hnd'.
    { apply NoDup_app in Hnd as (H1 & H2 & H3). apply NoDup_app. split; [done|]. split.
      - intros x Hx Hx'. apply elem_of_cons in Hx' as [->|Hx']; [done|]. by apply (H2 x).
      - by apply NoDup_cons. }
    assert (forall j q, parent a j = Some q -> q <> p -> j ∉ l1 /\ j ∉ l2) as Hoth.
    { intros j q Hq Hqp. split; intros H; apply Hqp; assert (j ∈ children a p) as Hj
        by (rewrite Ec; apply elem_of_app; auto); apply (wf_pc a W) in Hj; congruence. }
    assert (forall j, parent a j = None -> j ∉ l1 /\ j ∉ l2) as Horp.
    { intros j Hq. split; intros H; assert (j ∈ children a p) as Hj
        by (rewrite Ec; apply elem_of_app; auto); apply (wf_pc a W) in Hj; congruence. }
    assert (forall j, j ∉ l1 -> is_some_eqb (last l1) j = false) as Hlast.
    { intros j Hj. apply is_some_eqb_false. intros H. apply Hj. by apply last_Some_elem_of. }
    assert (forall j, j ∉ l2 -> is_some_eqb (head l2) j = false) as Hhead.
    { intros j Hj. apply is_some_eqb_false. intros H. by apply Hj, Hh. }
    assert (forall j, l_next L1 j = next_sibling a j) as N1 by (intros j; subst L1; by rewrite next_put_parent).
    assert (forall j, l_prev L1 j = previous_sibling a j) as V1 by (intros j; subst L1; by rewrite prev_put_parent).
    assert (forall j, l_first L1 j = head (children a j)) as F1 by (intros j; subst L1; by rewrite first_put_parent).
    assert (forall j, l_last L1 j = last (children a j)) as T1 by (intros j; subst L1; by rewrite last_put_parent).
    split.
    - rewrite length_attach. lia.
    - intros j. rewrite data_attach, Cd', Cd. subst L1. by rewrite data_put_parent.
    - intros j. rewrite parent_attach by done. rewrite Cp', Cp. subst L1.
      rewrite parent_put_parent by lia. by rewrite Hpa.
    - intros j. rewrite Cv', Cv, V1. unfold previous_sibling. rewrite parent_attach by done.
      cbn [is_some_eqb]. destruct (Nat.eqb_spec j n) as [->|Hjn].
      + rewrite children_attach, Nat.eqb_refl by done. rewrite Hhead by done.
        rewrite Nat.eqb_refl. rewrite prev_in_app by done. rewrite decide_True by left. cbn. by rewrite Nat.eqb_refl.
      + destruct (Nat.eqb_spec n j) as [->|_]; [done|].
        destruct (parent a j) as [q|] eqn:Eq.
        * rewrite children_attach by done. destruct (Nat.eqb_spec q p) as [->|Hqp].
          -- rewrite Ec. rewrite !prev_in_app by done. rewrite (prev_in_cons j n). cbn [head is_some_eqb].
             destruct (Nat.eqb_spec n j) as [->|_]; [done|].
             destruct (decide (j ∈ l2)) as [Hj|Hj].
             ++ rewrite decide_True by (by right). by destruct (is_some_eqb (head l2) j).
             ++ rewrite decide_False by (rewrite elem_of_cons; naive_solver). by rewrite Hhead.
          -- rewrite Hhead; [done|]. by eapply Hoth.
        * rewrite Hhead; [done|]. by apply Horp.
    - intros j. rewrite Cn', Cn, N1. unfold next_sibling. rewrite parent_attach by done.
      cbn [is_some_eqb]. destruct (Nat.eqb_spec n j) as [<-|Hnj].
      + rewrite Nat.eqb_refl. rewrite children_attach, Nat.eqb_refl by done.
        rewrite next_in_app by done. rewrite decide_False by done. cbn. by rewrite Nat.eqb_refl.
      + destruct (Nat.eqb_spec j n) as [->|_]; [done|].
        destruct (parent a j) as [q|] eqn:Eq.
        * rewrite children_attach by done. destruct (Nat.eqb_spec q p) as [->|Hqp].
          -- rewrite Ec. rewrite !next_in_app by done.
             destruct (decide (j ∈ l1)) as [Hj|Hj]; [by destruct (is_some_eqb (last l1) j)|].
             rewrite Hlast by done. cbn [next_in]. by destruct (Nat.eqb_spec n j).
          -- rewrite Hlast; [done|]. by eapply Hoth.
        * rewrite Hlast; [done|]. by apply Horp.
    - intros j. rewrite Cf', Cf, F1. rewrite children_attach by done. cbn [is_some_eqb].
      rewrite Nat.eqb_sym. destruct (Nat.eqb_spec j p) as [->|]; [|done].
      rewrite Ec. destruct l1 as [|x l1]; [done|].
      destruct (last (x :: l1)) eqn:E; [done|]. by apply last_cons_ne in E.
    - intros j. rewrite Ct', Ct, T1. rewrite children_attach by done. cbn [is_some_eqb].
      rewrite Nat.eqb_sym. destruct (Nat.eqb_spec j p) as [->|]; [|done].
      rewrite Ec. destruct l2 as [|y l2].
      + cbn [head]. by rewrite last_snoc.
      + cbn [head]. rewrite !last_app. change (last (n :: y :: l2)) with (last (y :: l2)).
        destruct (last (y :: l2)) eqn:E; [done|]. by apply last_cons_ne in E.
  Qed.

  (** ** The operations *)
  Lemma ancestors_repr L a f i : repr L a -> l_ancestors f L i = ancestors f a i.
  Proof.
    intros R. revert i. induction f as [|f IH]; intros i; [done|]. cbn. rewrite (re_parent _ _ R).
    destruct (parent a i) as [p|]; [|done]. by rewrite IH.
  Qed.

  Lemma insert_before_mid s n l1 l2 : s ∉ l1 -> insert_before_list s n (l1 ++ s :: l2) = l1 ++ n :: s :: l2.
  Proof.
    induction l1 as [|x l1 IH]; cbn; intros H; [by rewrite Nat.eqb_refl|].
    rewrite elem_of_cons in H. destruct (Nat.eqb_spec x s) as [->|]; [naive_solver|]. f_equal. apply IH. naive_solver.
  Qed.
  Lemma insert_after_mid s n l1 l2 : s ∉ l1 -> insert_after_list s n (l1 ++ s :: l2) = l1 ++ s :: n :: l2.
  Proof.
    induction l1 as [|x l1 IH]; cbn; intros H; [by rewrite Nat.eqb_refl|].
    rewrite elem_of_cons in H. destruct (Nat.eqb_spec x s) as [->|]; [naive_solver|]. f_equal. apply IH. naive_solver.
  Qed.

  (** Outcomes agree, values are related. *)
  Definition same_outcome (o : outcome (list (lnode D))) (m : outcome (arena D)) : Prop :=
    match m with
    | Val a' => exists L', o = Val L' /\ repr L' a'
    | Panic => o = Panic
    | _ => False
    end.

  Lemma repr_append L a p c : wf a -> repr L a -> p < length a -> c < length a ->
    same_outcome (l_append L p c) (append a p c).
  Proof.
    intros W R Hp Hc. unfold l_append, append. destruct (Nat.eqb_spec p c) as [->|Hne]; [done|].
    rewrite (ancestors_repr L a) by done. rewrite (re_len _ _ R).
    destruct (wf_chain a W p) as (l & Hl). rewrite (is_ancestor_spec a c p l W Hl).
    rewrite (ancestors_chain a p l); [|done|]. 2:{ pose proof (chain_length a p l W Hl). lia. }
    destruct (existsb (Nat.eqb c) l); [done|]. cbn [same_outcome].
    pose proof (repr_detach L a c W Hc R) as R1. rewrite (re_last _ _ R1).
    destruct (repr_insert (l_detach L c) (detach a c) c p (children (detach a c) p) []) as (L' & E & R').
    - by apply wf_detach.
    - done.
    - by rewrite length_detach.
    - by rewrite length_detach.
    - by rewrite parent_detach, Nat.eqb_refl.
    - done.
    - by rewrite app_nil_r.
    - exists L'. split; [exact E|]. exact R'.
  Qed.

  Lemma sibling_split a s n p : wf a -> parent a s = Some p -> s <> n ->
    exists l1 l2, children (detach a n) p = l1 ++ s :: l2 /\ s ∉ l1 /\ s ∉ l2 /\
      previous_sibling (detach a n) s = last l1 /\ next_sibling (detach a n) s = head l2.
  Proof.
    intros W Hs Hne.
    assert (parent (detach a n) s = Some p) as Hs1.
    { rewrite parent_detach. by destruct (Nat.eqb_spec s n). }
    pose proof (wf_detach a n W) as W1.
    assert (s ∈ children (detach a n) p) as Hin by (by apply W1).
    apply elem_of_list_split in Hin as (l1 & l2 & Ec).
    pose proof (wf_nd _ W1 p) as Hnd. rewrite Ec in Hnd.
    assert (s ∉ l1 /\ s ∉ l2) as [H1 H2].
    { apply NoDup_app in Hnd as (_ & H2 & H3). apply NoDup_cons in H3 as [H3 _]. split; [|done].
      intros H'. apply (H2 s H'). left. }
    exists l1, l2. split_and!; try done.
    - unfold previous_sibling. rewrite Hs1, Ec, prev_in_app by done. rewrite decide_True by left. cbn.
      by rewrite Nat.eqb_refl.
    - unfold next_sibling. rewrite Hs1, Ec, next_in_app by done. rewrite decide_False by done. cbn.
      by rewrite Nat.eqb_refl.
  Qed.

  Lemma repr_insert_before L a s n p : wf a -> repr L a -> n < length a -> parent a s = Some p ->
    same_outcome (l_insert_before L s n) (insert_before a s n).
  Proof.
    intros W R Hn Hs. unfold l_insert_before, insert_before. destruct (Nat.eqb_spec s n) as [->|Hne]; [done|].
    pose proof (repr_detach L a n W Hn R) as R1.
    destruct (sibling_split a s n p W Hs Hne) as (l1 & l2 & Ec & H1 & H2 & Ev & En).
    assert (parent (detach a n) s = Some p) as Hs1.
    { rewrite parent_detach. by destruct (Nat.eqb_spec s n). }
    rewrite (re_parent _ _ R1), (re_prev _ _ R1), Hs1, Ev.
    destruct (Nat.eqb_spec p n) as [->|Hpn]; cbn [same_outcome].
    { unfold insert_with_neighbors. destruct (_ || _); [done|]. cbn. by rewrite Nat.eqb_refl. }
    destruct (repr_insert (l_detach L n) (detach a n) n p l1 (s :: l2)) as (L' & E & R').
    - by apply wf_detach.
    - done.
    - by rewrite length_detach.
    - rewrite length_detach. by eapply wf_parent_lt.
    - by rewrite parent_detach, Nat.eqb_refl.
    - done.
    - done.
    - exists L'. split; [exact E|]. rewrite Ec, insert_before_mid by done. exact R'.
  Qed.

  Lemma repr_insert_after L a s n p : wf a -> repr L a -> n < length a -> parent a s = Some p ->
    same_outcome (l_insert_after L s n) (insert_after a s n).
  Proof.
    intros W R Hn Hs. unfold l_insert_after, insert_after. destruct (Nat.eqb_spec s n) as [->|Hne]; [done|].
    pose proof (repr_detach L a n W Hn R) as R1.
    destruct (sibling_split a s n p W Hs Hne) as (l1 & l2 & Ec & H1 & H2 & Ev & En).
    assert (parent (detach a n) s = Some p) as Hs1.
    { rewrite parent_detach. by destruct (Nat.eqb_spec s n). }
    rewrite (re_parent _ _ R1), (re_next _ _ R1), Hs1, En.
    destruct (Nat.eqb_spec p n) as [->|Hpn]; cbn [same_outcome].
    { unfold insert_with_neighbors. destruct (_ || _); [done|]. cbn. by rewrite Nat.eqb_refl. }
    destruct (repr_insert (l_detach L n) (detach a n) n p (l1 ++ [s]) l2) as (L' & E & R').
    - by apply wf_detach.
    - done.
    - by rewrite length_detach.
    - rewrite length_detach. by eapply wf_parent_lt.
    - by rewrite parent_detach, Nat.eqb_refl.
    - done.
    - by rewrite <- app_assoc.
    - rewrite last_snoc in E. exists L'. split; [exact E|]. rewrite Ec, insert_after_mid by done.
      rewrite <- app_assoc in R'. exact R'.
  Qed.

  (** ** Iterating over children *)
  Lemma walk_forward (step : nat -> option nat) l f t :
    (forall k x, l !! k = Some x -> step x = l !! S k) -> NoDup l -> last l = t -> length l < f ->
    walk step f (head l) t = Some l.
  Proof.
    revert f. induction l as [|x l IH]; intros f Hs Hn Ht Hf.
    - cbn in Ht. subst t. destruct f; [lia|]. done.
    - destruct f as [|f]; [cbn in Hf; lia|]. cbn [head walk].
      destruct t as [t|]; [|by apply last_cons_ne in Ht].
      apply NoDup_cons in Hn as [Hx Hn].
      destruct (Nat.eqb_spec x t) as [->|Hne].
      + destruct l as [|y l]; [done|]. change (last (y :: l) = Some t) in Ht.
        apply last_Some_elem_of in Ht. done.
      + destruct l as [|y l]; [cbn in Ht; congruence|]. change (last (y :: l) = Some t) in Ht.
        rewrite (Hs 0 x eq_refl). change ((x :: y :: l) !! 1) with (head (y :: l)). rewrite (IH f); [done| |done|done|cbn in *; lia].
        intros k z Hk. exact (Hs (S k) z Hk).
  Qed.

  Lemma next_in_lookup l k x : NoDup l -> l !! k = Some x -> next_in x l = l !! S k.
  Proof.
    revert k. induction l as [|y l IH]; intros k Hn Hk; [done|]. apply NoDup_cons in Hn as [Hy Hn].
    cbn [next_in]. destruct k as [|k].
    - injection Hk as ->. rewrite Nat.eqb_refl. by destruct l.
    - cbn in Hk. destruct (Nat.eqb_spec y x) as [->|].
      + exfalso. apply Hy. by eapply elem_of_list_lookup_2.
      + by apply (IH k).
  Qed.
  Lemma prev_in_lookup l k x : NoDup l -> l !! S k = Some x -> prev_in x l = l !! k.
  Proof.
    revert k. induction l as [|y l IH]; intros k Hn Hk; [done|]. apply NoDup_cons in Hn as [Hy Hn].
    rewrite prev_in_cons. cbn in Hk. destruct k as [|k].
    - destruct l as [|z l]; [done|]. injection Hk as ->. cbn. by rewrite Nat.eqb_refl.
    - change ((y :: l) !! S k) with (l !! k). rewrite <- (IH k) by done.
      destruct (is_some_eqb (head l) x) eqn:E; [|done]. apply is_some_eqb_true in E.
      assert (l !! 0 = Some x) as E0 by (by destruct l).
      pose proof (NoDup_lookup _ _ _ _ Hn E0 Hk). done.
  Qed.
  Lemma prev_in_first l x : NoDup l -> l !! 0 = Some x -> prev_in x l = None.
  Proof.
    intros Hn. destruct l as [|y l]; [done|]. cbn. intros [= ->]. apply NoDup_cons in Hn as [Hx _].
    by apply prev_in_head.
  Qed.

  Lemma children_length a i : wf a -> length (children a i) <= length a.
  Proof. intros W. apply nodup_lt_length; [apply W|]. intros x Hx. by eapply wf_child_lt. Qed.

  Lemma repr_children L a i : wf a -> repr L a -> l_children L i = Some (children a i).
  Proof.
    intros W R. unfold l_children. rewrite (re_first _ _ R), (re_last _ _ R).
    apply walk_forward; [|apply W|done|].
    - intros k x Hk. rewrite (re_next _ _ R). unfold next_sibling.
      assert (parent a x = Some i) as -> by (apply W; by eapply elem_of_list_lookup_2).
      apply next_in_lookup; [apply W|done].
    - rewrite (re_len _ _ R). pose proof (children_length a i W). lia.
  Qed.

  Lemma head_reverse {A} (l : list A) : head (reverse l) = last l.
  Proof. destruct (reverse l) eqn:E.
    - apply (f_equal reverse) in E. rewrite reverse_involutive in E. by subst l.
    - apply (f_equal reverse) in E. rewrite reverse_involutive in E. subst l. rewrite reverse_cons. by rewrite last_snoc.
  Qed.
  Lemma last_reverse {A} (l : list A) : last (reverse l) = head l.
  Proof. rewrite <- head_reverse. by rewrite reverse_involutive. Qed.

  Lemma repr_children_rev L a i : wf a -> repr L a -> l_children_rev L i = Some (reverse (children a i)).
  Proof.
    intros W R. unfold l_children_rev. rewrite (re_first _ _ R), (re_last _ _ R).
    rewrite <- head_reverse. apply walk_forward.
    - intros k x Hk. pose proof (lookup_lt_Some _ _ _ Hk) as Hlt. rewrite reverse_length in Hlt.
      rewrite reverse_lookup in Hk by done. rewrite (re_prev _ _ R). unfold previous_sibling.
      assert (parent a x = Some i) as -> by (apply W; by eapply elem_of_list_lookup_2).
      set (c := children a i) in *. pose proof (wf_nd a W i) as Hn. fold c in Hn.
      destruct (decide (S k < length c)) as [Hs|Hs].
      + rewrite reverse_lookup by done. apply prev_in_lookup; [done|]. replace (S (length c - S (S k))) with (length c - S k) by lia. done.
      + rewrite lookup_ge_None_2 by (rewrite reverse_length; lia). replace (length c - S k) with 0 in Hk by lia.
        by apply prev_in_first.
    - rewrite reverse_Permutation. apply W.
    - by rewrite last_reverse.
    - rewrite reverse_length, (re_len _ _ R). pose proof (children_length a i W). lia.
  Qed.

  (** ** Programs *)
  Lemma insert_after_spec a sib new p :
    wf a -> sib <> new -> new <> p -> parent a sib = Some p ->
    insert_after a sib new
    = Val (attach (detach a new) p new (insert_after_list sib new (remove_id new (children a p)))).
  Proof.
    intros W Hne Hnp Hp. unfold insert_after.
    destruct (Nat.eqb_spec sib new); [congruence|].
    rewrite parent_detach. destruct (Nat.eqb_spec sib new); [congruence|].
    rewrite Hp. destruct (Nat.eqb_spec p new); [congruence|].
    unfold attach. by rewrite children_detach.
  Qed.

  Lemma insert_after_wf a sib new p a' :
    wf a -> new < length a -> ~ above a new p ->
    sib <> new -> parent a sib = Some p -> insert_after a sib new = Val a' -> wf a'.
  Proof.
    intros W Hn Hna Hs Hp E. destruct (wf_chain a W p) as [l Hch].
    destruct (not_above_chain _ _ _ _ Hna Hch) as [Hne Hnl].
    rewrite (insert_after_spec _ _ _ _ W Hs Hne Hp) in E. injection E as <-.
    destruct (sibling_split a sib new p W Hp Hs) as (l1 & l2 & Ec & H1 & H2 & _ & _).
    rewrite children_detach in Ec by done. rewrite Ec, insert_after_mid by done.
    assert (NoDup (l1 ++ sib :: l2)) as Hnd by (rewrite <- Ec; apply remove_id_nodup, W).
    assert (new ∉ l1 ++ sib :: l2) as Hni by (rewrite <- Ec, elem_remove_id; tauto).
    eapply wf_attach.
    - by apply wf_detach.
    - by rewrite parent_detach, Nat.eqb_refl.
    - by rewrite length_detach.
    - rewrite length_detach. by eapply wf_parent_lt.
    - apply chain_detach_other; eauto.
    - done.
    - done.
    - intros x. rewrite children_detach, Ec by done. rewrite !elem_of_app, !elem_of_cons. tauto.
    - apply NoDup_app in Hnd as (A & B & C). apply NoDup_cons in C as [C1 C2].
      rewrite elem_of_app, elem_of_cons in Hni.
      apply NoDup_app. split; [done|]. split.
      + intros x Hx Hx'. apply elem_of_cons in Hx' as [->|Hx']; [done|].
        apply elem_of_cons in Hx' as [->|Hx']; [tauto|]. apply (B x Hx). by right.
      + apply NoDup_cons. split; [|apply NoDup_cons; tauto].
        rewrite elem_of_cons. naive_solver.
  Qed.

  (** A call with nodes that exist; a sibling has a parent; no node is inserted
      below one of its own descendants (other than directly beside its child,
      which panics). *)
  Definition call_ok a (c : tree_call D) : Prop :=
    match c with
    | TNew _ => True
    | TSet i _ | TDetach i => i < length a
    | TAppend p c => p < length a /\ c < length a
    | TBefore s n | TAfter s n => n < length a /\ exists q, parent a s = Some q /\ (n = q \/ ~ above a n q)
    end.

  Lemma step_repr L a c : wf a -> repr L a -> call_ok a c -> same_outcome (links_step L c) (arena_step a c).
  Proof.
    intros W R Hc. destruct c as [d|i d|i|p c|s n|s n]; cbn [links_step arena_step same_outcome call_ok] in *.
    - eexists. split; [done|]. by apply repr_new.
    - eexists. split; [done|]. by apply repr_set_data.
    - eexists. split; [done|]. by apply repr_detach.
    - destruct Hc. by apply repr_append.
    - destruct Hc as (? & q & ? & _). by eapply repr_insert_before.
    - destruct Hc as (? & q & ? & _). by eapply repr_insert_after.
  Qed.

  Lemma step_wf a c a' : wf a -> call_ok a c -> arena_step a c = Val a' -> wf a'.
  Proof.
    intros W Hc E. destruct c as [d|i d|i|p c|s n|s n]; cbn [arena_step call_ok] in *.
    - injection E as <-. by apply wf_new.
    - injection E as <-. by apply wf_set_data.
    - injection E as <-. by apply wf_detach.
    - destruct Hc as [Hp Hc]. destruct (wf_chain a W p) as [l Hl]. pose proof E as E'.
      unfold append in E. destruct (Nat.eqb_spec p c); [done|]. rewrite (is_ancestor_spec a c p l W Hl) in E.
      destruct (existsb (Nat.eqb c) l) eqn:Ex; [done|]. apply (append_wf a p c l a'); [done..|congruence| |done].
      intros H. apply not_true_iff_false in Ex. apply Ex, existsb_exists. exists c. split; [by apply elem_of_list_In|].
      apply Nat.eqb_refl.
    - destruct Hc as (Hn & q & Hq & Hna). pose proof E as E'. unfold insert_before in E. destruct (Nat.eqb_spec s n); [done|].
      destruct Hna as [->|Hna].
      { rewrite parent_detach in E. destruct (Nat.eqb_spec s q); [done|]. rewrite Hq, Nat.eqb_refl in E. done. }
      destruct (wf_chain a W q) as [l Hl]. destruct (not_above_chain _ _ _ _ Hna Hl).
      by eapply (insert_before_wf a s n q l).
    - destruct Hc as (Hn & q & Hq & Hna). pose proof E as E'. unfold insert_after in E. destruct (Nat.eqb_spec s n); [done|].
      destruct Hna as [->|Hna].
      { rewrite parent_detach in E. destruct (Nat.eqb_spec s q); [done|]. rewrite Hq, Nat.eqb_refl in E. done. }
      by eapply (insert_after_wf a s n q).
  Qed.

  Fixpoint safe_run a (cs : list (tree_call D)) : Prop :=
    match cs with
    | [] => True
    | c :: cs => call_ok a c /\ match arena_step a c with Val a' => safe_run a' cs | _ => True end
    end.

  Lemma run_repr cs L a : wf a -> repr L a -> safe_run a cs ->
    same_outcome (links_run L cs) (arena_run a cs) /\ (forall a', arena_run a cs = Val a' -> wf a').
  Proof.
    revert L a. induction cs as [|c cs IH]; intros L a W R Hs; cbn [links_run arena_run].
    - split; [by exists L|]. by intros a' [= <-].
    - destruct Hs as [Hc Hs]. pose proof (step_repr L a c W R Hc) as St. pose proof (step_wf a c) as Sw.
      destruct (arena_step a c) as [a1|e| |]; cbn [same_outcome obind] in *.
      + destruct St as (L1 & -> & R1). cbn [obind]. apply IH; [|done..]. by apply Sw.
      + done.
      + rewrite St. done.
      + done.
  Qed.
End Repr.
