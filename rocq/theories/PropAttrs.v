(** Property theorems on attributes and escaping: C11, C12, C13, C14, C26, and
    the attribute part of C29. *)
From Verif Require Import Base Matching Dom HtmlDiff AttrProofs EscProofs.
Local Open Scope string_scope.

Definition ex_q (s : string) : qname := mkQ None "" s.

(** C11 *)
Theorem attr_update_reproduces_new : forall old new : attrs,
  rebuild_attrs old (props_diff old new) = new.
Proof. exact rebuild_props_diff. Qed.
Print Assumptions attr_update_reproduces_new.

Example attr_update_example :
  let old := [(ex_q "id", "a"); (ex_q "class", "x"); (ex_q "gone", "1")] in
  let new := [(ex_q "class", "x"); (ex_q "id", "b"); (ex_q "added", "")] in
  props_diff old new <> [] /\ rebuild_attrs old (props_diff old new) = new.
Proof. vm_compute. split; [discriminate|reflexivity]. Qed.

(** C12 *)
Theorem no_attr_update_means_equal : forall old new : attrs,
  NoDup (map fst old) -> NoDup (map fst new) ->
  (any_different (props_diff old new) || Nat.ltb (length (props_diff old new)) (length old))
    = false ->
  old = new.
Proof.
  intros old new H1 H2 H. apply orb_false_iff in H as [Ha Hl].
  apply Nat.ltb_ge in Hl. by apply no_update_equal.
Qed.
Print Assumptions no_attr_update_means_equal.

(** The hypotheses are met by equal lists, and only by them. *)
Example no_attr_update_example :
  let l := [(ex_q "id", "a"); (ex_q "class", "x")] in
  (any_different (props_diff l l) || Nat.ltb (length (props_diff l l)) (length l)) = false
  /\ NoDup (map fst l).
Proof.
  split; [reflexivity|]. simpl.
  repeat constructor; rewrite ?elem_of_cons, ?elem_of_nil; intros H; naive_solver.
Qed.

Theorem equal_attrs_need_no_update : forall l : attrs,
  NoDup (map fst l) -> any_different (props_diff l l) = false.
Proof. exact props_diff_refl_none. Qed.
Print Assumptions equal_attrs_need_no_update.

(** Without the side condition the equivalence fails: a list with a repeated
    name always asks for an update. *)
Theorem duplicate_attrs_refuted : exists l : attrs,
  any_different (props_diff l l) = true.
Proof. exists [(ex_q "a", "1"); (ex_q "a", "2")]. reflexivity. Qed.
Print Assumptions duplicate_attrs_refuted.

(** C13 *)
Theorem text_escaping_safe : forall s : string,
  ~ occurs "<"%char (escape_text s)
  /\ (forall u v, escape_text s = (u ++ String "&" v)%string ->
        starts_with "amp;" v = true \/ starts_with "lt;" v = true)
  /\ decode_entities (escape_text s) = s.
Proof.
  intros s. split; [exact (escape_text_no_lt s)|].
  split; [exact (amp_text s)|exact (decode_escape_text s)].
Qed.
Print Assumptions text_escaping_safe.

Example text_escaping_example :
  escape_text "a<b & &lt; c>" = "a&lt;b &amp; &amp;lt; c>".
Proof. reflexivity. Qed.

(** C14 *)
Theorem attr_escaping_safe : forall s : string,
  ~ occurs "<"%char (escape_attr s) /\ ~ occurs ">"%char (escape_attr s)
  /\ ~ occurs quote_char (escape_attr s)
  /\ (forall u v, escape_attr s = (u ++ String "&" v)%string ->
        starts_with "amp;" v = true \/ starts_with "lt;" v = true
        \/ starts_with "gt;" v = true \/ starts_with "quot;" v = true)
  /\ decode_entities (escape_attr s) = s.
Proof.
  intros s.
  split; [apply escape_attr_no_special; tauto|].
  split; [apply escape_attr_no_special; tauto|].
  split; [apply escape_attr_no_special; tauto|].
  split; [exact (amp_attr s)|exact (decode_escape_attr s)].
Qed.
Print Assumptions attr_escaping_safe.

Example attr_escaping_example :
  escape_attr ("x" ++ quote ++ "><&")%string = "x&quot;&gt;&lt;&amp;".
Proof. reflexivity. Qed.

(** C26 *)
Theorem set_attr_reads_back : forall q v l, attr_get q (attr_set q v l) = Some v.
Proof. exact attr_get_set_same. Qed.
Print Assumptions set_attr_reads_back.

Theorem set_attr_frames : forall q q' v l,
  q <> q' -> attr_get q' (attr_set q v l) = attr_get q' l.
Proof. exact attr_get_set_other. Qed.
Print Assumptions set_attr_frames.

Theorem set_attr_keeps_order : forall q v l,
  (q ∈ map fst l -> map fst (attr_set q v l) = map fst l)
  /\ (q ∉ map fst l -> attr_set q v l = (l ++ [(q, v)])%list).
Proof. intros q v l. split; [exact (keys_attr_set_in q v l)|exact (attr_set_notin q v l)]. Qed.
Print Assumptions set_attr_keeps_order.

Theorem set_attr_no_duplicates : forall q v l,
  NoDup (map fst l) -> NoDup (map fst (attr_set q v l)).
Proof. exact attr_set_nodup. Qed.
Print Assumptions set_attr_no_duplicates.

Theorem remove_attr_removes : forall q l, attr_get q (attr_remove q l) = None.
Proof. exact attr_remove_get. Qed.
Print Assumptions remove_attr_removes.

Theorem remove_attr_frames : forall q q' l,
  q <> q' -> attr_get q' (attr_remove q l) = attr_get q' l.
Proof. exact attr_remove_other. Qed.
Print Assumptions remove_attr_frames.

Theorem remove_after_set_restores : forall q v l,
  q ∉ map fst l -> attr_remove q (attr_set q v l) = l.
Proof. exact attr_remove_set. Qed.
Print Assumptions remove_after_set_restores.

Example attr_set_example :
  attr_set (ex_q "b") "9" [(ex_q "a", "1"); (ex_q "b", "2"); (ex_q "c", "3")]
  = [(ex_q "a", "1"); (ex_q "b", "9"); (ex_q "c", "3")]
  /\ attr_set (ex_q "d") "9" [(ex_q "a", "1")] = [(ex_q "a", "1"); (ex_q "d", "9")]
  /\ ex_q "d" ∉ map fst [(ex_q "a", "1")].
Proof.
  split_and!; [reflexivity|reflexivity|].
  simpl. rewrite elem_of_list_singleton. discriminate.
Qed.

(** C29, attribute similarity *)
Theorem attr_similarity_in_unit_interval : forall x y : attrs,
  fst (props_sim x y) <= snd (props_sim x y) /\ 0 < snd (props_sim x y).
Proof. exact props_sim_bounds. Qed.
Print Assumptions attr_similarity_in_unit_interval.

Theorem attr_similarity_reflexive : forall x : attrs,
  fst (props_sim x x) = snd (props_sim x x).
Proof. exact props_sim_refl. Qed.
Print Assumptions attr_similarity_reflexive.

(** The similarity is 1 exactly when both lists have the same names, and 0
    exactly when they have no name in common (and are not both empty); values,
    order and repetitions do not matter. *)
Theorem attr_similarity_extremes : forall x y : attrs,
  (fst (props_sim x y) = snd (props_sim x y) <-> forall q, q ∈ map fst x <-> q ∈ map fst y) /\
  (fst (props_sim x y) = 0 <->
     (x <> [] \/ y <> []) /\ forall q, q ∈ map fst x -> q ∉ map fst y).
Proof.
  intros x y. change (map fst x) with (keys x). change (map fst y) with (keys y).
  assert ((x = [] /\ y = []) \/ (x <> [] \/ y <> [])) as [[-> ->]|HN].
  { destruct x, y; [by left| | |]; right; [by right|by left|by left]. }
  { cbn. split; [done|]. split; [done|]. intros [[]?]; done. }
  set (kx := qdedup (keys x)). set (ky := qdedup (keys y)).
  set (f := fun q => existsb (qname_eqb q) ky).
  assert (props_sim x y = (2 * length (List.filter f kx), length kx + length ky)) as ->.
  { unfold props_sim. destruct x, y; try done. by destruct HN. }
  cbn [fst snd].
  assert (forall q, q ∈ kx <-> q ∈ keys x) as KX by apply qdedup_subset.
  assert (forall q, q ∈ ky <-> q ∈ keys y) as KY by apply qdedup_subset.
  assert (NoDup kx) as NX by apply qdedup_nodup. assert (NoDup ky) as NY by apply qdedup_nodup.
  assert (forall q, f q = true <-> q ∈ keys y) as HF by (intros q; unfold f; by rewrite existsb_qname, KY).
  clearbody kx ky.
  split; split.
  - intros E.
    assert (length (List.filter f kx) <= length ky) as L2.
    { apply NoDup_incl_length; [apply NoDup_ListNoDup; by apply nodup_filter|].
      intros q Hq. apply filter_In in Hq as [_ Hq]. apply elem_of_list_In, KY. by apply HF. }
    pose proof (filter_length_le f kx) as L1.
    assert (forall q, q ∈ kx -> q ∈ keys y) as HI.
    { assert (length (List.filter f kx) = length kx) as E1 by lia. clear -E1 HF.
      intros q Hq. apply HF. revert q Hq. induction kx as [|q l IH]; [intros q Hq; by apply elem_of_nil in Hq|].
      cbn in E1. pose proof (filter_length_le f l). destruct (f q) eqn:Ef; cbn in E1; [|lia].
      intros z Hz. apply elem_of_cons in Hz as [->|Hz]; [done|]. apply IH; [lia|done]. }
    intros q. split.
    + intros Hq. apply HI. by apply KX.
    + intros Hq. apply KX. apply (nodup_incl_length_perm ky kx); try done; [|lia|by apply KY].
      intros z Hz. by apply KY, HI.
  - intros E. assert (List.filter f kx = kx) as ->.
    { apply filter_all. intros q Hq. by apply HF, E, KX. }
    assert (length kx <= length ky /\ length ky <= length kx) as [? ?]; [|lia].
    split; (apply NoDup_incl_length; [by apply NoDup_ListNoDup|]; intros q Hq; apply elem_of_list_In in Hq;
      apply elem_of_list_In).
    + by apply KY, E, KX.
    + by apply KX, E, KY.
  - intros E. split.
    + done.
    + intros q Hx Hy. assert (q ∈ List.filter f kx) as Hin.
      { apply elem_of_list_In, filter_In. split; [by apply elem_of_list_In, KX|by apply HF]. }
      destruct (List.filter f kx); [by apply elem_of_nil in Hin|]. cbn in E. lia.
  - intros [_ E]. destruct (List.filter f kx) as [|q l] eqn:El; [done|].
    assert (In q (List.filter f kx)) as Hin by (rewrite El; left; done).
    apply filter_In in Hin as [Hq Hf]. apply elem_of_list_In, KX in Hq. apply HF in Hf. by destruct (E q).
Qed.
Print Assumptions attr_similarity_extremes.

Example attr_similarity_example :
  props_sim [(ex_q "a", "1"); (ex_q "b", "2")] [(ex_q "b", "7"); (ex_q "c", "3")] = (2, 4).
Proof. reflexivity. Qed.
