(** Lemmas on attribute lists: properties C11, C12, C26, C29 (attributes). *)
From Verif Require Import Base Matching Dom HtmlDiff.

Lemma ostring_eqb_eq a b : ostring_eqb a b = true <-> a = b.
Proof.
  destruct a, b; simpl; split; try congruence; intros E.
  - apply String.eqb_eq in E. congruence.
  - inversion E. apply String.eqb_refl.
Qed.

Lemma qname_eqb_eq a b : qname_eqb a b = true <-> a = b.
Proof.
  destruct a as [p n l], b as [p' n' l']; unfold qname_eqb; simpl.
  rewrite !andb_true_iff, ostring_eqb_eq, !String.eqb_eq.
  split; [intros [[-> ->] ->]; done | intros [= -> -> ->]; done].
Qed.

Lemma qname_eqb_refl a : qname_eqb a a = true.
Proof. by apply qname_eqb_eq. Qed.

Lemma qname_eqb_neq a b : qname_eqb a b = false <-> a <> b.
Proof. rewrite <- qname_eqb_eq. destruct (qname_eqb a b); split; congruence. Qed.

Lemma qname_eqb_sym a b : qname_eqb a b = qname_eqb b a.
Proof.
  destruct (qname_eqb a b) eqn:E.
  - apply qname_eqb_eq in E as ->. by rewrite qname_eqb_refl.
  - symmetry. apply qname_eqb_neq. apply qname_eqb_neq in E. congruence.
Qed.

Lemma existsb_qname q l : existsb (qname_eqb q) l = true <-> q ∈ l.
Proof.
  rewrite existsb_exists. split.
  - intros (x & Hx & E). apply qname_eqb_eq in E as ->. by apply elem_of_list_In.
  - intros Hq. exists q. split; [by apply elem_of_list_In | apply qname_eqb_refl].
Qed.

Lemma attr_get_None q l : attr_get q l = None <-> q ∉ keys l.
Proof.
  induction l as [|[k v] l IH]; simpl.
  - split; [intros _ H; inversion H | done].
  - destruct (qname_eqb k q) eqn:E.
    + apply qname_eqb_eq in E as ->. split; [done|]. intros H. exfalso. apply H. left.
    + apply qname_eqb_neq in E. rewrite IH, not_elem_of_cons. naive_solver.
Qed.

Lemma attr_get_elem q v l : attr_get q l = Some v -> (q, v) ∈ l.
Proof.
  induction l as [|[k w] l IH]; simpl; [done|].
  destruct (qname_eqb k q) eqn:E.
  - apply qname_eqb_eq in E as ->. intros [= ->]. left.
  - intros H. right. auto.
Qed.

Lemma attr_get_nodup q v l : NoDup (keys l) -> (q, v) ∈ l -> attr_get q l = Some v.
Proof.
  induction l as [|[k w] l IH]; simpl; intros Hnd Hin; [inversion Hin|].
  inversion Hnd as [|? ? Hk Hnd']; subst.
  apply elem_of_cons in Hin as [[= -> ->]|Hin].
  - by rewrite qname_eqb_refl.
  - destruct (qname_eqb k q) eqn:E; [|auto].
    apply qname_eqb_eq in E as ->. exfalso. apply Hk.
    apply elem_of_list_fmap. by exists (q, v).
Qed.

(** ** C11 *)

Lemma rebuild_diff_loop x od forced y :
  rebuild_attrs x (props_diff_loop x od forced y) = y.
Proof.
  revert forced; induction y as [|[k v] y IH]; intros forced; [done|].
  unfold rebuild_attrs in *; simpl. rewrite IH. clear IH.
  destruct (attr_get k x) as [w|] eqn:E; simpl.
  - destruct (String.eqb w v) eqn:Ew; simpl.
    + apply String.eqb_eq in Ew as ->.
      destruct od, forced; simpl; rewrite ?E; done.
    + done.
  - done.
Qed.

Lemma rebuild_props_diff x y : rebuild_attrs x (props_diff x y) = y.
Proof. apply rebuild_diff_loop. Qed.

(** ** C12 *)

Lemma props_diff_loop_length x od forced y :
  length (props_diff_loop x od forced y) = length y.
Proof.
  revert forced; induction y as [|[k v] y IH]; intros forced; simpl; [done|].
  by rewrite IH.
Qed.

Lemma no_different_same x od forced y :
  any_different (props_diff_loop x od forced y) = false ->
  Forall (fun kv => attr_get (fst kv) x = Some (snd kv)) y
  /\ (y <> [] -> od && negb forced = false).
Proof.
  revert forced; induction y as [|[k v] y IH]; intros forced; simpl.
  - intros _. split; [constructor | done].
  - rewrite orb_false_iff. intros [H1 H2].
    destruct (attr_get k x) as [w|] eqn:E; [|done].
    destruct (String.eqb w v) eqn:Ew; [|done].
    apply String.eqb_eq in Ew as ->. simpl in *.
    rewrite andb_true_r in *.
    destruct (od && negb forced) eqn:F; [done|].
    apply IH in H2 as [H2 _]. split; [|done]. constructor; done.
Qed.

Lemma qlist_eqb_eq x y : qlist_eqb x y = true <-> x = y.
Proof.
  revert y; induction x as [|a x IH]; intros [|b y]; simpl; try (split; congruence).
  rewrite andb_true_iff, qname_eqb_eq, IH. split; [intros [-> ->]; done | intros [= -> ->]; done].
Qed.

Lemma filter_all {A} (f : A -> bool) l :
  (forall x, x ∈ l -> f x = true) -> List.filter f l = l.
Proof.
  induction l as [|a l IH]; simpl; intros H; [done|].
  rewrite (H a) by left. f_equal. apply IH. intros x Hx. apply H. by right.
Qed.

Lemma nodup_incl_length_perm {A} (l k : list A) :
  NoDup k -> (forall x, x ∈ k -> x ∈ l) -> NoDup l -> length l <= length k ->
  forall x, x ∈ l -> x ∈ k.
Proof.
  intros Hk Hin Hl Hlen x Hx.
  assert (incl l k).
  { apply NoDup_length_incl; [by apply NoDup_ListNoDup|done|].
    intros z Hz. apply elem_of_list_In, Hin, elem_of_list_In, Hz. }
  apply elem_of_list_In, H, elem_of_list_In, Hx.
Qed.

Lemma no_update_equal x y :
  NoDup (keys x) -> NoDup (keys y) ->
  any_different (props_diff x y) = false ->
  length x <= length (props_diff x y) ->
  x = y.
Proof.
  unfold props_diff. rewrite props_diff_loop_length. intros Hx Hy Hd Hl.
  destruct y as [|kv y'] eqn:Ey.
  { destruct x; [done|simpl in Hl; lia]. }
  rewrite <- Ey in *. clear Ey kv y'.
  assert (y <> [] -> order_differs x y = false) as Ho.
  { intros Hne. apply no_different_same in Hd as [_ H].
    specialize (H Hne). by rewrite andb_true_r in H. }
  apply no_different_same in Hd as [Hf _].
  rewrite Forall_forall in Hf.
  destruct (decide (length y = 0)) as [Hz|Hz].
  { destruct y; [|done]. destruct x; [done|simpl in Hl; lia]. }
  assert (y <> []) as Hne by (intros ->; done).
  specialize (Ho Hne). unfold order_differs in Ho.
  apply negb_false_iff, qlist_eqb_eq in Ho.
  assert (forall q, q ∈ keys y -> q ∈ keys x) as Hyx.
  { intros q Hq. apply elem_of_list_fmap in Hq as ([k v] & -> & Hq).
    specialize (Hf _ Hq). simpl in Hf. apply attr_get_elem in Hf.
    apply elem_of_list_fmap. by exists (k, v). }
  assert (forall q, q ∈ keys x -> q ∈ keys y) as Hxy.
  { apply nodup_incl_length_perm; auto. unfold keys, attrs, attr in *. rewrite !map_length. lia. }
  rewrite !filter_all in Ho by (intros q Hq; apply existsb_qname; auto).
  (* same keys in the same order, same values *)
  clear Hl Hz Hne Hxy Hyx.
  assert (forall l l' : attrs, keys l = keys l' ->
    (forall k v, (k, v) ∈ l -> attr_get k x = Some v) ->
    (forall k v, (k, v) ∈ l' -> attr_get k x = Some v) -> l = l') as Hgen.
  { induction l as [|[k v] l IH]; intros [|[k' v'] l'] Hk H1 H2; simpl in Hk; try done.
    injection Hk as -> Hk. f_equal.
    - assert (Some v = Some v') as [= ->]; [|done].
      rewrite <- (H1 k' v), <- (H2 k' v'); [done|left|left].
    - apply IH; [done| |]; intros; [apply H1|apply H2]; by right. }
  apply Hgen; [done| |].
  - intros k v Hin. by apply attr_get_nodup.
  - intros k v Hin. by specialize (Hf _ Hin).
Qed.

(** Converse: equal duplicate-free lists need no update. *)
Lemma attr_get_refl l k v : NoDup (keys l) -> (k, v) ∈ l -> attr_get k l = Some v.
Proof. apply attr_get_nodup. Qed.

Lemma order_differs_refl l : order_differs l l = false.
Proof. unfold order_differs. apply negb_false_iff, qlist_eqb_eq. done. Qed.

Lemma props_diff_refl_none l :
  NoDup (keys l) -> any_different (props_diff l l) = false.
Proof.
  intros Hnd. unfold props_diff. rewrite order_differs_refl.
  assert (forall y, (forall k v, (k, v) ∈ y -> attr_get k l = Some v) ->
          any_different (props_diff_loop l false false y) = false) as H.
  { induction y as [|[k v] y IH]; simpl; intros Hy; [done|].
    rewrite (Hy k v) by left. rewrite String.eqb_refl. simpl.
    apply IH. intros; apply Hy; by right. }
  apply H. intros. by apply attr_get_nodup.
Qed.

(** ** C26 *)

Lemma attr_get_set_same q v l : attr_get q (attr_set q v l) = Some v.
Proof.
  induction l as [|[k w] l IH]; simpl.
  - by rewrite qname_eqb_refl.
  - destruct (qname_eqb k q) eqn:E; simpl; rewrite E; done.
Qed.

Lemma attr_get_set_other q q' v l : q <> q' -> attr_get q' (attr_set q v l) = attr_get q' l.
Proof.
  intros Hne. induction l as [|[k w] l IH]; simpl.
  - destruct (qname_eqb q q') eqn:E; [|done]. apply qname_eqb_eq in E. congruence.
  - destruct (qname_eqb k q) eqn:E; simpl.
    + apply qname_eqb_eq in E as ->.
      destruct (qname_eqb q q') eqn:E'; [|done]. apply qname_eqb_eq in E'. congruence.
    + by destruct (qname_eqb k q').
Qed.

Lemma keys_attr_set_in q v l : q ∈ keys l -> keys (attr_set q v l) = keys l.
Proof.
  induction l as [|[k w] l IH]; simpl; intros H; [inversion H|].
  destruct (qname_eqb k q) eqn:E; [done|]. simpl.
  apply qname_eqb_neq in E. apply elem_of_cons in H as [->|H]; [done|].
  by rewrite IH.
Qed.

Lemma attr_set_notin q v l : q ∉ keys l -> attr_set q v l = l ++ [(q, v)].
Proof.
  induction l as [|[k w] l IH]; simpl; intros H; [done|].
  apply not_elem_of_cons in H as [H1 H2].
  destruct (qname_eqb k q) eqn:E; [apply qname_eqb_eq in E; congruence|].
  by rewrite IH.
Qed.

Lemma attr_set_nodup q v l : NoDup (keys l) -> NoDup (keys (attr_set q v l)).
Proof.
  intros H. destruct (attr_get q l) as [w|] eqn:E.
  - rewrite keys_attr_set_in; [done|]. apply attr_get_elem in E.
    apply elem_of_list_fmap. by exists (q, w).
  - apply attr_get_None in E. rewrite attr_set_notin by done.
    unfold keys in *. rewrite map_app. simpl. apply NoDup_app. split; [done|].
    split; [|apply NoDup_singleton].
    intros x Hx Hx'. apply elem_of_list_singleton in Hx' as ->. done.
Qed.

Lemma attr_remove_get q l : attr_get q (attr_remove q l) = None.
Proof.
  unfold attr_remove. induction l as [|[k w] l IH]; simpl; [done|].
  destruct (qname_eqb k q) eqn:E; simpl; [done|]. by rewrite E.
Qed.

Lemma attr_remove_other q q' l : q <> q' -> attr_get q' (attr_remove q l) = attr_get q' l.
Proof.
  intros Hne. unfold attr_remove. induction l as [|[k w] l IH]; simpl; [done|].
  destruct (qname_eqb k q) eqn:E; simpl.
  - apply qname_eqb_eq in E as ->.
    destruct (qname_eqb q q') eqn:E'; [apply qname_eqb_eq in E'; congruence|done].
  - by rewrite IH.
Qed.

Lemma attr_remove_set q v l : q ∉ keys l -> attr_remove q (attr_set q v l) = l.
Proof.
  intros H. rewrite attr_set_notin by done. unfold attr_remove.
  rewrite List.filter_app. simpl. rewrite qname_eqb_refl. simpl. rewrite app_nil_r.
  apply filter_all. intros [k w] Hin. simpl. apply negb_true_iff, qname_eqb_neq.
  intros ->. apply H, elem_of_list_fmap. by exists (q, w).
Qed.

(** ** C29, attribute part *)

Lemma qdedup_subset l q : q ∈ qdedup l <-> q ∈ l.
Proof.
  induction l as [|a l IH]; simpl; [done|].
  destruct (existsb (qname_eqb a) l) eqn:E.
  - apply existsb_qname in E. rewrite IH, elem_of_cons. naive_solver.
  - rewrite !elem_of_cons, IH. done.
Qed.

Lemma qdedup_nodup l : NoDup (qdedup l).
Proof.
  induction l as [|a l IH]; simpl; [constructor|].
  destruct (existsb (qname_eqb a) l) eqn:E; [done|].
  constructor; [|done]. rewrite qdedup_subset. intros H.
  apply existsb_qname in H. congruence.
Qed.

Lemma filter_length_le {A} (f : A -> bool) l : length (List.filter f l) <= length l.
Proof. induction l as [|a l IH]; simpl; [done|]. destruct (f a); simpl; lia. Qed.

Lemma nodup_filter {A} (f : A -> bool) l : NoDup l -> NoDup (List.filter f l).
Proof.
  induction 1 as [|x l Hx Hnd IH]; simpl; [constructor|].
  destruct (f x); [|done]. constructor; [|done].
  rewrite elem_of_list_In, filter_In, <- elem_of_list_In. tauto.
Qed.

Lemma inter_length kx ky :
  NoDup kx -> NoDup ky ->
  2 * length (List.filter (fun q => existsb (qname_eqb q) ky) kx) <= length kx + length ky.
Proof.
  intros Hx Hy.
  assert (length (List.filter (fun q => existsb (qname_eqb q) ky) kx) <= length ky).
  { apply NoDup_incl_length.
    - apply NoDup_ListNoDup. by apply nodup_filter.
    - intros q Hq. apply filter_In in Hq as [_ Hq].
      apply existsb_qname in Hq. by apply elem_of_list_In. }
  pose proof (filter_length_le (fun q => existsb (qname_eqb q) ky) kx). lia.
Qed.

Lemma props_sim_bounds x y :
  fst (props_sim x y) <= snd (props_sim x y) /\ 0 < snd (props_sim x y).
Proof.
  unfold props_sim.
  assert (forall l : attrs, l <> [] -> 0 < length (qdedup (keys l))) as Hpos.
  { intros [|[k v] l]; [done|]. intros _. simpl.
    destruct (existsb (qname_eqb k) (keys l)) eqn:E; [|simpl; lia].
    apply existsb_qname in E. apply qdedup_subset in E.
    destruct (qdedup (keys l)); [inversion E|simpl; lia]. }
  destruct x as [|a x], y as [|b y]; cbn [fst snd]; [lia|..];
    (split; [apply inter_length; apply qdedup_nodup|]).
  - specialize (Hpos (b :: y)). assert (b :: y <> []) by done. specialize (Hpos H). lia.
  - specialize (Hpos (a :: x)). assert (a :: x <> []) by done. specialize (Hpos H). lia.
  - specialize (Hpos (a :: x)). assert (a :: x <> []) by done. specialize (Hpos H). lia.
Qed.

Lemma props_sim_refl x : fst (props_sim x x) = snd (props_sim x x).
Proof.
  unfold props_sim. destruct x as [|a x]; [done|]. cbn [fst snd].
  rewrite filter_all; [lia|]. intros q Hq. by apply existsb_qname.
Qed.
