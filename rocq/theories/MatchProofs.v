(** The matching is a partial bijection; what is known about matched pairs.
    Properties C03, C04, C05 (matching part), C29 (Dice). *)
From Verif Require Import Base Arena Matching.

Lemma vget_vset v i x j : vget (vset v i x) j = if Nat.eqb i j then Some x else vget v j.
Proof.
  unfold vget, vset.
  assert (i < length (v ++ replicate (S i - length v) None)) as Hi.
  { rewrite app_length, replicate_length. lia. }
  destruct (Nat.eqb_spec i j) as [<-|Hne].
  - by rewrite list_lookup_insert.
  - rewrite list_lookup_insert_ne by done.
    destruct (decide (j < length v)) as [Hj|Hj].
    + by rewrite lookup_app_l.
    + rewrite lookup_app_r by lia. rewrite (lookup_ge_None_2 v j) by lia.
      destruct (replicate (S i - length v) None !! (j - length v)) as [o|] eqn:E; [|done].
      by apply lookup_replicate in E as [-> _].
Qed.

Lemma get_b_add m a b x : get_b (m_add m a b) x = if Nat.eqb a x then Some b else get_b m x.
Proof. apply vget_vset. Qed.
Lemma get_a_add m a b y : get_a (m_add m a b) y = if Nat.eqb b y then Some a else get_a m y.
Proof. apply vget_vset. Qed.

Lemma contains_a_false m a : contains_a m a = false <-> get_b m a = None.
Proof. unfold contains_a. destruct (get_b m a); split; congruence. Qed.
Lemma contains_b_false m b : contains_b m b = false <-> get_a m b = None.
Proof. unfold contains_b. destruct (get_a m b); split; congruence. Qed.
Lemma contains_a_true m a : contains_a m a = true <-> exists b, get_b m a = Some b.
Proof. unfold contains_a. destruct (get_b m a); split; naive_solver. Qed.
Lemma contains_b_true m b : contains_b m b = true <-> exists a, get_a m b = Some a.
Proof. unfold contains_b. destruct (get_a m b); split; naive_solver. Qed.

(** Specification of a partial bijection: the three views agree and no node
    occurs twice. *)
Record bijection (m : matching) : Prop := {
  bij_fwd : forall a b, get_b m a = Some b <-> (a, b) ∈ m_pairs m;
  bij_bwd : forall a b, get_a m b = Some a <-> (a, b) ∈ m_pairs m;
  bij_nodup_a : NoDup (map fst (m_pairs m));
  bij_nodup_b : NoDup (map snd (m_pairs m))
}.

Lemma bijection_empty : bijection m_empty.
Proof.
  split; unfold get_b, get_a, vget; simpl; try constructor; intros; try done.
  all: inversion H.
Qed.

Lemma bijection_add m a b :
  bijection m -> contains_a m a = false -> contains_b m b = false -> bijection (m_add m a b).
Proof.
  intros [Hf Hb Ha Hbn] Ca Cb.
  apply contains_a_false in Ca. apply contains_b_false in Cb.
  split.
  - intros x y. rewrite get_b_add. simpl. rewrite elem_of_app, elem_of_list_singleton.
    destruct (Nat.eqb_spec a x) as [<-|Hne].
    + split; [intros [= <-]; by right|]. intros [H|[= <-]]; [|done].
      apply Hf in H. congruence.
    + rewrite Hf. split; [by left|]. intros [H|[= -> ->]]; done.
  - intros x y. rewrite get_a_add. simpl. rewrite elem_of_app, elem_of_list_singleton.
    destruct (Nat.eqb_spec b y) as [<-|Hne].
    + split; [intros [= <-]; by right|]. intros [H|[= <-]]; [|done].
      apply Hb in H. congruence.
    + rewrite Hb. split; [by left|]. intros [H|[= -> ->]]; done.
  - simpl. rewrite map_app. simpl. apply NoDup_app. split; [done|].
    split; [|apply NoDup_singleton]. intros x Hx Hx'.
    apply elem_of_list_singleton in Hx' as ->.
    apply elem_of_list_fmap in Hx as ([u v] & Hx & Hp). simpl in Hx. subst.
    apply Hf in Hp. congruence.
  - simpl. rewrite map_app. simpl. apply NoDup_app. split; [done|].
    split; [|apply NoDup_singleton]. intros x Hx Hx'.
    apply elem_of_list_singleton in Hx' as ->.
    apply elem_of_list_fmap in Hx as ([u v] & Hx & Hp). simpl in Hx. subst.
    apply Hb in Hp. congruence.
Qed.

(** Matchings obtained by adding pairs of unmatched nodes satisfying [Q]. *)
Inductive reach (Q : nat -> nat -> Prop) : matching -> Prop :=
| reach_empty : reach Q m_empty
| reach_add m a b :
    reach Q m -> contains_a m a = false -> contains_b m b = false -> Q a b ->
    reach Q (m_add m a b).

Lemma reach_bijection Q m : reach Q m -> bijection m.
Proof.
  induction 1; [apply bijection_empty|by apply bijection_add].
Qed.

Lemma reach_pairs Q m a b : reach Q m -> (a, b) ∈ m_pairs m -> Q a b.
Proof.
  induction 1 as [|m x y Hr IH Ca Cb HQ]; simpl; intros Hin.
  - inversion Hin.
  - apply elem_of_app in Hin as [Hin|Hin]; [auto|].
    apply elem_of_list_singleton in Hin as [= -> ->]. done.
Qed.

Lemma reach_get_b Q m a b : reach Q m -> get_b m a = Some b -> Q a b.
Proof. intros Hr H. eapply reach_pairs, bij_fwd, H; [done|by eapply reach_bijection]. Qed.
Lemma reach_get_a Q m a b : reach Q m -> get_a m b = Some a -> Q a b.
Proof. intros Hr H. eapply reach_pairs, bij_bwd, H; [done|by eapply reach_bijection]. Qed.

Lemma mem_true x l : mem x l = true <-> x ∈ l.
Proof.
  unfold mem. rewrite existsb_exists. split.
  - intros (y & Hy & E). apply Nat.eqb_eq in E as ->. by apply elem_of_list_In.
  - intros H. exists x. split; [by apply elem_of_list_In|apply Nat.eqb_refl].
Qed.
Lemma mem_false x l : mem x l = false <-> x ∉ l.
Proof. rewrite <- mem_true. destruct (mem x l); split; congruence. Qed.

Lemma lfilter_elem {A} (f : A -> bool) l x : x ∈ List.filter f l <-> x ∈ l /\ f x = true.
Proof. by rewrite !elem_of_list_In, filter_In. Qed.

Lemma find_some_elem {A} (f : A -> bool) l x : find f l = Some x -> x ∈ l /\ f x = true.
Proof. intros H. apply find_some in H. by rewrite elem_of_list_In. Qed.

Lemma combine_elem {A B} (l : list A) (k : list B) x y :
  (x, y) ∈ combine l k -> x ∈ l /\ y ∈ k.
Proof.
  rewrite !elem_of_list_In. intros H. split; [by eapply in_combine_l|by eapply in_combine_r].
Qed.

Section Phases.
  Context {H K P T : Type}.
  Variable heqb : H -> H -> bool.
  Variable keqb : K -> K -> bool.
  Variable sim : P -> P -> ratio.
  Variable cfg : config.
  Variables ta tb : dtree H K P T.

  (** [I]: what holds of candidate pairs; [J]: of pairs visited by
      [match_subtrees]; [Q]: of matched pairs. *)
  Variables I J Q : nat -> nat -> Prop.
  Hypothesis I_root : I (t_root ta) (t_root tb).
  Hypothesis I_children : forall a b x y, I a b ->
    t_opaque ta a = false -> t_opaque tb b = false ->
    x ∈ t_children ta a -> y ∈ t_children tb b -> I x y.
  Hypothesis IJ : forall a b, I a b ->
    heqb (t_hash ta a) (t_hash tb b) = true -> keqb (t_kind ta a) (t_kind tb b) = true -> J a b.
  Hypothesis J_children : forall a b x y, J a b ->
    t_opaque ta a = false -> t_opaque tb b = false ->
    (x, y) ∈ combine (t_children ta a) (t_children tb b) -> J x y.
  Hypothesis JQ : forall a b, J a b -> Q a b.
  Hypothesis IQ : forall a b, I a b -> keqb (t_kind ta a) (t_kind tb b) = true ->
    t_opaque ta a = true \/ t_opaque tb b = true -> Q a b.
  Hypothesis BQ : forall a b,
    a ∈ t_iter ta -> a ∉ opaque_descendants ta ->
    keqb (t_kind tb b) (t_kind ta a) = true ->
    b ∈ t_iter tb \/ (exists pa pb, t_parent ta a = Some pa /\ Q pa pb /\ b ∈ t_children tb pb) ->
    Q a b.

  Lemma match_subtrees_reach fuel a b m m' :
    J a b -> reach Q m -> match_subtrees ta tb fuel a b m = Some m' -> reach Q m'.
  Proof.
    revert a b m m'. induction fuel as [|f IH]; intros a b m m' HJ Hr; simpl; [done|].
    destruct (contains_a m a) eqn:Ca; simpl; [by intros [= <-]|].
    destruct (contains_b m b) eqn:Cb; simpl; [by intros [= <-]|].
    assert (reach Q (m_add m a b)) as Hr1 by (apply reach_add; auto).
    destruct (t_opaque ta a) eqn:Oa; simpl; [by intros [= <-]|].
    destruct (t_opaque tb b) eqn:Ob; simpl; [by intros [= <-]|].
    assert (forall x y, (x, y) ∈ combine (t_children ta a) (t_children tb b) -> J x y) as Hc
      by eauto.
    revert Hc Hr1. generalize (m_add m a b). clear Hr Ca Cb m.
    induction (combine (t_children ta a) (t_children tb b)) as [|[x y] l IHl]; intros m Hc Hr.
    - by intros [= <-].
    - destruct (match_subtrees ta tb f x y m) as [m1|] eqn:E; [|done].
      apply IHl.
      + intros u v Huv. apply Hc. by right.
      + eapply IH, E; [apply Hc; left|done].
  Qed.

  Lemma td_push_elem m a b x y :
    (x, y) ∈ td_push heqb keqb ta tb m a b -> x ∈ t_children ta a /\ y ∈ t_children tb b.
  Proof.
    unfold td_push. rewrite elem_of_list_In, in_flat_map.
    intros (u & Hu & Hin). apply in_flat_map in Hin as (v & Hv & Hin).
    destruct (_ && _); [|destruct Hin].
    destruct Hin as [[= -> ->]|[]]. by rewrite !elem_of_list_In.
  Qed.

  Lemma td_loop_reach fuel sf stack m m' :
    (forall a b, (a, b) ∈ stack -> I a b) -> reach Q m ->
    td_loop heqb keqb cfg ta tb fuel sf stack m = Some m' -> reach Q m'.
  Proof.
    revert stack m. induction fuel as [|f IH]; intros [|[a b] st] m HI Hr; simpl;
      try (by intros [= <-]).
    assert (I a b) as Hab by (apply HI; left).
    assert (forall x y, (x, y) ∈ st -> I x y) as Hst by (intros; apply HI; by right).
    destruct (contains_a m a) eqn:Ca; simpl; [by apply IH|].
    destruct (contains_b m b) eqn:Cb; simpl; [by apply IH|].
    destruct (Nat.ltb _ _); [by apply IH|].
    destruct (heqb (t_hash ta a) (t_hash tb b)) eqn:Eh; simpl.
    - destruct (keqb (t_kind ta a) (t_kind tb b)) eqn:Ek; simpl.
      + destruct (match_subtrees ta tb sf a b m) as [m1|] eqn:E; [|done].
        apply IH; [done|]. eapply match_subtrees_reach, E; [|done]. auto.
      + destruct (t_opaque ta a) eqn:Oa; simpl; [by apply IH|].
        destruct (t_opaque tb b) eqn:Ob; simpl; [by apply IH|].
        apply IH; [|done]. intros x y Hxy. apply elem_of_app in Hxy as [Hxy|Hxy]; [|auto].
        apply elem_of_list_In, in_rev, elem_of_list_In in Hxy.
        apply td_push_elem in Hxy as [? ?]. eauto.
    - destruct (keqb (t_kind ta a) (t_kind tb b)) eqn:Ek; simpl;
      (destruct (t_opaque ta a) eqn:Oa; simpl;
       [apply IH; auto; apply reach_add; auto|
       destruct (t_opaque tb b) eqn:Ob; simpl;
       [apply IH; auto; apply reach_add; auto|]]).
      all: try (apply IH; [|done]; intros x y Hxy;
        apply elem_of_app in Hxy as [Hxy|Hxy]; [|auto];
        apply elem_of_list_In, in_rev, elem_of_list_In in Hxy;
        apply td_push_elem in Hxy as [? ?]; eauto).
  Qed.

  Lemma top_down_reach m' :
    top_down heqb keqb cfg ta tb m_empty = Some m' -> reach Q m'.
  Proof.
    apply td_loop_reach; [|constructor].
    intros a b Hin. apply elem_of_list_singleton in Hin as [= -> ->]. done.
  Qed.

  Lemma dice_best_some m idx a b s :
    dice_best keqb sim cfg ta tb m idx a = Some (b, s) ->
    b ∈ idx /\ keqb (t_kind tb b) (t_kind ta a) = true /\ contains_b m b = false.
  Proof.
    unfold dice_best.
    assert (forall l best,
      (forall x r, best = Some (x, r) ->
         x ∈ idx /\ keqb (t_kind tb x) (t_kind ta a) = true /\ contains_b m x = false) ->
      (forall x, x ∈ l -> x ∈ idx /\ keqb (t_kind tb x) (t_kind ta a) = true) ->
      fold_left (dice_step sim cfg ta tb m a) l best = Some (b, s) ->
      b ∈ idx /\ keqb (t_kind tb b) (t_kind ta a) = true /\ contains_b m b = false) as Hgen.
    { induction l as [|x l IH]; intros best Hb Hl; simpl; [apply Hb|].
      apply IH; [|intros; apply Hl; by right].
      intros y r. unfold dice_step.
      destruct (contains_b m x) eqn:Cx; [apply Hb|].
      destruct (Nat.eqb _ 0); [apply Hb|].
      destruct (negb (ancestry_compatible _ _ _ _ _)); [apply Hb|].
      destruct (negb (ge_thr _ _)); [apply Hb|].
      destruct (_ && _); [|apply Hb].
      intros [= <- <-]. destruct (Hl x) as [? ?]; [left|]. auto. }
    apply Hgen; [done|].
    intros x Hx. unfold by_kind in Hx. by apply lfilter_elem in Hx.
  Qed.

  Lemma root_candidate_some m idx a b :
    root_candidate keqb sim cfg ta tb m idx a = Some b ->
    b ∈ idx /\ keqb (t_kind tb b) (t_kind ta a) = true /\ contains_b m b = false.
  Proof.
    unfold root_candidate. intros E. apply find_some_elem in E as [Hin E].
    unfold by_kind in Hin. apply lfilter_elem in Hin as [? ?].
    rewrite !andb_true_iff, negb_true_iff in E. naive_solver.
  Qed.

  Lemma pos_candidate_some m a pb b :
    pos_candidate keqb sim cfg ta tb m a pb = Some b ->
    b ∈ t_children tb pb /\ keqb (t_kind tb b) (t_kind ta a) = true /\ contains_b m b = false.
  Proof.
    unfold pos_candidate. intros E. apply find_some_elem in E as [Hin _].
    apply lfilter_elem in Hin as [? E].
    rewrite andb_true_iff, negb_true_iff in E. naive_solver.
  Qed.

  Lemma leaf_candidate_some m a pb b :
    leaf_candidate heqb keqb sim cfg ta tb m a pb = Some b ->
    b ∈ t_children tb pb /\ keqb (t_kind tb b) (t_kind ta a) = true /\ contains_b m b = false.
  Proof.
    unfold leaf_candidate.
    set (c := List.filter _ (t_children tb pb)).
    assert (forall f, find f c = Some b ->
      b ∈ t_children tb pb /\ keqb (t_kind tb b) (t_kind ta a) = true /\ contains_b m b = false)
      as Hc.
    { intros f E. apply find_some_elem in E as [Hin _].
      apply lfilter_elem in Hin as [? E].
      rewrite !andb_true_iff, negb_true_iff in E. naive_solver. }
    destruct (find _ c) eqn:E1; [intros [= ->]; by eapply Hc|].
    destruct (find (fun b => heqb (t_hash tb b) (t_hash ta a)) c) eqn:E2;
      [intros [= ->]; by eapply Hc|].
    apply Hc.
  Qed.

  Lemma leaf_global_some m a l best b :
    leaf_global heqb sim cfg ta tb m a l best = Some b ->
    (best = Some b) \/ (b ∈ l /\ contains_b m b = false).
  Proof.
    revert best. induction l as [|x l IH]; intros best; simpl; [by left|].
    assert (forall best', leaf_global heqb sim cfg ta tb m a l best' = Some b ->
            best' = Some b \/ (b ∈ x :: l /\ contains_b m b = false)) as IH'.
    { intros best' E. apply IH in E as [?|[? ?]]; [by left|right]. split; [by right|done]. }
    destruct (contains_b m x) eqn:Cx; [apply IH'|].
    destruct (negb (Nat.eqb _ _)); [apply IH'|].
    destruct (negb _); [apply IH'|].
    destruct (heqb _ _); [intros [= <-]; right; split; [left|done]|].
    destruct best as [y|]; [apply IH'|].
    destruct (ge_thr _ _).
    - intros E. apply IH' in E as [[= <-]|?]; [|by right]. right. split; [left|done].
    - intros E. apply IH' in E as [?|?]; [done|by right].
  Qed.

  Lemma b_index_iter m opb b : b ∈ b_index tb m opb -> b ∈ t_iter tb.
  Proof. unfold b_index. intros Hin. by apply lfilter_elem in Hin as [? _]. Qed.

  Lemma pass1_reach m idx a :
    (forall b, b ∈ idx -> b ∈ t_iter tb) -> a ∈ t_iter ta ->
    reach Q m -> reach Q (pass1_step keqb sim cfg ta tb (opaque_descendants ta) idx m a).
  Proof.
    intros Hidx Ha Hr. unfold pass1_step.
    destruct (contains_a m a) eqn:Ca; simpl; [done|].
    destruct (mem a (opaque_descendants ta)) eqn:Oa; simpl; [done|].
    apply mem_false in Oa.
    set (pos := match matched_parent_b ta m a with Some pb => _ | None => None end).
    assert (forall b, pos = Some b -> reach Q (m_add m a b)) as Hpos.
    { intros b. subst pos. unfold matched_parent_b.
      destruct (t_parent ta a) as [pa|] eqn:Ep; [|done].
      destruct (get_b m pa) as [pb|] eqn:Eg; [|done].
      intros E. apply pos_candidate_some in E as (? & ? & ?).
      apply reach_add; auto. apply BQ; auto. right. exists pa, pb.
      split_and!; [done| |done]. by eapply reach_get_b. }
    destruct pos as [b|]; [auto|].
    destruct (dice_best _ _ _ _ _ _ _ _) as [[b s]|] eqn:Ed.
    - apply dice_best_some in Ed as (? & ? & ?). apply reach_add; auto.
    - destruct (t_parent ta a); [done|].
      destruct (root_candidate _ _ _ _ _ _ _) as [b|] eqn:Er; [|done].
      apply root_candidate_some in Er as (? & ? & ?). apply reach_add; auto.
  Qed.

  Lemma pass2_reach m idx a :
    (forall b, b ∈ idx -> b ∈ t_iter tb) -> a ∈ t_iter ta ->
    reach Q m -> reach Q (pass2_step heqb keqb sim cfg ta tb (opaque_descendants ta) idx m a).
  Proof.
    intros Hidx Ha Hr. unfold pass2_step.
    destruct (contains_a m a) eqn:Ca; simpl; [done|].
    destruct (mem a (opaque_descendants ta)) eqn:Oa; simpl; [done|].
    destruct (negb _); [done|].
    apply mem_false in Oa.
    unfold matched_parent_b.
    assert (forall b, leaf_global heqb sim cfg ta tb m a (by_kind keqb tb idx (t_kind ta a)) None = Some b ->
      reach Q (m_add m a b)) as Hg.
    { intros b E. apply leaf_global_some in E as [?|[Hin ?]]; [done|].
      unfold by_kind in Hin. apply lfilter_elem in Hin as [? ?].
      apply reach_add; auto. }
    destruct (t_parent ta a) as [pa|] eqn:Ep.
    - destruct (get_b m pa) as [pb|] eqn:Eg.
      + destruct (leaf_candidate _ _ _ _ _ _ _ _ _) as [b|] eqn:E; [|done].
        apply leaf_candidate_some in E as (? & ? & ?).
        apply reach_add; auto. apply BQ; auto. right. exists pa, pb.
        split_and!; [done| |done]. by eapply reach_get_b.
      + destruct (leaf_global _ _ _ _ _ _ _ _) eqn:E; auto.
    - destruct (leaf_global _ _ _ _ _ _ _ _) eqn:E; auto.
  Qed.

  Lemma bottom_up_reach m : reach Q m -> reach Q (bottom_up heqb keqb sim cfg ta tb m).
  Proof.
    intros Hr. unfold bottom_up.
    set (idx := b_index tb m (opaque_descendants tb)).
    assert (forall b, b ∈ idx -> b ∈ t_iter tb) as Hidx by (intros b; apply b_index_iter).
    assert (forall (step : matching -> nat -> matching) l m,
      (forall m a, a ∈ l -> reach Q m -> reach Q (step m a)) ->
      reach Q m -> reach Q (fold_left step l m)) as Hfold.
    { intros step l. induction l as [|x l IH]; intros m0 Hs Hm; simpl; [done|].
      apply IH; [intros; apply Hs; [by right|done]|]. apply Hs; [left|done]. }
    apply Hfold; [intros; by apply pass2_reach|].
    apply Hfold; [intros; by apply pass1_reach|]. done.
  Qed.

  Lemma compute_matching_reach m :
    compute_matching heqb keqb sim cfg ta tb = Val m -> reach Q m.
  Proof.
    unfold compute_matching. destruct (top_down _ _ _ _ _ _) as [m1|] eqn:E; [|done].
    intros [= <-]. by apply bottom_up_reach, top_down_reach.
  Qed.
End Phases.

(** C03: no hypothesis on trees, hashes, kinds or scores. *)
Lemma compute_matching_bijection {H K P T} (heqb : H -> H -> bool) keqb sim cfg
    (ta tb : dtree H K P T) m :
  compute_matching heqb keqb sim cfg ta tb = Val m -> bijection m.
Proof.
  intros E. eapply reach_bijection.
  eapply (compute_matching_reach heqb keqb sim cfg ta tb
            (fun _ _ => True) (fun _ _ => True) (fun _ _ => True)); eauto.
Qed.
