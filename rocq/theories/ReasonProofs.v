(** Why pairs are matched, and which pairs are not missed: proofs for C65. *)
From Verif Require Import Base Matching MatchProofs TreeProofs.

(** [m'] is [m] with pairs added one by one, each of two unmatched nodes and each
    for a reason given by what was matched before it. *)
Inductive grown (R : matching -> nat -> nat -> Prop) (m : matching) : matching -> Prop :=
| grown_refl : grown R m m
| grown_add m1 a b : grown R m m1 -> contains_a m1 a = false -> contains_b m1 b = false -> R m1 a b ->
    grown R m (m_add m1 a b).

Lemma grown_trans R m1 m2 m3 : grown R m1 m2 -> grown R m2 m3 -> grown R m1 m3.
Proof. intros H1 H2. induction H2; [done|by constructor]. Qed.
Lemma grown_one (R : matching -> nat -> nat -> Prop) m a b :
  contains_a m a = false -> contains_b m b = false -> R m a b -> grown R m (m_add m a b).
Proof. intros. constructor; [constructor|done..]. Qed.
Lemma grown_imp (R R' : matching -> nat -> nat -> Prop) m m' :
  (forall m a b, R m a b -> R' m a b) -> grown R m m' -> grown R' m m'.
Proof. intros HR Hg. induction Hg; constructor; auto. Qed.
Lemma grown_reach R m m' : grown R m m' -> reach (fun _ _ => True) m -> reach (fun _ _ => True) m'.
Proof. intros Hg Hr. induction Hg; [done|by apply reach_add]. Qed.
Lemma grown_get_b R m m' a b : grown R m m' -> get_b m a = Some b -> get_b m' a = Some b.
Proof.
  intros Hg E. induction Hg as [|m1 x y Hg IH Cx Cy HR]; [done|]. rewrite get_b_add.
  destruct (Nat.eqb_spec x a) as [->|]; [|done]. apply contains_a_false in Cx. congruence.
Qed.
Lemma grown_get_a R m m' a b : grown R m m' -> get_a m b = Some a -> get_a m' b = Some a.
Proof.
  intros Hg E. induction Hg as [|m1 x y Hg IH Cx Cy HR]; [done|]. rewrite get_a_add.
  destruct (Nat.eqb_spec y b) as [->|]; [|done]. apply contains_b_false in Cy. congruence.
Qed.
Lemma grown_pairs R m m' p : grown R m m' -> p ∈ m_pairs m -> p ∈ m_pairs m'.
Proof. intros Hg Hp. induction Hg; [done|]. cbn. apply elem_of_app. by left. Qed.
(** Each pair with the matching before it. *)
Lemma grown_pair R m a b : grown R m_empty m -> (a, b) ∈ m_pairs m ->
  exists m0 l, grown R m_empty m0 /\ m_pairs m = m_pairs m0 ++ (a, b) :: l /\ R m0 a b.
Proof.
  intros Hg Hin. induction Hg as [|m1 x y Hg IH Cx Cy HR]; [inversion Hin|].
  cbn in Hin. apply elem_of_app in Hin as [Hin|Hin].
  - destruct (IH Hin) as (m0 & l & G0 & E & HR0). exists m0, (l ++ [(x, y)]). split; [done|]. split; [|done].
    cbn. rewrite E. by rewrite <- app_assoc.
  - apply elem_of_list_singleton in Hin as [= -> ->]. exists m1, []. by split_and!.
Qed.
Lemma fold_grown {A} R (f : matching -> A -> matching) l m :
  (forall m x, x ∈ l -> grown R m (f m x)) -> grown R m (fold_left f l m).
Proof.
  revert m. induction l as [|x l IH]; intros m Hf; cbn; [constructor|].
  eapply grown_trans; [apply Hf; left|]. apply IH. intros m0 y Hy. apply Hf. by right.
Qed.

Section Reason.
  Context {H K P T : Type}.
  Variable heqb : H -> H -> bool.
  Variable keqb : K -> K -> bool.
  Variable sim : P -> P -> ratio.
  Variable cfg : config.
  Variables ta tb : dtree H K P T.

  (** [a] is below [a0] where [b] is below [b0], with nothing opaque above them. *)
  Inductive along (a0 b0 : nat) : nat -> nat -> Prop :=
  | along_here : along a0 b0 a0 b0
  | along_down a b k x y : along a0 b0 a b -> t_opaque ta a = false -> t_opaque tb b = false ->
      t_children ta a !! k = Some x -> t_children tb b !! k = Some y -> along a0 b0 x y.

  Definition alike (a b : nat) : Prop :=
    thr_num cfg * snd (sim (t_props ta a) (t_props tb b)) <= fst (sim (t_props ta a) (t_props tb b)) * thr_den cfg.
  (** Descendants of [a] whose partner is a descendant of [b]. *)
  Definition shared (l : list (nat * nat)) (a b : nat) : nat :=
    length (List.filter (fun x => existsb (fun y => existsb (fun p => Nat.eqb (fst p) x && Nat.eqb (snd p) y) l) (t_desc tb b)) (t_desc ta a)).
  (** The parent's partner, if any, is above. *)
  Definition parents_agree (l : list (nat * nat)) (a b : nat) : Prop :=
    (forall pa pb, t_parent ta a = Some pa -> (pa, pb) ∈ l -> b ∈ t_desc tb pb) /\
    (forall pa pb, t_parent tb b = Some pb -> (pa, pb) ∈ l -> a ∈ t_desc ta pa).

  (** Why two nodes are matched, when the pairs [l] are already. *)
  Inductive reason (l : list (nat * nat)) (a b : nat) : Prop :=
  | r_equal a0 b0 :
      heqb (t_hash ta a0) (t_hash tb b0) = true -> keqb (t_kind ta a0) (t_kind tb b0) = true ->
      min_height cfg <= t_height ta a0 -> along a0 b0 a b -> (a0, b0) ∈ l ++ [(a, b)] -> reason l a b
  | r_opaque :
      t_opaque ta a = true \/ t_opaque tb b = true ->
      keqb (t_kind ta a) (t_kind tb b) = true -> min_height cfg <= t_height ta a -> reason l a b
  | r_position pa pb :
      t_parent ta a = Some pa -> (pa, pb) ∈ l -> b ∈ t_children tb pb ->
      keqb (t_kind tb b) (t_kind ta a) = true -> t_position tb b = t_position ta a -> alike a b -> reason l a b
  | r_content :
      keqb (t_kind tb b) (t_kind ta a) = true -> alike a b -> parents_agree l a b -> t_children tb b <> [] ->
      thr_num cfg * (length (t_desc ta a) + length (t_desc tb b)) <= 2 * shared l a b * thr_den cfg -> reason l a b
  | r_roots :
      t_parent ta a = None -> t_parent tb b = None ->
      keqb (t_kind tb b) (t_kind ta a) = true -> alike a b -> reason l a b
  | r_leaf pa pb :
      t_parent ta a = Some pa -> (pa, pb) ∈ l -> b ∈ t_children tb pb ->
      t_children ta a = [] -> t_children tb b = [] ->
      keqb (t_kind tb b) (t_kind ta a) = true -> heqb (t_hash tb b) (t_hash ta a) = true -> reason l a b
  | r_leaf_far :
      (forall pa pb, t_parent ta a = Some pa -> (pa, pb) ∉ l) ->
      t_children ta a = [] -> t_children tb b = [] -> parents_agree l a b ->
      keqb (t_kind tb b) (t_kind ta a) = true ->
      heqb (t_hash tb b) (t_hash ta a) = true \/ alike a b -> reason l a b.

  Let R (m : matching) (a b : nat) : Prop := bijection m -> reason (m_pairs m) a b.

  Lemma combine_lookup {A B} (l : list A) (k : list B) x y :
    (x, y) ∈ combine l k -> exists i, l !! i = Some x /\ k !! i = Some y.
  Proof.
    revert k. induction l as [|u l IH]; intros [|v k] Hin; try by inversion Hin.
    cbn in Hin. apply elem_of_cons in Hin as [[= -> ->]|Hin]; [by exists 0|].
    destruct (IH k Hin) as (i & ? & ?). by exists (S i).
  Qed.

  Lemma match_subtrees_grown fuel a0 b0 a b m m' :
    heqb (t_hash ta a0) (t_hash tb b0) = true -> keqb (t_kind ta a0) (t_kind tb b0) = true ->
    min_height cfg <= t_height ta a0 -> along a0 b0 a b -> (a0, b0) ∈ m_pairs m ++ [(a, b)] ->
    match_subtrees ta tb fuel a b m = Some m' -> grown R m m'.
  Proof.
    intros Hh Hk Hm. revert a b m m'. induction fuel as [|f IH]; intros a b m m' HA HB; cbn; [done|].
    destruct (contains_a m a) eqn:Ca; cbn; [intros [= <-]; constructor|].
    destruct (contains_b m b) eqn:Cb; cbn; [intros [= <-]; constructor|].
    assert (grown R m (m_add m a b)) as G1 by (apply grown_one; [done..|intros _; by eapply r_equal]).
    destruct (t_opaque ta a) eqn:Oa; cbn; [by intros [= <-]|].
    destruct (t_opaque tb b) eqn:Ob; cbn; [by intros [= <-]|].
    assert (forall x y, (x, y) ∈ combine (t_children ta a) (t_children tb b) -> along a0 b0 x y) as Hc.
    { intros x y Hxy. apply combine_lookup in Hxy as (i & ? & ?). by eapply along_down. }
    assert ((a0, b0) ∈ m_pairs (m_add m a b)) as HB1 by exact HB. clear HB.
    revert Hc G1 HB1. generalize (m_add m a b). clear Ca Cb.
    induction (combine (t_children ta a) (t_children tb b)) as [|[x y] l IHl]; intros m1 Hc G1 HB1.
    - by intros [= <-].
    - destruct (match_subtrees ta tb f x y m1) as [m2|] eqn:E; [|done]. apply IHl.
      + intros u v Huv. apply Hc. by right.
      + eapply grown_trans; [exact G1|]. eapply IH, E; [apply Hc; left|]. apply elem_of_app. by left.
      + eapply grown_pairs; [|exact HB1]. eapply IH, E; [apply Hc; left|]. apply elem_of_app. by left.
  Qed.

  Lemma td_loop_grown fuel sf stack m m' :
    td_loop heqb keqb cfg ta tb fuel sf stack m = Some m' -> grown R m m'.
  Proof.
    revert stack m. induction fuel as [|f IH]; intros [|[a b] st] m; cbn [td_loop]; try (intros [= <-]; constructor).
    destruct (contains_a m a) eqn:Ca; cbn [orb]; [by apply IH|].
    destruct (contains_b m b) eqn:Cb; cbn [orb]; [by apply IH|].
    destruct (Nat.ltb_spec (t_height ta a) (min_height cfg)) as [|Hm]; [by apply IH|].
    destruct (heqb (t_hash ta a) (t_hash tb b) && keqb (t_kind ta a) (t_kind tb b)) eqn:Eh.
    - apply andb_true_iff in Eh as [Eh Ek].
      destruct (match_subtrees ta tb sf a b m) as [m1|] eqn:E; [|done].
      intros E2. eapply grown_trans; [|by eapply IH]. by eapply (match_subtrees_grown sf a b a b); [..|constructor|apply elem_of_app; right; left|].
    - destruct (t_opaque ta a || t_opaque tb b) eqn:Eo; [|by apply IH].
      destruct (keqb (t_kind ta a) (t_kind tb b)) eqn:Ek; [|by apply IH].
      intros E2. eapply grown_trans; [|by eapply IH]. apply grown_one; [done..|]. intros _. apply r_opaque; [|done..].
      by apply orb_true_iff.
  Qed.

  Lemma top_down_grown m : top_down heqb keqb cfg ta tb m_empty = Some m -> grown R m_empty m.
  Proof. apply td_loop_grown. Qed.

  Lemma agree_pairs m a b : bijection m -> ancestry_compatible ta tb m a b = true -> parents_agree (m_pairs m) a b.
  Proof.
    intros B. unfold ancestry_compatible. rewrite andb_true_iff. intros [E1 E2]. split.
    - intros pa pb Ep Hin. apply (bij_fwd _ B) in Hin. rewrite Ep, Hin in E1. by apply mem_true.
    - intros pa pb Ep Hin. apply (bij_bwd _ B) in Hin. rewrite Ep, Hin in E2. by apply mem_true.
  Qed.
  Lemma shared_pairs m a b : bijection m -> dice_common ta tb m a b = shared (m_pairs m) a b.
  Proof.
    intros B. unfold dice_common, shared. f_equal. apply filter_ext. intros x.
    apply eq_true_iff_eq. rewrite existsb_exists. split.
    - destruct (get_b m x) as [y|] eqn:Eg; [|done]. intros Hy. apply mem_true in Hy. exists y. split; [by apply elem_of_list_In|].
      apply existsb_exists. exists (x, y). split; [apply elem_of_list_In; by apply (bij_fwd _ B)|].
      cbn. by rewrite !Nat.eqb_refl.
    - intros (y & Hy & E). apply existsb_exists in E as ([u v] & Hin & E). cbn in E. apply andb_true_iff in E as [E1 E2].
      apply Nat.eqb_eq in E1 as ->, E2 as ->. apply elem_of_list_In, (bij_fwd _ B) in Hin. rewrite Hin. apply mem_true.
      by apply elem_of_list_In.
  Qed.
  Lemma ge_thr_alike a b : ge_thr cfg (sim (t_props ta a) (t_props tb b)) = true -> alike a b.
  Proof. unfold ge_thr, alike. intros E. by apply Nat.leb_le in E. Qed.
  Lemma dice_shared m a b : bijection m -> ge_thr cfg (dice ta tb m a b) = true ->
    thr_num cfg * (length (t_desc ta a) + length (t_desc tb b)) <= 2 * shared (m_pairs m) a b * thr_den cfg.
  Proof.
    intros B E. rewrite <- (shared_pairs m a b B). unfold dice, ge_thr in E.
    destruct (t_desc ta a) as [|x da] eqn:Ea, (t_desc tb b) as [|y db] eqn:Eb;
      [cbn; lia|rewrite ?Ea, ?Eb; apply Nat.leb_le in E; exact E..].
  Qed.

  Lemma dice_best_why m idx a b s : dice_best keqb sim cfg ta tb m idx a = Some (b, s) ->
    b ∈ idx /\ keqb (t_kind tb b) (t_kind ta a) = true /\ contains_b m b = false /\ t_children tb b <> [] /\
    ancestry_compatible ta tb m a b = true /\ ge_thr cfg (sim (t_props ta a) (t_props tb b)) = true /\
    ge_thr cfg (dice ta tb m a b) = true.
  Proof.
    unfold dice_best.
    assert (forall l best,
      (forall x r, best = Some (x, r) ->
        x ∈ idx /\ keqb (t_kind tb x) (t_kind ta a) = true /\ contains_b m x = false /\ t_children tb x <> [] /\
        ancestry_compatible ta tb m a x = true /\ ge_thr cfg (sim (t_props ta a) (t_props tb x)) = true /\
        ge_thr cfg (dice ta tb m a x) = true) ->
      (forall x, x ∈ l -> x ∈ idx /\ keqb (t_kind tb x) (t_kind ta a) = true) ->
      fold_left (dice_step sim cfg ta tb m a) l best = Some (b, s) ->
      b ∈ idx /\ keqb (t_kind tb b) (t_kind ta a) = true /\ contains_b m b = false /\ t_children tb b <> [] /\
      ancestry_compatible ta tb m a b = true /\ ge_thr cfg (sim (t_props ta a) (t_props tb b)) = true /\
      ge_thr cfg (dice ta tb m a b) = true) as Hgen.
    { induction l as [|x l IH]; intros best Hb Hl; cbn [fold_left]; [apply Hb|].
      apply IH; [|intros; apply Hl; by right].
      intros y r. unfold dice_step.
      destruct (contains_b m x) eqn:Cx; [apply Hb|].
      destruct (Nat.eqb_spec (length (t_children tb x)) 0) as [|Hc]; [apply Hb|].
      destruct (ancestry_compatible ta tb m a x) eqn:Ac; cbn [negb]; [|apply Hb].
      destruct (ge_thr cfg (sim (t_props ta a) (t_props tb x))) eqn:Es; cbn [negb]; [|apply Hb].
      destruct (ge_thr cfg (dice ta tb m a x)) eqn:Ed; cbn [andb]; [|apply Hb].
      destruct (match best with None => true | Some (_, s0) => ratio_gt (dice ta tb m a x) s0 end); [|apply Hb].
      intros [= <- <-]. destruct (Hl x) as [? ?]; [left|]. split_and!; try done. intros E. by rewrite E in Hc. }
    apply Hgen; [done|]. intros x Hx. unfold by_kind in Hx. by apply lfilter_elem in Hx.
  Qed.

  Lemma leaf_global_why m a l best b : leaf_global heqb sim cfg ta tb m a l best = Some b ->
    best = Some b \/
    (b ∈ l /\ contains_b m b = false /\ t_children tb b = [] /\ ancestry_compatible ta tb m a b = true /\
     (heqb (t_hash tb b) (t_hash ta a) = true \/ ge_thr cfg (sim (t_props ta a) (t_props tb b)) = true)).
  Proof.
    revert best. induction l as [|x l IH]; intros best; cbn [leaf_global]; [by left|].
    assert (forall best', leaf_global heqb sim cfg ta tb m a l best' = Some b -> best' = Some b \/
      (b ∈ x :: l /\ contains_b m b = false /\ t_children tb b = [] /\ ancestry_compatible ta tb m a b = true /\
       (heqb (t_hash tb b) (t_hash ta a) = true \/ ge_thr cfg (sim (t_props ta a) (t_props tb b)) = true))) as IH'.
    { intros best' E. apply IH in E as [?|(? & HR)]; [by left|right]. split; [by right|done]. }
    destruct (contains_b m x) eqn:Cx; [apply IH'|].
    destruct (Nat.eqb_spec (length (t_children tb x)) 0) as [Hc|]; cbn [negb]; [|apply IH']. apply nil_length_inv in Hc.
    destruct (ancestry_compatible ta tb m a x) eqn:Ac; cbn [negb]; [|apply IH'].
    destruct (heqb (t_hash tb x) (t_hash ta a)) eqn:Eh.
    { intros [= <-]. right. split; [left|]. split_and!; try done. by left. }
    destruct best as [y|]; [apply IH'|].
    destruct (ge_thr cfg (sim (t_props ta a) (t_props tb x))) eqn:Es.
    - intros E. apply IH' in E as [[= <-]|?]; [|by right]. right. split; [left|]. split_and!; try done. by right.
    - intros E. apply IH' in E as [?|?]; [done|by right].
  Qed.

  Lemma pass1_grown opa idx m a : grown R m (pass1_step keqb sim cfg ta tb opa idx m a).
  Proof.
    unfold pass1_step. destruct (contains_a m a) eqn:Ca; cbn [orb]; [constructor|].
    destruct (mem a opa); [constructor|]. unfold matched_parent_b.
    assert (grown R m
      match dice_best keqb sim cfg ta tb m idx a with
      | Some (b, _) => m_add m a b
      | None => match t_parent ta a with
                | None => match root_candidate keqb sim cfg ta tb m idx a with Some b => m_add m a b | None => m end
                | Some _ => m end end) as HD.
    { destruct (dice_best keqb sim cfg ta tb m idx a) as [[b s]|] eqn:Ed.
      - apply dice_best_why in Ed as (_ & Hk & Cb & Hc & Ha & Hs & Hd). apply grown_one; [done..|]. intros B.
        apply r_content; [done|by apply ge_thr_alike|by apply agree_pairs|done|by apply dice_shared].
      - destruct (t_parent ta a) as [pa|] eqn:Ep; [constructor|].
        destruct (root_candidate keqb sim cfg ta tb m idx a) as [b|] eqn:Er; [|constructor].
        unfold root_candidate in Er. apply find_some_elem in Er as [Hin Er]. unfold by_kind in Hin. apply lfilter_elem in Hin as [_ Hk].
        rewrite !andb_true_iff, negb_true_iff in Er. destruct Er as (((Cb & _) & Hp) & Hs).
        apply grown_one; [done..|]. intros B. apply r_roots; [done|by destruct (t_parent tb b)|done|by apply ge_thr_alike]. }
    destruct (t_parent ta a) as [pa|] eqn:Ep; [|done].
    destruct (get_b m pa) as [pb|] eqn:Eg; [|done].
    destruct (pos_candidate keqb sim cfg ta tb m a pb) as [b|] eqn:E; [|done].
    unfold pos_candidate in E. apply find_some_elem in E as [Hin E]. apply lfilter_elem in Hin as [Hin E1].
    rewrite andb_true_iff in E. rewrite andb_true_iff, negb_true_iff in E1. destruct E as [E2 Hs], E1 as [Cb Hk]. apply Nat.eqb_eq in E2.
    apply grown_one; [done..|]. intros B. eapply r_position; [done|by apply (bij_fwd _ B)|done..|by apply ge_thr_alike].
  Qed.

  Lemma pass2_grown opa idx m a : grown R m (pass2_step heqb keqb sim cfg ta tb opa idx m a).
  Proof.
    unfold pass2_step. destruct (contains_a m a) eqn:Ca; cbn [orb]; [constructor|].
    destruct (mem a opa); [constructor|].
    destruct (Nat.eqb_spec (length (t_children ta a)) 0) as [Hc|]; cbn [negb]; [|constructor]. apply nil_length_inv in Hc.
    destruct (matched_parent_b ta m a) as [pb|] eqn:Ep.
    - destruct (leaf_candidate heqb keqb sim cfg ta tb m a pb) as [b|] eqn:E; [|constructor].
      unfold matched_parent_b in Ep. destruct (t_parent ta a) as [pa|] eqn:Epa; [|done].
      unfold leaf_candidate in E.
      assert (forall f, find f (List.filter (fun b => negb (contains_b m b) && Nat.eqb (length (t_children tb b)) 0 &&
                keqb (t_kind tb b) (t_kind ta a)) (t_children tb pb)) = Some b ->
              b ∈ t_children tb pb /\ contains_b m b = false /\ t_children tb b = [] /\ keqb (t_kind tb b) (t_kind ta a) = true /\ f b = true) as Hf.
      { intros f F. apply find_some_elem in F as [Hin F]. apply lfilter_elem in Hin as [Hin F1].
        rewrite !andb_true_iff, negb_true_iff in F1. destruct F1 as [[F1 F2] F3]. apply Nat.eqb_eq, nil_length_inv in F2. by split_and!. }
      destruct (find (fun b => Nat.eqb (t_position tb b) (t_position ta a) && heqb (t_hash tb b) (t_hash ta a)) _) as [b1|] eqn:F1.
      { injection E as ->. apply Hf in F1 as (Hin & Cb & Hl & Hk & F1). apply andb_true_iff in F1 as [_ F1].
        apply grown_one; [done..|]. intros B. eapply r_leaf; [done|by apply (bij_fwd _ B)|done..]. }
      destruct (find (fun b => heqb (t_hash tb b) (t_hash ta a)) _) as [b2|] eqn:F2.
      { injection E as ->. apply Hf in F2 as (Hin & Cb & Hl & Hk & F2).
        apply grown_one; [done..|]. intros B. eapply r_leaf; [done|by apply (bij_fwd _ B)|done..]. }
      apply Hf in E as (Hin & Cb & Hl & Hk & E). apply andb_true_iff in E as [E1 E2]. apply Nat.eqb_eq in E1.
      apply grown_one; [done..|]. intros B. eapply r_position; [done|by apply (bij_fwd _ B)|done..|by apply ge_thr_alike].
    - destruct (leaf_global heqb sim cfg ta tb m a (by_kind keqb tb idx (t_kind ta a)) None) as [b|] eqn:E; [|constructor].
      apply leaf_global_why in E as [|(Hin & Cb & Hl & Ha & Hs)]; [done|]. unfold by_kind in Hin. apply lfilter_elem in Hin as [_ Hk].
      apply grown_one; [done..|]. intros B. apply r_leaf_far; [|done..|by apply agree_pairs|done|].
      + intros pa pb Epa Hin. apply (bij_fwd _ B) in Hin. unfold matched_parent_b in Ep. rewrite Epa in Ep. congruence.
      + destruct Hs as [Hs|Hs]; [by left|right; by apply ge_thr_alike].
  Qed.

  Lemma compute_matching_grown m : compute_matching heqb keqb sim cfg ta tb = Val m -> grown R m_empty m.
  Proof.
    unfold compute_matching. destruct (top_down heqb keqb cfg ta tb m_empty) as [m1|] eqn:E; [|done].
    intros [= <-]. eapply grown_trans; [by apply top_down_grown|]. unfold bottom_up.
    eapply grown_trans; [|apply fold_grown; intros; apply pass2_grown]. apply fold_grown. intros. apply pass1_grown.
  Qed.

  Lemma matching_reasons m a b : compute_matching heqb keqb sim cfg ta tb = Val m -> (a, b) ∈ m_pairs m ->
    exists l0 l1, m_pairs m = l0 ++ (a, b) :: l1 /\ reason l0 a b.
  Proof.
    intros E Hin. apply compute_matching_grown in E. destruct (grown_pair _ _ _ _ E Hin) as (m0 & l & G0 & Ep & HR).
    exists (m_pairs m0), l. split; [done|]. apply HR. eapply reach_bijection, grown_reach; [exact G0|constructor].
  Qed.

  (** ** No pair is missed *)

  Lemma pass1_only opa idx m a x : a <> x -> get_b (pass1_step keqb sim cfg ta tb opa idx m a) x = get_b m x.
  Proof.
    intros Hne. assert (forall b, get_b (m_add m a b) x = get_b m x) as HA.
    { intros b. rewrite get_b_add. by destruct (Nat.eqb_spec a x). }
    unfold pass1_step. destruct (_ || _); [done|].
    destruct (match matched_parent_b ta m a with Some pb => pos_candidate keqb sim cfg ta tb m a pb | None => None end); [apply HA|].
    destruct (dice_best keqb sim cfg ta tb m idx a) as [[b s]|]; [apply HA|].
    destruct (t_parent ta a); [done|]. destruct (root_candidate keqb sim cfg ta tb m idx a); [apply HA|done].
  Qed.
  Lemma pass1_fold_only opa idx l m x : x ∉ l -> get_b (fold_left (pass1_step keqb sim cfg ta tb opa idx) l m) x = get_b m x.
  Proof.
    revert m. induction l as [|a l IH]; intros m Hx; [done|]. cbn [fold_left]. apply not_elem_of_cons in Hx as [Hn Hx].
    rewrite IH by done. by apply pass1_only.
  Qed.
  Lemma pass2_inner opa idx l m x : t_children ta x <> [] ->
    get_b (fold_left (pass2_step heqb keqb sim cfg ta tb opa idx) l m) x = get_b m x.
  Proof.
    intros Hc. revert m. induction l as [|a l IH]; intros m; [done|]. cbn [fold_left]. rewrite IH.
    unfold pass2_step. destruct (_ || _); [done|].
    destruct (Nat.eqb_spec (length (t_children ta a)) 0) as [Hl|]; cbn [negb]; [|done].
    assert (a <> x) as Hne by (intros ->; by apply nil_length_inv in Hl).
    destruct (match matched_parent_b ta m a with Some _ => _ | None => _ end); [|done].
    rewrite get_b_add. by destruct (Nat.eqb_spec a x).
  Qed.

  Lemma alike_ge_thr a b : alike a b -> ge_thr cfg (sim (t_props ta a) (t_props tb b)) = true.
  Proof. intros E. by apply Nat.leb_le. Qed.

  Lemma find_ne {A} (f : A -> bool) l x : x ∈ l -> f x = true -> find f l <> None.
  Proof. intros Hin E F. apply elem_of_list_In in Hin. pose proof (find_none f l F x Hin) as Hn. cbn in Hn. congruence. Qed.

  Variables (ra rb : rose).
  Hypothesis PA : presents ta ra.

  (** Parents come before their children. *)
  Lemma parent_before p x : t_parent ta x = Some p -> p ∈ preorder ra -> x ∈ preorder ra ->
    x ∈ t_children ta p -> exists l1 l2, t_iter ta = l1 ++ x :: l2 /\ p ∉ x :: l2 /\ x ∉ l1.
  Proof.
    intros Ep Hp Hx Hc. rewrite (pr_iter _ _ PA). pose proof (pr_nodup _ _ PA) as ND.
    apply preorder_subt in Hp as (s & Hs & <-). rewrite (pr_children _ _ PA s Hs) in Hc.
    apply elem_of_list_fmap in Hc as (c & -> & Hc).
    assert (exists l1 l2, preorder ra = l1 ++ rid s :: l2 /\ rid c ∈ l2) as (l1 & l2 & El & Hin).
    { clear PA ND Ep Hx. induction Hs as [t|s t u Hs IH Ht].
      - exists [], (flat_map preorder (rsub t)). split; [apply preorder_eq|]. apply elem_flat_map. exists c. split; [done|apply preorder_rid].
      - destruct (IH Hc) as (l1 & l2 & El & Hin).
        apply elem_of_list_split in Ht as (k1 & k2 & Ht). rewrite preorder_eq, Ht, flat_map_app. cbn [flat_map].
        exists (rid u :: flat_map preorder k1 ++ l1), (l2 ++ flat_map preorder k2). rewrite El. split; [cbn [app]; by rewrite <- !app_assoc|].
        apply elem_of_app. by left. }
    apply elem_of_list_split in Hin as (k1 & k2 & ->). exists (l1 ++ rid s :: k1), k2. rewrite El in *. rewrite <- app_assoc.
    split; [done|]. apply NoDup_app in ND as (_ & ND1 & ND2). apply NoDup_cons in ND2 as [N1 N2].
    apply NoDup_app in N2 as (_ & N2 & N3). split.
    - intros Hin. apply N1. apply elem_of_app. by right.
    - intros Hin. apply elem_of_app in Hin as [Hin|Hin].
      + apply (ND1 _ Hin). right. apply elem_of_app. right. left.
      + apply elem_of_cons in Hin as [Hin|Hin].
        * apply N1. rewrite <- Hin. apply elem_of_app. right. left.
        * apply (N2 _ Hin). left.
  Qed.

  Lemma fold1_grown opa idx l m : grown R m (fold_left (pass1_step keqb sim cfg ta tb opa idx) l m).
  Proof. apply fold_grown. intros. apply pass1_grown. Qed.
  Lemma fold2_grown opa idx l m : grown R m (fold_left (pass2_step heqb keqb sim cfg ta tb opa idx) l m).
  Proof. apply fold_grown. intros. apply pass2_grown. Qed.

  Lemma grown_free_a m m' x : grown R m m' -> get_b m' x = None -> contains_a m x = false.
  Proof. intros G E. apply contains_a_false. destruct (get_b m x) as [y|] eqn:F; [|done]. by rewrite (grown_get_b _ _ _ _ _ G F) in E. Qed.
  Lemma grown_free_b m m' y : grown R m m' -> get_a m' y = None -> contains_b m y = false.
  Proof. intros G E. apply contains_b_false. destruct (get_a m y) as [x|] eqn:F; [|done]. by rewrite (grown_get_a _ _ _ _ _ G F) in E. Qed.

  Lemma no_missed_position m p q x y : compute_matching heqb keqb sim cfg ta tb = Val m ->
    p ∈ preorder ra -> get_b m p = Some q -> x ∈ t_children ta p -> y ∈ t_children tb q -> x ∉ opaque_descendants ta ->
    keqb (t_kind tb y) (t_kind ta x) = true -> t_position tb y = t_position ta x -> alike x y ->
    get_b m x = None -> get_a m y = None -> False.
  Proof.
    unfold compute_matching. destruct (top_down heqb keqb cfg ta tb m_empty) as [m0|] eqn:E0; [|done]. intros [= Em].
    intros Hp Eg Hx Hy Ho Hk Epos Hs Nx Ny.
    rewrite <- (pr_iter _ _ PA) in Hp. destruct (pr_child ta ra PA p x Hp Hx) as [Hxi Epx]. 
    rewrite (pr_iter _ _ PA) in Hp, Hxi.
    destruct (parent_before p x Epx Hp Hxi Hx) as (l1 & l2 & El & Hpl & Hxl).
    unfold bottom_up in Em. set (opa := opaque_descendants ta) in *. set (idx := b_index tb m0 (opaque_descendants tb)) in *.
    set (m1 := fold_left (pass1_step keqb sim cfg ta tb opa idx) (t_iter ta) m0) in *.
    assert (grown R m1 m) as G2 by (rewrite <- Em; apply fold2_grown).
    assert (get_b m1 p = Some q) as Eg1.
    { rewrite <- Eg, <- Em. symmetry. apply pass2_inner. intros E. rewrite E in Hx. inversion Hx. }
    unfold m1 in Eg1, G2. rewrite El in Eg1, G2. rewrite fold_left_app in Eg1, G2. cbn [fold_left] in Eg1, G2.
    set (s := fold_left (pass1_step keqb sim cfg ta tb opa idx) l1 m0) in *.
    set (s' := pass1_step keqb sim cfg ta tb opa idx s x) in *.
    apply not_elem_of_cons in Hpl as [Hpx Hpl].
    rewrite pass1_fold_only in Eg1 by done. unfold s' in Eg1. rewrite pass1_only in Eg1 by done.
    assert (grown R s' m) as G3 by (eapply grown_trans; [apply fold1_grown|exact G2]).
    assert (grown R s m) as G4 by (eapply grown_trans; [apply pass1_grown|exact G3]).
    assert (exists b, get_b s' x = Some b) as [b Eb].
    { unfold s', pass1_step. rewrite (grown_free_a s m x G4 Nx). cbn [orb]. replace (mem x opa) with false by (symmetry; by apply mem_false).
      unfold matched_parent_b. rewrite Epx, Eg1.
      destruct (pos_candidate keqb sim cfg ta tb s x q) as [b|] eqn:Ep.
      { exists b. rewrite get_b_add. by rewrite Nat.eqb_refl. }
      exfalso. revert Ep. unfold pos_candidate. eapply (find_ne _ _ y).
      - apply lfilter_elem. split; [done|]. rewrite (grown_free_b s m y G4 Ny). by rewrite Hk.
      - rewrite Epos, Nat.eqb_refl. by apply alike_ge_thr. }
    rewrite (grown_get_b _ _ _ _ _ G3 Eb) in Nx. done.
  Qed.

  Lemma no_missed_leaf m p q x y : compute_matching heqb keqb sim cfg ta tb = Val m ->
    p ∈ preorder ra -> get_b m p = Some q -> x ∈ t_children ta p -> y ∈ t_children tb q -> x ∉ opaque_descendants ta ->
    t_children ta x = [] -> t_children tb y = [] ->
    keqb (t_kind tb y) (t_kind ta x) = true -> heqb (t_hash tb y) (t_hash ta x) = true ->
    get_b m x = None -> get_a m y = None -> False.
  Proof.
    unfold compute_matching. destruct (top_down heqb keqb cfg ta tb m_empty) as [m0|] eqn:E0; [|done]. intros [= Em].
    intros Hp Eg Hx Hy Ho Hlx Hly Hk Hh Nx Ny.
    rewrite <- (pr_iter _ _ PA) in Hp. destruct (pr_child ta ra PA p x Hp Hx) as [Hxi Epx].
    apply elem_of_list_split in Hxi as (l1 & l2 & El).
    unfold bottom_up in Em. set (opa := opaque_descendants ta) in *. set (idx := b_index tb m0 (opaque_descendants tb)) in *.
    set (m1 := fold_left (pass1_step keqb sim cfg ta tb opa idx) (t_iter ta) m0) in *.
    assert (t_children ta p <> []) as Hcp by (intros E; rewrite E in Hx; inversion Hx).
    assert (get_b m1 p = Some q) as Eg1 by (rewrite <- Eg, <- Em; symmetry; by apply pass2_inner).
    clearbody m1. rewrite El, fold_left_app in Em. cbn [fold_left] in Em.
    set (s := fold_left (pass2_step heqb keqb sim cfg ta tb opa idx) l1 m1) in *.
    set (s' := pass2_step heqb keqb sim cfg ta tb opa idx s x) in *.
    assert (get_b s p = Some q) as Eg2 by (unfold s; by rewrite pass2_inner).
    assert (grown R s' m) as G3 by (rewrite <- Em; apply fold2_grown).
    assert (grown R s m) as G4 by (eapply grown_trans; [apply pass2_grown|exact G3]).
    assert (exists b, get_b s' x = Some b) as [b Eb].
    { unfold s', pass2_step. rewrite (grown_free_a s m x G4 Nx). cbn [orb]. replace (mem x opa) with false by (symmetry; by apply mem_false).
      rewrite Hlx. cbn [length Nat.eqb negb]. unfold matched_parent_b. rewrite Epx, Eg2.
      destruct (leaf_candidate heqb keqb sim cfg ta tb s x q) as [b|] eqn:Ep.
      { exists b. rewrite get_b_add. by rewrite Nat.eqb_refl. }
      exfalso. revert Ep. unfold leaf_candidate.
      destruct (find (fun b => Nat.eqb (t_position tb b) (t_position ta x) && heqb (t_hash tb b) (t_hash ta x)) _); [done|].
      destruct (find (fun b => heqb (t_hash tb b) (t_hash ta x)) _) as [|] eqn:F; [done|]. exfalso. revert F.
      eapply (find_ne _ _ y); [|done]. apply lfilter_elem. split; [done|]. rewrite (grown_free_b s m y G4 Ny), Hly. by rewrite Hk. }
    rewrite (grown_get_b _ _ _ _ _ G3 Eb) in Nx. done.
  Qed.

  Lemma leaf_global_finds m a l best y : y ∈ l -> contains_b m y = false -> t_children tb y = [] ->
    ancestry_compatible ta tb m a y = true ->
    heqb (t_hash tb y) (t_hash ta a) = true \/ ge_thr cfg (sim (t_props ta a) (t_props tb y)) = true ->
    leaf_global heqb sim cfg ta tb m a l best <> None.
  Proof.
    intros Hin Cy Hl Ha Hs.
    assert (forall l b, leaf_global heqb sim cfg ta tb m a l (Some b) <> None) as HS.
    { clear. induction l as [|x l IH]; intros b; cbn [leaf_global]; [done|].
      destruct (contains_b m x); [apply IH|]. destruct (negb _); [apply IH|]. destruct (negb _); [apply IH|].
      destruct (heqb _ _); [done|apply IH]. }
    destruct best as [b|]; [apply HS|]. induction l as [|x l IH]; [inversion Hin|]. cbn [leaf_global].
    apply elem_of_cons in Hin as [<-|Hin].
    - rewrite Cy, Hl, Ha. cbn [length Nat.eqb negb]. destruct (heqb (t_hash tb y) (t_hash ta a)) eqn:Eh; [done|].
      destruct Hs as [Hs|Hs]; [congruence|]. rewrite Hs. apply HS.
    - specialize (IH Hin). destruct (contains_b m x); [done|]. destruct (negb _); [done|]. destruct (negb _); [done|].
      destruct (heqb (t_hash tb x) (t_hash ta a)); [done|]. destruct (ge_thr cfg (sim (t_props ta a) (t_props tb x))); [apply HS|done].
  Qed.

  Hypothesis PB : presents tb rb.

  Lemma no_missed_far m x y : compute_matching heqb keqb sim cfg ta tb = Val m ->
    x ∈ preorder ra -> y ∈ preorder rb -> x ∉ opaque_descendants ta -> y ∉ opaque_descendants tb ->
    (forall p, t_parent ta x = Some p -> get_b m p = None) ->
    (forall p q, t_parent tb y = Some q -> get_a m q = Some p -> x ∈ t_desc ta p) ->
    t_children ta x = [] -> t_children tb y = [] ->
    keqb (t_kind tb y) (t_kind ta x) = true -> heqb (t_hash tb y) (t_hash ta x) = true \/ alike x y ->
    get_b m x = None -> get_a m y = None -> False.
  Proof.
    unfold compute_matching. destruct (top_down heqb keqb cfg ta tb m_empty) as [m0|] eqn:E0; [|done]. intros [= Em].
    intros Hx Hy Hox Hoy Hpx Hpy Hlx Hly Hk Hs Nx Ny. rewrite <- (pr_iter _ _ PA) in Hx. rewrite <- (pr_iter _ _ PB) in Hy.
    apply elem_of_list_split in Hx as (l1 & l2 & El).
    unfold bottom_up in Em. set (opa := opaque_descendants ta) in *. set (idx := b_index tb m0 (opaque_descendants tb)) in *.
    set (m1 := fold_left (pass1_step keqb sim cfg ta tb opa idx) (t_iter ta) m0) in *.
    assert (grown R m0 m1) as G1 by apply fold1_grown.
    clearbody m1. rewrite El, fold_left_app in Em. cbn [fold_left] in Em.
    set (s := fold_left (pass2_step heqb keqb sim cfg ta tb opa idx) l1 m1) in *.
    set (s' := pass2_step heqb keqb sim cfg ta tb opa idx s x) in *.
    assert (grown R s' m) as G3 by (rewrite <- Em; apply fold2_grown).
    assert (grown R s m) as G4 by (eapply grown_trans; [apply pass2_grown|exact G3]).
    assert (grown R m0 m) as G5 by (eapply grown_trans; [exact G1|]; eapply grown_trans; [apply fold2_grown|exact G4]).
    assert (exists b, get_b s' x = Some b) as [b Eb].
    { unfold s', pass2_step. rewrite (grown_free_a s m x G4 Nx). cbn [orb]. replace (mem x opa) with false by (symmetry; by apply mem_false).
      rewrite Hlx. cbn [length Nat.eqb negb].
      assert (matched_parent_b ta s x = None) as Emp.
      { unfold matched_parent_b. destruct (t_parent ta x) as [p|] eqn:Ep; [|done]. apply contains_a_false. eapply grown_free_a; [exact G4|by apply Hpx]. }
      rewrite Emp. destruct (leaf_global heqb sim cfg ta tb s x (by_kind keqb tb idx (t_kind ta x)) None) as [b|] eqn:Ep.
      { exists b. rewrite get_b_add. by rewrite Nat.eqb_refl. }
      exfalso. revert Ep. apply (leaf_global_finds s x _ None y); [|by apply (grown_free_b s m)|done| |].
      - unfold by_kind, idx, b_index. apply lfilter_elem. split; [|done]. apply lfilter_elem. split; [done|].
        rewrite (grown_free_b m0 m y G5 Ny). cbn [negb andb]. replace (mem y _) with false by (symmetry; by apply mem_false). done.
      - unfold ancestry_compatible. unfold matched_parent_b in Emp.
        destruct (t_parent ta x) as [p|]; [rewrite Emp|]; (destruct (t_parent tb y) as [q|]; [|done]); (destruct (get_a s q) as [p'|] eqn:Eq; [|done]);
          apply mem_true; (apply (Hpy p' q); [done|]); by apply (grown_get_a R s m).
      - destruct Hs as [Hs|Hs]; [by left|right; by apply alike_ge_thr]. }
    rewrite (grown_get_b _ _ _ _ _ G3 Eb) in Nx. done.
  Qed.

  Lemma dice_best_finds m idx a y : y ∈ idx -> keqb (t_kind tb y) (t_kind ta a) = true -> contains_b m y = false ->
    t_children tb y <> [] -> ancestry_compatible ta tb m a y = true ->
    ge_thr cfg (sim (t_props ta a) (t_props tb y)) = true -> ge_thr cfg (dice ta tb m a y) = true ->
    dice_best keqb sim cfg ta tb m idx a <> None.
  Proof.
    intros Hin Hk Cy Hc Ha Hs Hd. unfold dice_best.
    assert (forall l b, fold_left (dice_step sim cfg ta tb m a) l (Some b) <> None) as HS.
    { clear. induction l as [|x l IH]; intros b; cbn [fold_left]; [done|]. unfold dice_step at 2.
      destruct (contains_b m x); [apply IH|]. destruct (Nat.eqb _ 0); [apply IH|]. destruct (negb _); [apply IH|].
      destruct (negb _); [apply IH|]. destruct (_ && _); apply IH. }
    assert (y ∈ by_kind keqb tb idx (t_kind ta a)) as Hy by (unfold by_kind; by apply lfilter_elem).
    revert Hy. generalize (by_kind keqb tb idx (t_kind ta a)). intros l Hy.
    induction l as [|x l IH]; [inversion Hy|]. cbn [fold_left]. apply elem_of_cons in Hy as [<-|Hy].
    - unfold dice_step at 2. rewrite Cy, Ha, Hs, Hd. destruct (Nat.eqb_spec (length (t_children tb y)) 0) as [E|_]; [by apply nil_length_inv in E|].
      cbn [negb andb]. apply HS.
    - destruct (dice_step sim cfg ta tb m a None x) as [b|]; [apply HS|by apply IH].
  Qed.

  Lemma shared_mono l l' a b : (forall p, p ∈ l -> p ∈ l') -> shared l a b <= shared l' a b.
  Proof.
    intros Hl. unfold shared. induction (t_desc ta a) as [|x d IH]; [done|]. cbn [List.filter].
    match goal with |- length (if ?f then _ else _) <= length (if ?g then _ else _) => destruct f eqn:Ef, g eqn:Eg end; cbn [length]; try lia.
    exfalso. apply not_true_iff_false in Eg. apply Eg. apply existsb_exists in Ef as (y & Hy & Ef). apply existsb_exists. exists y. split; [done|].
    apply existsb_exists in Ef as (p & Hp & Ef). apply existsb_exists. exists p. split; [|done]. apply elem_of_list_In, Hl. by apply elem_of_list_In.
  Qed.

  Lemma no_missed_content m m0 x y : top_down heqb keqb cfg ta tb m_empty = Some m0 -> compute_matching heqb keqb sim cfg ta tb = Val m ->
    x ∈ preorder ra -> y ∈ preorder rb -> x ∉ opaque_descendants ta -> y ∉ opaque_descendants tb ->
    parents_agree (m_pairs m) x y -> t_children tb y <> [] ->
    keqb (t_kind tb y) (t_kind ta x) = true -> alike x y ->
    thr_num cfg * (length (t_desc ta x) + length (t_desc tb y)) <= 2 * shared (m_pairs m0) x y * thr_den cfg ->
    get_b m x = None -> get_a m y = None -> False.
  Proof.
    intros E0 Em. pose proof (compute_matching_bijection _ _ _ _ _ _ _ Em) as BM. unfold compute_matching in Em. rewrite E0 in Em. injection Em as Em.
    intros Hx Hy Hox Hoy [PG1 PG2] Hcy Hk Hs Hd Nx Ny. rewrite <- (pr_iter _ _ PA) in Hx. rewrite <- (pr_iter _ _ PB) in Hy.
    apply elem_of_list_split in Hx as (l1 & l2 & El).
    unfold bottom_up in Em. set (opa := opaque_descendants ta) in *. set (idx := b_index tb m0 (opaque_descendants tb)) in *.
    set (m1 := fold_left (pass1_step keqb sim cfg ta tb opa idx) (t_iter ta) m0) in *.
    assert (grown R m1 m) as G2 by (rewrite <- Em; apply fold2_grown).
    unfold m1 in G2. rewrite El, fold_left_app in G2. cbn [fold_left] in G2.
    set (s := fold_left (pass1_step keqb sim cfg ta tb opa idx) l1 m0) in *.
    set (s' := pass1_step keqb sim cfg ta tb opa idx s x) in *.
    assert (grown R s' m) as G3 by (eapply grown_trans; [apply fold1_grown|exact G2]).
    assert (grown R s m) as G4 by (eapply grown_trans; [apply pass1_grown|exact G3]).
    assert (grown R m0 s) as G0 by apply fold1_grown.
    assert (bijection s) as BS.
    { eapply reach_bijection, grown_reach; [exact G0|]. eapply grown_reach; [by apply top_down_grown|constructor]. }
    assert (exists b, get_b s' x = Some b) as [b Eb].
    { unfold s', pass1_step. rewrite (grown_free_a s m x G4 Nx). cbn [orb]. replace (mem x opa) with false by (symmetry; by apply mem_false).
      destruct (match matched_parent_b ta s x with Some pb => pos_candidate keqb sim cfg ta tb s x pb | None => None end) as [b|].
      { exists b. rewrite get_b_add. by rewrite Nat.eqb_refl. }
      destruct (dice_best keqb sim cfg ta tb s idx x) as [[b r]|] eqn:Ed.
      { exists b. rewrite get_b_add. by rewrite Nat.eqb_refl. }
      exfalso. revert Ed. apply (dice_best_finds s idx x y).
      - unfold idx, b_index. apply lfilter_elem. split; [done|]. rewrite (grown_free_b m0 m y (grown_trans _ _ _ _ G0 G4) Ny). cbn [negb andb].
        replace (mem y _) with false by (symmetry; by apply mem_false). done.
      - done.
      - by apply (grown_free_b s m).
      - done.
      - unfold ancestry_compatible. apply andb_true_iff. split.
        + destruct (t_parent ta x) as [p|]; [|done]. destruct (get_b s p) as [q|] eqn:Eq; [|done]. apply mem_true, (PG1 p q eq_refl).
          apply (bij_fwd _ BM). by apply (grown_get_b R s m).
        + destruct (t_parent tb y) as [q|]; [|done]. destruct (get_a s q) as [p|] eqn:Eq; [|done]. apply mem_true, (PG2 p q eq_refl).
          apply (bij_bwd _ BM). by apply (grown_get_a R s m).
      - by apply alike_ge_thr.
      - assert (shared (m_pairs m0) x y <= dice_common ta tb s x y) as Hsh.
        { rewrite (shared_pairs s x y BS). apply shared_mono. intros p. apply (grown_pairs R _ _ _ G0). }
        unfold dice, ge_thr. destruct (t_desc ta x) as [|u du] eqn:Ex, (t_desc tb y) as [|v dv] eqn:Ey; cbn [fst snd]; apply Nat.leb_le.
        + exfalso. apply Hcy. rewrite (pr_iter _ _ PB) in Hy. apply preorder_subt in Hy as (t & Ht & <-). by rewrite (pr_desc _ _ PB t Ht), preorder_eq in Ey.
        + nia.
        + nia.
        + nia. }
    rewrite (grown_get_b _ _ _ _ _ G3 Eb) in Nx. done.
  Qed.
End Reason.
