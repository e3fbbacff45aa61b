(** What an empty diff says about the two documents. *)
From stdpp Require Import list_numbers.
From Verif Require Import Base Arena Matching Chawathe Dom HtmlDiff ArenaProofs MatchProofs TreeProofs DtreeProofs
  DomTree BuildProofs DiffTotal AssembleProofs HashProofs ScriptProofs AttrProofs SelfProofs RestyleProofs RoundProofs Instances InstanceProofs.

(** A node of the new tree inside opaque content is matched only if its parent
    is matched to the parent of its partner. *)
Section Inside.
  Context {H K P T : Type}.
  Variable heqb : H -> H -> bool.
  Variable keqb : K -> K -> bool.
  Variable sim : P -> P -> ratio.
  Variable cfg : config.
  Variables ta tb : dtree H K P T.
  Variables ra rb : rose.
  Hypothesis PA : presents ta ra.
  Hypothesis PB : presents tb rb.

  Definition below_pair (m : matching) (x y : nat) : Prop :=
    exists pa pb, t_parent ta x = Some pa /\ get_b m pa = Some pb /\ y ∈ t_children tb pb.
  Definition inside_inv (m : matching) : Prop :=
    bijection m /\ forall x y, (x, y) ∈ m_pairs m -> y ∈ opaque_descendants tb -> below_pair m x y.

  Lemma below_pair_add m x y a b : contains_a m a = false -> below_pair m x y -> below_pair (m_add m a b) x y.
  Proof.
    intros Ca (pa & pb & H1 & H2 & H3). exists pa, pb. split; [done|]. split; [|done].
    rewrite get_b_add. destruct (Nat.eqb_spec a pa) as [->|_]; [|done].
    apply contains_a_false in Ca. congruence.
  Qed.

  Lemma inside_add m a b : inside_inv m -> contains_a m a = false -> contains_b m b = false ->
    (b ∈ opaque_descendants tb -> below_pair m a b) -> inside_inv (m_add m a b).
  Proof.
    intros [BJ HI] Ca Cb Hb. split; [by apply bijection_add|]. intros x y Hin Hy.
    cbn [m_add m_pairs] in Hin. apply elem_of_app in Hin as [Hin|Hin].
    - apply below_pair_add; [done|]. by apply HI.
    - apply elem_of_list_singleton in Hin as [= -> ->]. apply below_pair_add; [done|]. by apply Hb.
  Qed.

  Lemma top_down_outside m : top_down heqb keqb cfg ta tb m_empty = Some m -> inside_inv m.
  Proof.
    intros E.
    set (Q := fun a b : nat => b ∈ t_iter tb /\ b ∉ opaque_descendants tb).
    assert (reach Q m) as Hr.
    { apply (top_down_reach heqb keqb cfg ta tb Q Q Q) in E; try done.
      - split; [by eapply pr_root_iter|by eapply root_not_opaque_desc].
      - intros x y u v [Hx Hn] _ Ho Hu Hv. split.
        + by eapply (pr_child tb rb PB y).
        + by eapply (not_opaque_child tb rb PB y).
      - intros x y u v [Hx Hn] _ Ho Huv. apply combine_elem in Huv as [Hu Hv]. split.
        + by eapply (pr_child tb rb PB y).
        + by eapply (not_opaque_child tb rb PB y). }
    split; [by eapply reach_bijection|]. intros x y Hin Hy.
    destruct (reach_pairs Q m x y Hr Hin) as [_ Hn]. done.
  Qed.

  Lemma pass1_inside m idx a : (forall b, b ∈ idx -> b ∉ opaque_descendants tb) ->
    inside_inv m -> inside_inv (pass1_step keqb sim cfg ta tb (opaque_descendants ta) idx m a).
  Proof.
    intros Hidx Hm. unfold pass1_step.
    destruct (contains_a m a) eqn:Ca; simpl; [done|].
    destruct (mem a (opaque_descendants ta)) eqn:Oa; simpl; [done|].
    set (pos := match matched_parent_b ta m a with Some pb => _ | None => None end).
    assert (forall b, pos = Some b -> inside_inv (m_add m a b)) as Hpos.
    { intros b. subst pos. unfold matched_parent_b.
      destruct (t_parent ta a) as [pa|] eqn:Ep; [|done].
      destruct (get_b m pa) as [pb|] eqn:Eg; [|done].
      intros E. apply pos_candidate_some in E as (? & ? & ?).
      apply inside_add; auto. intros _. by exists pa, pb. }
    destruct pos as [b|]; [auto|].
    destruct (dice_best _ _ _ _ _ _ _ _) as [[b s]|] eqn:Ed.
    - apply dice_best_some in Ed as (Hb & ? & ?). apply inside_add; auto. intros Hin. by destruct (Hidx b Hb).
    - destruct (t_parent ta a); [done|].
      destruct (root_candidate _ _ _ _ _ _ _) as [b|] eqn:Er; [|done].
      apply root_candidate_some in Er as (Hb & ? & ?). apply inside_add; auto. intros Hin. by destruct (Hidx b Hb).
  Qed.

  Lemma pass2_inside m idx a : (forall b, b ∈ idx -> b ∉ opaque_descendants tb) ->
    inside_inv m -> inside_inv (pass2_step heqb keqb sim cfg ta tb (opaque_descendants ta) idx m a).
  Proof.
    intros Hidx Hm. unfold pass2_step.
    destruct (contains_a m a) eqn:Ca; simpl; [done|].
    destruct (mem a (opaque_descendants ta)) eqn:Oa; simpl; [done|].
    destruct (negb _); [done|]. unfold matched_parent_b.
    assert (forall b, leaf_global heqb sim cfg ta tb m a (by_kind keqb tb idx (t_kind ta a)) None = Some b ->
      inside_inv (m_add m a b)) as Hg.
    { intros b E. apply leaf_global_some in E as [?|[Hin ?]]; [done|].
      unfold by_kind in Hin. apply lfilter_elem in Hin as [Hb ?].
      apply inside_add; auto. intros Hin. by destruct (Hidx b Hb). }
    destruct (t_parent ta a) as [pa|] eqn:Ep.
    - destruct (get_b m pa) as [pb|] eqn:Eg.
      + destruct (leaf_candidate _ _ _ _ _ _ _ _ _) as [b|] eqn:E; [|done].
        apply leaf_candidate_some in E as (? & ? & ?).
        apply inside_add; auto. intros _. by exists pa, pb.
      + destruct (leaf_global _ _ _ _ _ _ _ _) eqn:E; auto.
    - destruct (leaf_global _ _ _ _ _ _ _ _) eqn:E; auto.
  Qed.

  Lemma compute_matching_inside m :
    compute_matching heqb keqb sim cfg ta tb = Val m -> inside_inv m.
  Proof.
    unfold compute_matching. destruct (top_down _ _ _ _ _ _) as [m0|] eqn:E; [|done]. intros [= <-].
    apply top_down_outside in E. unfold bottom_up.
    set (idx := b_index tb m0 (opaque_descendants tb)).
    assert (forall b, b ∈ idx -> b ∉ opaque_descendants tb) as Hidx.
    { intros b Hb. apply lfilter_elem in Hb as [_ Hb]. apply andb_true_iff in Hb as [_ Hb].
      by apply negb_true_iff, mem_false in Hb. }
    assert (forall (step : matching -> nat -> matching) l m,
      (forall m a, inside_inv m -> inside_inv (step m a)) ->
      inside_inv m -> inside_inv (fold_left step l m)) as Hfold.
    { intros step l. induction l as [|x l IH]; intros m1 Hs Hm; simpl; [done|]. apply IH; [done|]. by apply Hs. }
    apply Hfold; [intros; by apply pass2_inside|].
    apply Hfold; [intros; by apply pass1_inside|]. done.
  Qed.
End Inside.

(** An empty script: the nodes outside opaque content correspond one to one. *)
Section EmptyScript.
  Context {H : Type}.
  Variable heqb : H -> H -> bool.
  Variables ta tb : dtree H hkind attrs string.
  Variables ra rb : rose.
  Hypothesis PA : presents ta ra.
  Hypothesis PB : presents tb rb.
  Record good_matching (m : matching) : Prop := {
    gm_bij : bijection m;
    gm_root : get_b m (rid ra) = Some (rid rb);
    gm_node : forall x y, get_b m x = Some y ->
      x ∈ t_iter ta /\ y ∈ t_iter tb /\ x ∉ opaque_descendants ta /\ t_kind ta x = t_kind tb y;
    gm_inside : forall x y, get_b m x = Some y -> y ∈ opaque_descendants tb -> below_pair ta tb m x y
  }.

  Variable m : matching.
  Hypothesis EM : html_matching heqb ta tb = Val m.
  Hypothesis NC : no_collision heqb ta tb.
  Hypothesis ES : html_edit_script ta tb m = [].
  Hypothesis RPB : exists p, t_parent tb (rid rb) = Some p.

  Lemma no_phase1 p : p ∈ m_pairs m ->
    phase1 String.eqb props_empty props_diff any_different (@length prop_change) (@length attr) ta tb
      (opaque_descendants ta) (opaque_descendants tb) p = ([] : list hop).
  Proof.
    intros Hp. destruct (phase1 _ _ _ _ _ _ _ _ _ _ p) as [|op l] eqn:E; [done|]. exfalso.
    assert (op ∈ html_edit_script ta tb m) as Hin; [|rewrite ES in Hin; by apply elem_of_nil in Hin].
    unfold html_edit_script, generate_edit_script, edit_script_with. apply elem_of_app. left.
    apply elem_flat_map. exists p. rewrite E. split; [done|left].
  Qed.
  Lemma no_insert y : y ∈ t_iter tb -> y ∉ opaque_descendants tb -> exists x, get_a m y = Some x.
  Proof.
    intros Hy Ho. destruct (get_a m y) as [x|] eqn:Ex; [by exists x|]. exfalso.
    assert (exists p, t_parent tb y = Some p) as (p & Hp).
    { destruct (decide (y = t_root tb)) as [->|Hne]; [by rewrite (pr_root _ _ PB)|].
      destruct (pr_nonroot tb rb PB y Hy Hne) as (p & Hp & _). by exists p. }
    assert (Insert y p (t_position tb y) (t_kind tb y) ∈ html_edit_script ta tb m) as Hin;
      [|rewrite ES in Hin; by apply elem_of_nil in Hin].
    unfold html_edit_script, generate_edit_script, edit_script_with. apply elem_of_app. right. apply elem_of_app. left.
    apply elem_flat_map. exists y. split; [done|]. unfold phase2. rewrite (proj2 (contains_b_false m y) Ex), Hp.
    apply mem_false in Ho. rewrite Ho. left.
  Qed.
  Lemma no_delete x : x ∈ t_iter ta -> x ∉ opaque_descendants ta -> exists y, get_b m x = Some y.
  Proof.
    intros Hx Ho. destruct (get_b m x) as [y|] eqn:Ey; [by exists y|]. exfalso.
    assert (Delete x ∈ html_edit_script ta tb m) as Hin; [|rewrite ES in Hin; by apply elem_of_nil in Hin].
    unfold html_edit_script, generate_edit_script, edit_script_with.
    apply elem_of_app. right. apply elem_of_app. right. apply elem_of_app. right.
    apply elem_flat_map. exists x. split; [by eapply pr_post_iter|]. unfold phase5.
    rewrite (proj2 (contains_a_false m x) Ey). apply mem_false in Ho. rewrite Ho. left.
  Qed.
  Lemma no_move x y pa pb : (x, y) ∈ m_pairs m -> x ∉ opaque_descendants ta -> y ∉ opaque_descendants tb ->
    t_parent ta x = Some pa -> t_parent tb y = Some pb ->
    get_b m pa = Some pb /\ t_position ta x = t_position tb y.
  Proof.
    intros Hin Ha Hb Pa Pb.
    assert (~ exists op, op ∈ phase4 ta tb m (opaque_descendants ta) (opaque_descendants tb) (x, y) (T := string)
                         (C := list prop_change)) as HN.
    { intros (op & Hop). assert (op ∈ html_edit_script ta tb m) as Hs; [|rewrite ES in Hs; by apply elem_of_nil in Hs].
      unfold html_edit_script, generate_edit_script, edit_script_with.
      apply elem_of_app. right. apply elem_of_app. right. apply elem_of_app. left.
      apply elem_flat_map. by exists (x, y). }
    unfold phase4 in HN. apply mem_false in Ha, Hb. rewrite Ha, Hb, Pa, Pb in HN. cbn [orb] in HN.
    destruct (get_b m pa) as [z|].
    - destruct (Nat.eqb_spec z pb) as [Ez|_]; cbn [negb] in HN.
      + destruct (Nat.eqb_spec (t_position ta x) (t_position tb y)) as [Ep|_]; cbn [negb] in HN; [by rewrite Ez|].
        exfalso. apply HN. eexists. left.
      + exfalso. apply HN. eexists. left.
    - exfalso. apply HN. eexists. left.
  Qed.

  Lemma root_b_outside : rid rb ∉ opaque_descendants tb.
  Proof. rewrite <- (pr_root _ _ PB). by eapply root_not_opaque_desc. Qed.
  Lemma root_a_outside : rid ra ∉ opaque_descendants ta.
  Proof. rewrite <- (pr_root _ _ PA). by eapply root_not_opaque_desc. Qed.

  Lemma empty_good : good_matching m.
  Proof.
    pose proof EM as E. unfold html_matching in E.
    destruct (compute_matching heqb hkind_eqb props_sim diff_config ta tb) as [m0| | |] eqn:E0; try done.
    cbn [obind] in E.
    destruct (compute_matching_inside heqb hkind_eqb props_sim diff_config ta tb rb PB m0 E0) as [B0 I0].
    assert (forall x y, get_b m0 x = Some y ->
      x ∈ t_iter ta /\ y ∈ t_iter tb /\ x ∉ opaque_descendants ta /\ t_kind ta x = t_kind tb y) as N0.
    { intros x y Hxy. apply (bij_fwd _ B0) in Hxy.
      destruct (compute_matching_iter heqb _ _ _ ta tb ra rb PA PB m0 x y E0 Hxy) as [G1 G2].
      split; [done|]. split; [done|]. split.
      - by eapply (compute_matching_not_opaque heqb hkind_eqb props_sim diff_config ta tb ra PA m0 x y).
      - apply (compute_matching_kinds heqb hkind_eqb props_sim diff_config ta tb ra rb PA PB m0 x y NC); [|done|done].
        intros ? ?. apply hkind_eqb_eq. }
    assert (forall p, p ∈ m_pairs m0 -> p ∈ m_pairs m) as Hsub.
    { intros p Hp. destruct (_ && _); injection E as <-; [|done]. cbn [m_add m_pairs]. apply elem_of_app. by left. }
    assert (forall x pa, (x, rid rb) ∈ m_pairs m -> x ∉ opaque_descendants ta -> t_parent ta x = Some pa ->
      exists p, get_b m pa = Some p /\ p ∉ t_iter tb) as Hr.
    { intros x pa Hin Ho Hpa. destruct RPB as (p & Hp).
      destruct (no_move x (rid rb) pa p Hin Ho root_b_outside Hpa Hp) as [Hm _].
      exists p. split; [done|]. rewrite (pr_iter _ _ PB). by eapply pr_root_parent. }
    assert (forall x, get_a m0 (rid rb) = Some x -> x = rid ra) as Hroot.
    { intros x Hx. apply (bij_bwd _ B0) in Hx. destruct (decide (x = rid ra)) as [|Hne]; [done|]. exfalso.
      pose proof Hx as Hx'. apply (bij_fwd _ B0) in Hx'. destruct (N0 _ _ Hx') as (G1 & _ & G3 & _).
      rewrite <- (pr_root _ _ PA) in Hne. destruct (pr_nonroot ta ra PA x G1 Hne) as (pa & Hpa & Hpi & _).
      destruct (Hr x pa (Hsub _ Hx) G3 Hpa) as (p & Hp & Hn).
      destruct (_ && _) in E; injection E as <-.
      - rewrite get_b_add in Hp. destruct (Nat.eqb _ pa); [injection Hp as <-; apply Hn; by eapply pr_root_iter|].
        destruct (N0 _ _ Hp) as (_ & ? & _). done.
      - destruct (N0 _ _ Hp) as (_ & ? & _). done. }
    assert (rid rb ∈ t_iter tb) as Rb by (rewrite <- (pr_root _ _ PB); by eapply pr_root_iter).
    assert (rid ra ∈ t_iter ta) as Ra by (rewrite <- (pr_root _ _ PA); by eapply pr_root_iter).
    pose proof (no_insert (rid rb) Rb root_b_outside) as NI.
    destruct (get_a m0 (rid rb)) as [x|] eqn:Ex.
    - pose proof (Hroot x eq_refl) as ->. apply (bij_bwd _ B0), (bij_fwd _ B0) in Ex.
      assert (contains_a m0 (t_root ta) = true) as Ec.
      { rewrite (pr_root _ _ PA). apply contains_a_true. by eexists. }
      rewrite Ec, andb_false_r in E. injection E as <-. split; try done.
      intros x y Hxy Hy. apply I0; [|done]. by apply (bij_fwd _ B0).
    - destruct (_ && _) eqn:Ec in E; injection E as <-.
      + apply andb_true_iff in Ec as [Ek Ec]. apply negb_true_iff in Ec. apply hkind_eqb_eq in Ek.
        rewrite (pr_root _ _ PA), (pr_root _ _ PB) in *. split.
        * apply bijection_add; [done|done|]. by apply contains_b_false.
        * by rewrite get_b_add, Nat.eqb_refl.
        * intros x y. rewrite get_b_add. destruct (Nat.eqb_spec (rid ra) x) as [<-|]; [|apply N0].
          intros [= <-]. split; [done|]. split; [done|]. split; [apply root_a_outside|done].
        * intros x y. rewrite get_b_add. destruct (Nat.eqb_spec (rid ra) x) as [<-|].
          -- intros [= <-] Hin. by destruct root_b_outside.
          -- intros Hxy Hy. apply below_pair_add; [done|]. apply I0; [|done]. by apply (bij_fwd _ B0).
      + exfalso. destruct NI as (x & Hx). congruence.
  Qed.

  Lemma opaque_child_inv x c : x ∈ t_iter tb -> x ∉ opaque_descendants tb -> t_opaque tb x = false ->
    c ∈ t_children tb x -> c ∉ opaque_descendants tb.
  Proof. apply (not_opaque_child tb rb PB). Qed.

  (** The children of a matched pair, neither of which is opaque, are matched in order. *)
  Lemma empty_children x y : get_b m x = Some y -> y ∉ opaque_descendants tb ->
    t_opaque ta x = false -> t_opaque tb y = false ->
    Forall2 (fun c d => get_b m c = Some d /\ d ∉ opaque_descendants tb) (t_children ta x) (t_children tb y).
  Proof.
    intros Hxy Hy Oa Ob. pose proof empty_good as [BJ GR GN GI].
    destruct (GN _ _ Hxy) as (Xi & Yi & Xo & _).
    assert (forall k c, t_children ta x !! k = Some c ->
      exists d, t_children tb y !! k = Some d /\ get_b m c = Some d /\ d ∉ opaque_descendants tb) as H1.
    { intros k c Hc. pose proof (elem_of_list_lookup_2 _ _ _ Hc) as Hci.
      destruct (pr_child ta ra PA x c Xi Hci) as [Ci Cp].
      pose proof (not_opaque_child ta ra PA x c Xi Xo Oa Hci) as Co.
      destruct (no_delete c Ci Co) as (d & Hd). destruct (GN _ _ Hd) as (_ & Di & _ & _).
      assert (d ∉ opaque_descendants tb) as Do.
      { intros Hin. destruct (GI _ _ Hd Hin) as (pa & pb & Hpa & Hpb & Hdc).
        assert (pa = x) as -> by congruence. assert (pb = y) as -> by congruence.
        by apply (not_opaque_child tb rb PB y d Yi Hy Ob Hdc). }
      exists d. split; [|done].
      destruct (decide (d = t_root tb)) as [->|Hne].
      - exfalso. rewrite (pr_root _ _ PB) in Hd. apply (bij_fwd _ BJ), (bij_bwd _ BJ) in Hd, GR.
        rewrite Hd in GR. injection GR as ->. apply (pr_root_parent _ _ PA) in Cp. apply Cp. by rewrite <- (pr_iter _ _ PA).
      - destruct (pr_nonroot tb rb PB d Di Hne) as (pb & Hpb & _ & Hl).
        destruct (no_move c d x pb) as [M1 M2]; try done; [by apply (bij_fwd _ BJ)|].
        assert (pb = y) as -> by congruence. rewrite <- M2 in Hl.
        by rewrite (pr_child_pos ta ra PA x k c Xi Hc) in Hl. }
    assert (forall k d, t_children tb y !! k = Some d -> exists c, t_children ta x !! k = Some c) as H2.
    { intros k d Hd. pose proof (elem_of_list_lookup_2 _ _ _ Hd) as Hdi.
      destruct (pr_child tb rb PB y d Yi Hdi) as [Di Dp].
      pose proof (not_opaque_child tb rb PB y d Yi Hy Ob Hdi) as Do.
      destruct (no_insert d Di Do) as (c & Hc). apply (bij_bwd _ BJ) in Hc. pose proof Hc as Hcd.
      apply (bij_fwd _ BJ) in Hcd. destruct (GN _ _ Hcd) as (Ci & _ & Co & _).
      destruct (decide (c = t_root ta)) as [->|Hne].
      - exfalso. rewrite (pr_root _ _ PA) in Hcd. assert (d = rid rb) as -> by congruence.
        apply (pr_root_parent _ _ PB) in Dp. apply Dp. by rewrite <- (pr_iter _ _ PB).
      - destruct (pr_nonroot ta ra PA c Ci Hne) as (pa & Hpa & _ & Hl).
        destruct (no_move c d pa y) as [M1 M2]; try done.
        assert (pa = x) as ->.
        { apply (bij_fwd _ BJ), (bij_bwd _ BJ) in M1, Hxy. congruence. }
        exists c. rewrite M2 in Hl. by rewrite (pr_child_pos tb rb PB y k d Yi Hd) in Hl. }
    apply Forall2_same_length_lookup_2.
    - apply Nat.le_antisymm; apply Nat.nlt_ge; intros Hlt.
      + destruct (lookup_lt_is_Some_2 _ _ Hlt) as [c Hc]. destruct (H1 _ _ Hc) as (d & Hd & _).
        apply lookup_lt_Some in Hd. lia.
      + destruct (lookup_lt_is_Some_2 _ _ Hlt) as [d Hd]. destruct (H2 _ _ Hd) as (c & Hc).
        apply lookup_lt_Some in Hc. lia.
    - intros k c d Hc Hd. destruct (H1 _ _ Hc) as (d' & Hd' & ?). congruence.
  Qed.

  (** Matched nodes carry the same text and attributes. *)
  Lemma empty_data x y : get_b m x = Some y -> y ∉ opaque_descendants tb ->
    (t_text tb y = None -> t_text ta x = None) ->
    t_text ta x = t_text tb y /\
    (NoDup (keys (t_props ta x)) -> NoDup (keys (t_props tb y)) -> t_props ta x = t_props tb y).
  Proof.
    intros Hxy Hy HT. pose proof empty_good as [BJ GR GN GI].
    destruct (GN _ _ Hxy) as (Xi & Yi & Xo & _). apply (bij_fwd _ BJ) in Hxy.
    pose proof (no_phase1 _ Hxy) as Hp. unfold phase1 in Hp. apply mem_false in Xo, Hy. rewrite Xo, Hy in Hp. cbn [orb] in Hp.
    apply app_eq_nil in Hp as [P1 P2]. split.
    - destruct (t_text tb y) as [s|]; [|by apply HT]. destruct (t_text ta x) as [s'|]; [|done]. cbn [otext_eqb] in P1.
      destruct (String.eqb_spec s' s) as [->|]; done.
    - intros N1 N2. destruct (props_empty (t_props ta x) && props_empty (t_props tb y)) eqn:Ee.
      + apply andb_true_iff in Ee as [E1 E2]. destruct (t_props ta x), (t_props tb y); done.
      + destruct (_ || _) eqn:Ed; [done|]. apply orb_false_iff in Ed as [D1 D2]. apply Nat.ltb_ge in D2.
        by apply no_update_equal.
  Qed.
  Lemma empty_root : t_props ta (rid ra) = [] -> t_props tb (rid rb) = [].
  Proof.
    intros HE. pose proof empty_good as [BJ GR GN GI]. pose proof GR as Hxy. apply (bij_fwd _ BJ) in Hxy.
    pose proof (no_phase1 _ Hxy) as Hp. unfold phase1 in Hp. pose proof root_a_outside as Xo. pose proof root_b_outside as Hy.
    apply mem_false in Xo, Hy. rewrite Xo, Hy in Hp. cbn [orb] in Hp.
    apply app_eq_nil in Hp as [P1 P2]. rewrite HE in P2. destruct (t_props tb (rid rb)) as [|[k v] l]; [done|].
    cbn [props_empty andb] in P2. rewrite props_diff_nil in P2. cbn in P2. done.
  Qed.
End EmptyScript.

(** Every operation gives at least one patch. *)
Section Emits.
  Context {H : Type}.
  Lemma reparent_grows l par pos : forall s s', reparent_loop l par pos s = Val s' -> length (cs_out s) <= length (cs_out s').
  Proof.
    induction l as [|[i c] l IH]; intros s s'; cbn [reparent_loop]; [by intros [= <-]|].
    destruct (compute_path _ _); [|done|done|done]. cbn [obind].
    destruct (detach_with_placeholder _ _) as [sh1| | |]; [|done|done|done]. cbn [obind].
    destruct (match children (sh_arena sh1) par !! (pos + 1 + i) with Some _ => _ | None => _ end); [|done|done|done]. cbn [obind].
    destruct (ref_with_position _ _ _); [|done|done|done]. cbn [obind]. intros E. apply IH in E.
    cbn [emit cs_out] in E. rewrite app_length in E. cbn in E. lia.
  Qed.
  Lemma convert_op_grows (tb : dtree H hkind attrs string) ins s op s' :
    convert_op tb ins s op = Val s' -> length (cs_out s) < length (cs_out s').
  Proof.
    assert (forall (l : list patch) p, length l < length (l ++ [p])) as HL by (intros; rewrite app_length; cbn; lia).
    destruct op as [a b ch|b pb pos k|a|a b pb pos|a b st]; cbn [convert_op]; intros E.
    - destruct (compute_path _ _); [|done|done|done]. injection E as <-. apply HL.
    - destruct (shadow_parent _ _); [|done|done|done]. cbn [obind] in E.
      destruct (new_node _ _) as [a1 n]. destruct (sh_insert _ _ _ _) as [[sh1 slot]| | |]; [|done|done|done]. cbn [obind] in E.
      destruct (ref_with_position _ _ _); [|done|done|done]. cbn [obind] in E.
      destruct (match k with KElem _ _ => _ | KText => _ | KComment => _ end); [|done|done|done]. cbn [obind] in E.
      injection E as <-. apply HL.
    - destruct (compute_path _ _); [|done|done|done]. cbn [obind] in E.
      destruct (detach_with_placeholder _ _); [|done|done|done]. injection E as <-. apply HL.
    - destruct (shadow_parent _ _) as [n| | |]; [|done|done|done]. cbn [obind] in E.
      destruct (sh_is_ancestor _ _ _) as [anc| | |]; [|done|done|done]. cbn [obind] in E.
      assert (exists s1, length (cs_out s) <= length (cs_out s1) /\
        (let! from := compute_path (cs_shadow s1) a in
         let! (sh2, slot) := sh_move (cs_shadow s1) a n pos in
         let! to := ref_with_position sh2 n pos in
         Val (mkCS sh2 (slot_set (cs_b2s s1) b a) (cs_out s1 ++ [PMove from to slot]))) = Val s') as (s1 & HG & E1).
      { destruct anc.
        - destruct (oget _) as [par| | |]; [|done|done|done]. cbn [obind] in E.
          destruct (reparent_loop _ _ _ _) as [s1| | |] eqn:Er; [|done|done|done]. exists s1. split; [by eapply reparent_grows|done].
        - exists s. split; [lia|done]. }
      destruct (compute_path _ _); [|done|done|done]. cbn [obind] in E1.
      destruct (sh_move _ _ _ _) as [[sh2 slot]| | |]; [|done|done|done]. cbn [obind] in E1.
      destruct (ref_with_position _ _ _); [|done|done|done]. injection E1 as <-. cbn [cs_out]. rewrite app_length. cbn. lia.
    - destruct (compute_path _ _); [|done|done|done]. injection E as <-. apply HL.
  Qed.
  Lemma convert_loop_grows (tb : dtree H hkind attrs string) ins ops : forall s s',
    convert_loop tb ins s ops = Val s' -> length (cs_out s) + length ops <= length (cs_out s').
  Proof.
    induction ops as [|op ops IH]; intros s s'; cbn [convert_loop length]; [intros [= <-]; lia|].
    destruct (convert_op _ _ _ _) as [s1| | |] eqn:E1; [|done|done|done]. cbn [obind]. intros E.
    apply IH in E. apply convert_op_grows in E1. lia.
  Qed.
  (** At least as many patches as operations. *)
  Lemma convert_ops_grows ops t (tb : dtree H hkind attrs string) m ps :
    convert_ops ops t tb m = Val ps -> length ops <= length ps.
  Proof.
    unfold convert_ops. destruct (shadow_new t 0) as [sh| | |]; [|done|done|done]. cbn [obind].
    destruct (convert_loop _ _ _ _) as [s| | |] eqn:E; [|done|done|done]. intros [= <-].
    apply convert_loop_grows in E. cbn [cs_out length] in E. lia.
  Qed.
End Emits.

(** The same trees but for attributes. *)
Inductive same_skeleton : htree -> htree -> Prop :=
| sk_text s : same_skeleton (HText s) (HText s)
| sk_comment s : same_skeleton (HComment s) (HComment s)
| sk_elem tag ns l l' cs cs' :
    Forall2 same_skeleton cs cs' -> same_skeleton (HElem tag ns l cs) (HElem tag ns l' cs').
(** The same trees but for attributes inside opaque elements. *)
Inductive same_page : htree -> htree -> Prop :=
| sp_text s : same_page (HText s) (HText s)
| sp_comment s : same_page (HComment s) (HComment s)
| sp_elem tag ns l cs cs' :
    Forall2 same_page cs cs' -> same_page (HElem tag ns l cs) (HElem tag ns l cs')
| sp_opaque tag ns l cs cs' :
    existsb (fun kv => String.eqb (q_local (fst kv)) "data-hotmeal-opaque"%string) l = true ->
    Forall2 same_skeleton cs cs' -> same_page (HElem tag ns l cs) (HElem tag ns l cs').

Lemma holds_data a h j : holds a h j ->
  dkind tdata_of a j = hkind_of h /\ dtext tdata_of a j = td_text (tdata_of_h h) /\ dprops tdata_of a j = hattrs h /\
  holds_list a (hchildren h) (children a j).
Proof.
  unfold dkind, dtext, dprops. destruct h as [tag ns l cs|s|s]; intros Hh.
  - apply holds_elem in Hh as [-> Hh]. done.
  - cbn [holds] in Hh. destruct Hh as [Hk Hc]. rewrite Hc. unfold node_kind in Hk.
    destruct (data a j) as [[k ns]|]; [|done]. injection Hk as ->. repeat split; try done. constructor.
  - cbn [holds] in Hh. destruct Hh as [Hk Hc]. rewrite Hc. unfold node_kind in Hk.
    destruct (data a j) as [[k ns]|]; [|done]. injection Hk as ->. repeat split; try done. constructor.
Qed.
Lemma tholds_data t h i : tholds t h i ->
  dkind (fun d => d) t i = hkind_of h /\ dtext (fun d => d) t i = td_text (tdata_of_h h) /\
  dprops (fun d => d) t i = hattrs h /\ tholds_list t (hchildren h) (children t i).
Proof.
  intros Hh. apply tholds_eq in Hh as [Hd Hh]. unfold dkind, dtext, dprops. rewrite Hd. done.
Qed.

Section Trees.
  Context {H : Type}.
  Variable heqb : H -> H -> bool.
  Variables ta tb : dtree H hkind attrs string.
  Variables ra rb : rose.
  Hypothesis PA : presents ta ra.
  Hypothesis PB : presents tb rb.
  Variables (t : arena tdata) (a : arena dnode).
  Hypothesis TK : t_kind ta = dkind (fun d => d) t.
  Hypothesis TT : t_text ta = dtext (fun d => d) t.
  Hypothesis TP : t_props ta = dprops (fun d => d) t.
  Hypothesis TC : t_children ta = children t.
  Hypothesis TO : t_opaque ta = (fun i => is_opaque_props (dprops (fun d => d) t i)).
  Hypothesis AK : t_kind tb = dkind tdata_of a.
  Hypothesis AT : t_text tb = dtext tdata_of a.
  Hypothesis AP : t_props tb = dprops tdata_of a.
  Hypothesis AC : t_children tb = children a.
  Hypothesis AO : t_opaque tb = (fun i => is_opaque_props (dprops tdata_of a i)).
  Hypothesis FH : faithful_hashes heqb ta tb.

  Lemma skeleton_of_hash h : forall h' i j, tholds t h i -> holds a h' j -> i ∈ t_iter ta -> j ∈ t_iter tb ->
    heqb (t_hash ta i) (t_hash tb j) = true -> same_skeleton h h'.
  Proof.
    induction h as [s|s|tag ns l cs IH] using htree_ind'; intros h' i j Hi Hj Ii Ij Hh;
      destruct (FH i j Ii Ij Hh) as (F1 & F2 & F3);
      apply tholds_data in Hi as (D1 & D2 & D3 & D4); apply holds_data in Hj as (E1 & E2 & E3 & E4);
      rewrite TK, AK, D1, E1 in F1; rewrite TT, AT, D2, E2 in F2; rewrite TC, AC in F3.
    - destruct h' as [tag' ns' l' cs'|s'|s']; try discriminate F1. injection F2 as ->. constructor.
    - destruct h' as [tag' ns' l' cs'|s'|s']; try discriminate F1. injection F2 as ->. constructor.
    - destruct h' as [tag' ns' l' cs'|s'|s']; try discriminate F1. injection F1 as -> ->. constructor.
      cbn [hchildren] in D4, E4.
      assert (forall c, c ∈ children t i -> c ∈ t_iter ta) as I1.
      { intros c Hc. apply (pr_child ta ra PA i c Ii). by rewrite TC. }
      assert (forall c, c ∈ children a j -> c ∈ t_iter tb) as I2.
      { intros c Hc. apply (pr_child tb rb PB j c Ij). by rewrite AC. }
      clear -D4 E4 F3 I1 I2 IH. revert D4 E4 F3 I1 I2. generalize (children t i), (children a j). revert cs'.
      induction cs as [|c cs IHc]; intros cs' li lj D4 E4 F3 I1 I2.
      + inversion D4; subst. inversion F3; subst. inversion E4; subst. constructor.
      + inversion D4; subst. inversion F3; subst. inversion E4; subst. constructor.
        * eapply IH; [left|done|done|apply I1; left|apply I2; left|done].
        * eapply IHc; try done.
          -- intros c' Hc'. apply IH. by right.
          -- intros c' Hc'. apply I1. by right.
          -- intros c' Hc'. apply I2. by right.
  Qed.

  Variable m : matching.
  Hypothesis EM : html_matching heqb ta tb = Val m.
  Hypothesis ES : html_edit_script ta tb m = [].
  Hypothesis RPB : exists p, t_parent tb (rid rb) = Some p.
  Hypothesis EO : forall x y, (x, y) ∈ m_pairs m -> t_opaque tb y = true -> heqb (t_hash ta x) (t_hash tb y) = true.

  Lemma page_of_pair h : forall h' i j, nodup_attrs h -> nodup_attrs h' -> tholds t h i -> holds a h' j ->
    get_b m i = Some j -> j ∉ opaque_descendants tb -> same_page h h'.
  Proof.
    pose proof (faithful_no_collision _ _ _ FH) as NC.
    pose proof (empty_good heqb ta tb ra rb PA PB m EM NC ES RPB) as [BJ GR GN GI].
    induction h as [s|s|tag ns l cs IH] using htree_ind'; intros h' i j Ni Nj Hi Hj Hm Ho;
      destruct (GN _ _ Hm) as (Ii & Ij & _ & F1);
      pose proof (tholds_data _ _ _ Hi) as (D1 & D2 & D3 & D4); pose proof (holds_data _ _ _ Hj) as (E1 & E2 & E3 & E4);
      rewrite TK, AK, D1, E1 in F1;
      destruct (empty_data heqb ta tb ra rb PA PB m EM NC ES RPB i j Hm Ho) as [F2 F3];
      try (rewrite TT, AT, D2, E2; by destruct h');
      rewrite TT, AT, D2, E2 in F2; rewrite TP, AP, D3, E3 in F3;
      apply hall_eq in Ni as [Ni1 Ni2]; apply hall_eq in Nj as [Nj1 Nj2]; specialize (F3 Ni1 Nj1).
    - destruct h' as [tag' ns' l' cs'|s'|s']; try discriminate F1. injection F2 as ->. constructor.
    - destruct h' as [tag' ns' l' cs'|s'|s']; try discriminate F1. injection F2 as ->. constructor.
    - destruct h' as [tag' ns' l' cs'|s'|s']; try discriminate F1. injection F1 as -> ->.
      cbn in F3. subst l'. cbn [hchildren] in *.
      assert (t_opaque ta i = is_opaque_props l) as Oa by (by rewrite TO, D3).
      assert (t_opaque tb j = is_opaque_props l) as Ob by (by rewrite AO, E3).
      destruct (is_opaque_props l) eqn:El.
      + apply sp_opaque; [done|]. apply (bij_fwd _ BJ) in Hm. pose proof (EO i j Hm Ob) as Hh.
        pose proof (skeleton_of_hash _ _ i j Hi Hj Ii Ij Hh) as HS. by inversion HS.
      + apply sp_elem.
        pose proof (empty_children heqb ta tb ra rb PA PB m EM NC ES RPB i j Hm Ho Oa Ob) as HC.
        rewrite TC, AC in HC. clear -D4 E4 HC IH Ni2 Nj2. revert D4 E4 HC Ni2 Nj2. generalize (children t i), (children a j). revert cs'.
        induction cs as [|c cs IHc]; intros cs' li lj D4 E4 HC Ni2 Nj2.
        * inversion D4; subst. inversion HC; subst. inversion E4; subst. constructor.
        * inversion D4; subst. inversion HC as [|? ? ? ? [? ?]]; subst. inversion E4; subst. constructor.
          -- eapply IH; [left|apply Ni2; left|apply Nj2; left|done|done|done|done].
          -- eapply IHc; try done.
             ++ intros c' Hc'. apply IH. by right.
             ++ intros c' Hc'. apply Ni2. by right.
             ++ intros c' Hc'. apply Nj2. by right.
  Qed.
End Trees.

Lemma opaque_contents_inv {H} (heqb : H -> H -> bool) new (ta tb : dtree H hkind attrs string) l :
  opaque_contents heqb new ta tb l = Val [] ->
  forall x y, (x, y) ∈ l -> t_opaque tb y = true -> heqb (t_hash ta x) (t_hash tb y) = true.
Proof.
  induction l as [|[x y] l IH]; intros E x' y' Hin Ho; [by apply elem_of_nil in Hin|]. cbn [opaque_contents] in E.
  apply elem_of_cons in Hin as [[= -> ->]|Hin].
  - rewrite Ho in E. cbn [negb] in E. destruct (heqb (t_hash ta x) (t_hash tb y)); [done|].
    destruct (ofuel _); [|done|done|done]. cbn [obind] in E. by destruct (opaque_contents _ _ _ _ _).
  - destruct (negb (t_opaque tb y)); [by eapply IH|]. destruct (heqb (t_hash ta x) (t_hash tb y)); [by eapply IH|].
    destruct (ofuel _); [|done|done|done]. cbn [obind] in E. by destruct (opaque_contents _ _ _ _ _).
Qed.

Section Diff.
  Context {H : Type}.
  Variables (heqb : H -> H -> bool) (hcomb : hkind -> option string -> list H -> H) (h0 : H).

  Theorem empty_diff_inv (new : document) (olda : arena dnode) ob nb tag ns oats tag' ns' nats ts us :
    collision_free heqb hcomb -> wf olda -> wf (doc_arena new) ->
    holds olda (HElem tag ns oats ts) ob -> holds (doc_arena new) (HElem tag' ns' nats us) nb ->
    (exists p, parent (doc_arena new) nb = Some p) ->
    Forall nodup_attrs ts -> Forall nodup_attrs us ->
    diff_bodies heqb hcomb h0 new olda ob nb = Val [] ->
    tag = tag' /\ ns = ns' /\ nats = [] /\ Forall2 same_page ts us.
  Proof.
    intros CF WO WN HO HN HP ND ND' ED. apply holds_elem in HO as [DO HO]. pose proof HN as HN'. apply holds_elem in HN as [DN HN].
    destruct (build_tree_ok olda ob _ ts WO DO HO) as (t & Et & BT).
    destruct (built_tree t _ ts BT) as (ra & Hra & Hta & Hia).
    assert (0 < length t) as L0 by (eapply data_lt; apply BT).
    destruct (mk_dtree_presents hcomb h0 (fun d => d) t ra (bt_wf _ _ _ BT)) as (ta & Ea & PA); [by rewrite Hra|done|].
    destruct (tree_exists (doc_arena new) nb WN) as (rb & Hrb & Htb).
    destruct (mk_dtree_presents hcomb h0 tdata_of (doc_arena new) rb WN) as (tb & Eb & PB).
    { rewrite Hrb. by eapply data_lt. } { done. }
    assert (faithful_hashes heqb ta tb) as FH.
    { eapply (collision_free_faithful heqb hcomb h0 (fun d => d) tdata_of t (doc_arena new) ra rb); try done.
      - apply BT.
      - by rewrite Hra.
      - rewrite Hrb. by eapply data_lt. }
    rewrite Hra in Ea. rewrite Hrb in Eb.
    destruct (mk_dtree_fields _ _ _ _ _ _ Ea) as (A1 & A2 & A3 & A4 & A5 & A6 & A7 & A8 & A9).
    destruct (mk_dtree_fields _ _ _ _ _ _ Eb) as (B1 & B2 & B3 & B4 & B5 & B6 & B7 & B8 & B9).
    unfold diff_bodies in ED. rewrite Et in ED. cbn [obind] in ED. rewrite Ea in ED. cbn [obind] in ED.
    rewrite Eb in ED. cbn [obind] in ED.
    destruct (html_matching heqb ta tb) as [m| | |] eqn:EM; try done. cbn [obind] in ED.
    destruct (opaque_contents heqb new ta tb (m_pairs m)) as [oc| | |] eqn:EO; try done. cbn [obind] in ED.
    destruct (convert_ops _ _ _ _) as [ps| | |] eqn:EC; try done. cbn [obind] in ED.
    apply convert_ops_grows in EC.
    assert (oc = [] /\ ps = []) as [-> ->].
    { destruct oc as [|[x s] oc]; [by injection ED as ->|]. destruct (shadow_new t 0) as [sh| | |]; try done. cbn [obind] in ED.
      cbn [opaque_patches] in ED. destruct (compute_path sh x); try done. cbn [obind] in ED.
      destruct (opaque_patches sh oc); try done. injection ED as ED. by destruct ps. }
    assert (html_edit_script ta tb m = []) as ES by (destruct (html_edit_script ta tb m); [done|cbn in EC; lia]).
    pose proof (opaque_contents_inv _ _ _ _ _ EO) as EO'.
    assert (exists p, t_parent tb (rid rb) = Some p) as RPB by (by rewrite B5, Hrb).
    pose proof (faithful_no_collision _ _ _ FH) as NC.
    pose proof (empty_good heqb ta tb ra rb PA PB m EM NC ES RPB) as [BJ GR GN GI].
    assert (tholds t (HElem tag ns [] ts) (rid ra)) as Hh.
    { apply tholds_eq. rewrite Hra. split; [apply BT|apply (bt_holds _ _ _ BT)]. }
    rewrite <- Hrb in HN'.
    destruct (tholds_data _ _ _ Hh) as (D1 & D2 & D3 & D4). destruct (holds_data _ _ _ HN') as (E1 & E2 & E3 & E4).
    assert (nats = []) as ->.
    { assert (t_props tb (rid rb) = []) as HE.
      { apply (empty_root heqb ta tb ra rb PA PB m EM NC ES RPB). by rewrite A3, D3. }
      rewrite B3, E3 in HE. done. }
    assert (nodup_attrs (HElem tag ns [] ts)) as N1.
    { apply hall_eq. split; [constructor|]. intros c Hc. rewrite Forall_forall in ND. by apply ND. }
    assert (nodup_attrs (HElem tag' ns' [] us)) as N2.
    { apply hall_eq. split; [constructor|]. intros c Hc. rewrite Forall_forall in ND'. by apply ND'. }
    pose proof (page_of_pair heqb ta tb ra rb PA PB t (doc_arena new) A2 A4 A3 A6 A9 B2 B4 B3 B6 B9 FH m EM ES RPB EO'
      _ _ (rid ra) (rid rb) N1 N2 Hh HN' GR (root_b_outside tb rb PB)) as SP.
    inversion SP; subst; done.
  Qed.
End Diff.

(** Conversely, the same pages have an empty diff. *)
Section Converse.
  Context {H : Type}.
  Variables (heqb : H -> H -> bool) (hcomb : hkind -> option string -> list H -> H) (h0 : H).
  Hypothesis heqb_refl : forall h, heqb h h = true.

  Definition page_data (inside : nat -> Prop) (t : arena tdata) (a : arena dnode) (x y : nat) : Prop :=
    dkind (fun d => d) t x = dkind tdata_of a y /\ dtext (fun d => d) t x = dtext tdata_of a y /\
    (~ inside x -> dprops (fun d => d) t x = dprops tdata_of a y).

  Lemma alike_list {X Y} (P : X -> nat -> Prop) (Q : Y -> nat -> Prop) (S : X -> Y -> Prop) (A : rose -> rose -> Prop)
      cs cs' rs rs' :
    Forall2 S cs cs' -> Forall2 P cs (map rid rs) -> Forall2 Q cs' (map rid rs') ->
    (forall c c' r r', c ∈ cs -> r ∈ rs -> r' ∈ rs' -> S c c' -> P c (rid r) -> Q c' (rid r') -> A r r') ->
    Forall2 A rs rs'.
  Proof.
    intros HS. revert rs rs'. induction HS as [|c c' cs cs' Hc HS IH]; intros [|r rs] [|r' rs'] HP HQ HA;
      inversion HP; inversion HQ; subst; constructor.
    - apply (HA c c'); try done; left.
    - apply IH; try done. intros d d' s s' Hd Hs Hs'. apply HA; by right.
  Qed.

  Lemma alike_skeleton (inside : nat -> Prop) t a h : forall h' r r', same_skeleton h h' -> is_tree t r -> is_tree a r' ->
    tholds t h (rid r) -> holds a h' (rid r') -> (forall x, x ∈ preorder r -> inside x) ->
    alike (page_data inside t a) r r'.
  Proof.
    induction h as [s|s|tag ns l cs IH] using htree_ind'; intros h' [i rs] [j rs'] HS Ht Ht' Hh Hh' HI;
      apply is_tree_eq in Ht as [Hc Hts]; apply is_tree_eq in Ht' as [Hc' Hts']; cbn [rid] in *;
      apply tholds_data in Hh as (D1 & D2 & D3 & D4); apply holds_data in Hh' as (E1 & E2 & E3 & E4);
      inversion HS as [| |? ? ? ? ? ? HF]; subst; constructor.
    1,3,5: split; [by rewrite D1, E1|]; split; [by rewrite D2, E2|]; intros Hn; destruct Hn; apply HI; rewrite preorder_eq; left.
    1,2: cbn [hchildren] in *; rewrite Hc in D4; rewrite Hc' in E4; inversion D4; inversion E4; destruct rs, rs'; done.
    cbn [hchildren] in *. rewrite Hc in D4. rewrite Hc' in E4.
    eapply alike_list; [exact HF|exact D4|exact E4|].
    intros c c' r r' Hci Hri Hri' Hcc Hp Hq. apply (IH c Hci c'); auto.
    intros x Hx. apply HI. rewrite preorder_eq. right. apply elem_flat_map. by exists r.
  Qed.

  Lemma alike_page (inside : nat -> Prop) t a h : forall h' r r', same_page h h' -> is_tree t r -> is_tree a r' ->
    tholds t h (rid r) -> holds a h' (rid r') ->
    (forall s x, subt s r -> is_opaque_props (dprops (fun d => d) t (rid s)) = true -> x ∈ flat_map preorder (rsub s) -> inside x) ->
    alike (page_data inside t a) r r'.
  Proof.
    induction h as [s|s|tag ns l cs IH] using htree_ind'; intros h' [i rs] [j rs'] HS Ht Ht' Hh Hh' HI;
      apply is_tree_eq in Ht as [Hc Hts]; apply is_tree_eq in Ht' as [Hc' Hts']; cbn [rid] in *;
      apply tholds_data in Hh as (D1 & D2 & D3 & D4); apply holds_data in Hh' as (E1 & E2 & E3 & E4);
      inversion HS as [| |? ? ? ? ? HF|? ? ? ? ? HO HF]; subst; constructor.
    1,3,5,7: split; [by rewrite D1, E1|]; split; [by rewrite D2, E2|]; intros _; by rewrite D3, E3.
    1,2: cbn [hchildren] in *; rewrite Hc in D4; rewrite Hc' in E4; inversion D4; inversion E4; destruct rs, rs'; done.
    all: cbn [hchildren] in *; rewrite Hc in D4; rewrite Hc' in E4.
    all: eapply alike_list; [exact HF|exact D4|exact E4|].
    all: intros c c' r r' Hci Hri Hri' Hcc Hp Hq.
    - apply (IH c Hci c'); auto. intros s x Hs. apply HI. eapply subt_step; [exact Hs|done].
    - apply (alike_skeleton _ _ _ c c'); auto. intros x Hx. apply (HI (Rose i rs)); [constructor| |].
      + cbn [rid]. by rewrite D3.
      + cbn [rsub]. apply elem_flat_map. by exists r.
  Qed.

  Theorem page_diff_empty (new : document) (olda : arena dnode) ob nb tag ns oats ts us :
    wf olda -> wf (doc_arena new) ->
    holds olda (HElem tag ns oats ts) ob -> holds (doc_arena new) (HElem tag ns [] us) nb ->
    Forall nodup_attrs ts -> Forall nodup_attrs us -> Forall2 same_page ts us ->
    diff_bodies heqb hcomb h0 new olda ob nb = Val [].
  Proof.
    intros WO WN HO HN ND ND' HS. apply holds_elem in HO as [DO HO]. pose proof HN as HN'. apply holds_elem in HN as [DN HN].
    destruct (build_tree_ok olda ob _ ts WO DO HO) as (t & Et & BT).
    destruct (built_tree t _ ts BT) as (ra & Hra & Hta & Hia).
    assert (0 < length t) as L0 by (eapply data_lt; apply BT).
    destruct (mk_dtree_presents hcomb h0 (fun d => d) t ra (bt_wf _ _ _ BT)) as (ta & Ea & PA); [by rewrite Hra|done|].
    destruct (tree_exists (doc_arena new) nb WN) as (rb & Hrb & Htb).
    destruct (mk_dtree_presents hcomb h0 tdata_of (doc_arena new) rb WN) as (tb & Eb & PB).
    { rewrite Hrb. by eapply data_lt. } { done. }
    assert (forall s, subt s ra -> t_hash ta (rid s) = rhash hcomb (fun d => d) t s) as HA1.
    { intros s Hs. eapply (mk_dtree_hash hcomb h0 (fun d => d) t ra); try done; [apply BT|by rewrite Hra]. }
    assert (forall s, subt s rb -> t_hash tb (rid s) = rhash hcomb tdata_of (doc_arena new) s) as HB1.
    { intros s Hs. eapply (mk_dtree_hash hcomb h0 tdata_of (doc_arena new) rb); try done. rewrite Hrb. by eapply data_lt. }
    rewrite Hra in Ea. rewrite Hrb in Eb.
    destruct (mk_dtree_fields _ _ _ _ _ _ Ea) as (A1 & A2 & A3 & A4 & A5 & A6 & A7 & A8 & A9).
    destruct (mk_dtree_fields _ _ _ _ _ _ Eb) as (B1 & B2 & B3 & B4 & B5 & B6 & B7 & B8 & B9).
    assert (tholds t (HElem tag ns [] ts) (rid ra)) as Hh.
    { apply tholds_eq. rewrite Hra. split; [apply BT|apply (bt_holds _ _ _ BT)]. }
    rewrite <- Hrb in HN'.
    set (inside := fun x => x ∈ opaque_descendants ta).
    assert (alike (page_data inside t (doc_arena new)) ra rb) as AP.
    { apply (alike_page inside t (doc_arena new) (HElem tag ns [] ts) (HElem tag ns [] us)); try done; [by constructor|].
      intros s x Hs Ho Hx. apply (opaque_desc_elem ta). exists (rid s). rewrite (pr_iter _ _ PA), (pr_desc _ _ PA s Hs).
      split; [apply preorder_subt; by exists s|]. split; [by rewrite A9|].
      pose proof (subt_nodup _ _ (pr_nodup _ _ PA) Hs) as NDp. rewrite preorder_eq in NDp |- *. split; [by right|].
      apply NoDup_cons in NDp as [NDp _]. intros ->. done. }
    assert (alike (near_node ta tb) ra rb) as AL.
    { eapply alike_mono; [|exact AP]. intros x y (R1 & R2 & R3). unfold near_node.
      rewrite A2, A4, A9, B2, B4, B9. split; [done|]. split; [done|]. intros Hx. by rewrite (R3 Hx). }
    assert (forall s s', subt s ra -> subt s' rb -> alike (near_node ta tb) s s' ->
              heqb (t_hash ta (rid s)) (t_hash tb (rid s')) = true) as HEQ.
    { intros s s' Hs Hs' HA. rewrite HA1, HB1 by done. rewrite (alike_rhash hcomb t (doc_arena new) s s'); [apply heqb_refl|].
      eapply alike_mono; [|exact HA]. intros x y (R1 & R2 & _). rewrite A2, A4, B2, B4 in *. done. }
    assert (heqb (t_hash ta (rid ra)) (t_hash tb (rid rb)) = true) as HH by (apply HEQ; try done; constructor).
    unfold diff_bodies. rewrite Et. cbn [obind]. rewrite Ea. cbn [obind]. rewrite Eb. cbn [obind].
    rewrite (html_matching_near heqb ta tb ra rb PA PB AL HH). cbn [obind].
    rewrite opaque_contents_nil.
    2:{ intros x y Hin. unfold self_matching in Hin. rewrite madds_pairs in Hin. cbn [m_pairs m_empty app] in Hin.
        destruct (zips_subt _ _ ra rb x y AL Hin) as (s & s' & S1 & S2 & S3 & -> & -> & _). by apply HEQ. }
    cbn [obind].
    rewrite (near_script heqb ta tb ra rb PA PB AL HH).
    2:{ rewrite A5, Hra. apply BT. }
    assert (forall x, x ∈ preorder ra -> NoDup (keys (t_props ta x))) as NK.
    { rewrite A3. assert (nodup_attrs (HElem tag ns [] ts)) as N1.
      { apply hall_eq. split; [constructor|]. intros c Hc. rewrite Forall_forall in ND. by apply ND. }
      clear -N1 Hh Hta. revert N1 Hh Hta. generalize (HElem tag ns [] ts). intros h. revert ra.
      induction h as [s|s|tg n l cs IH] using htree_ind'; intros [i rs] N1 Hh Ht x Hx;
        apply is_tree_eq in Ht as [Hc Hts]; cbn [rid] in *; apply hall_eq in N1 as [N1 N2];
        apply tholds_data in Hh as (D1 & D2 & D3 & D4); cbn [hchildren] in *; rewrite Hc in D4;
        rewrite preorder_eq in Hx; cbn [rid rsub] in Hx; apply elem_of_cons in Hx as [->|Hx]; try (by rewrite D3).
      1,2: inversion D4; destruct rs; [by apply elem_of_nil in Hx|done].
      apply elem_flat_map in Hx as (r & Hr & Hx). pose proof (elem_of_list_fmap_1 rid _ _ Hr) as Hri.
      apply elem_of_list_lookup in Hri as [k Hk]. destruct (Forall2_lookup_r _ _ _ _ _ D4 Hk) as (c & Hck & Hcr).
      apply elem_of_list_lookup_2 in Hck. apply (IH c Hck r); [by apply N2|done|by apply Hts|done]. }
    rewrite flat_map_nil.
    2:{ intros [x y] Hin.
        destruct (zips_subt _ _ ra rb x y AP Hin) as (s & s' & S1 & S2 & S3 & -> & -> & _).
        assert (rid s ∉ opaque_descendants ta) as Ho.
        { eapply (zips_outside_a ta ra PA ra rb); [constructor| |exact Hin]. rewrite <- (pr_root _ _ PA).
          by eapply root_not_opaque_desc. }
        inversion S3 as [i j rs rs' (_ & _ & R3) _ E1 E2]. subst s s'. cbn [rid] in *. specialize (R3 Ho).
        assert (NoDup (keys (t_props ta i))) as NDi by (apply NK; apply preorder_subt; by exists (Rose i rs)).
        assert (t_props ta i = t_props tb j) as EP by (by rewrite A3, B3).
        unfold update_op. rewrite <- EP. destruct (_ && _); [done|].
        rewrite props_diff_refl_none by done. unfold props_diff. rewrite props_diff_loop_length.
        by rewrite Nat.ltb_irrefl. }
    destruct (shadow_new_full t (bt_wf _ _ _ BT) L0 (bt_root_parent _ _ _ BT)) as (sh & Esh & FS).
    unfold convert_ops. rewrite Esh. done.
  Qed.
End Converse.
