(** C70: the diff with [f64] scores is the diff with scores as fractions.

    Everything else proved about [diff] compares scores as exact fractions; this
    carries it over to the floating-point comparisons of the Rust code. *)
From Coq Require Import ZArith.
From Verif Require Import Base Arena Matching Chawathe Dom HtmlDiff.
From Verif Require Import ArenaProofs TreeProofs AttrProofs DomTree BuildProofs DtreeProofs DiffTotal PayloadProofs NumberProofs.
From Verif Require Import FloatModel FloatProofs Instances InstanceProofs HashProofs PropMatch PropRoundtrip PropTotal.

(** *** Comparisons *)

Lemma fgt_ratio p1 q1 p2 q2 : 0 < q1 -> 0 < q2 -> countable p1 -> countable q1 -> countable p2 -> countable q2 ->
  f_gt (quot p1 q1) (quot p2 q2) = ratio_gt (p1, q1) (p2, q2).
Proof.
  intros. unfold f_gt, SFltb, ratio_gt. cbn [fst snd]. rewrite quot_compare by done.
  destruct (Nat.compare_spec (p2 * q1) (p1 * q2)); symmetry; [apply Nat.ltb_ge|apply Nat.ltb_lt|apply Nat.ltb_ge]; lia.
Qed.
Lemma fge_ratio p q n d h : 0 < q -> 0 < d -> countable p -> countable q -> countable n -> countable d ->
  f_ge (quot p q) (quot n d) = ge_thr (mkCfg n d h) (p, q).
Proof.
  intros. unfold f_ge, SFleb, ge_thr. cbn [fst snd thr_num thr_den]. rewrite quot_compare by done.
  destruct (Nat.compare_spec (n * q) (p * d)); symmetry; [apply Nat.leb_le|apply Nat.leb_le|apply Nat.leb_gt]; lia.
Qed.
Lemma flt_ratio p q n d h : 0 < q -> 0 < d -> countable p -> countable q -> countable n -> countable d ->
  f_lt (quot p q) (quot n d) = negb (ge_thr (mkCfg n d h) (p, q)).
Proof.
  intros. unfold f_lt, SFltb, ge_thr. cbn [fst snd thr_num thr_den]. rewrite quot_compare by done.
  destruct (Nat.compare_spec (p * d) (n * q)); destruct (Nat.leb_spec (n * q) (p * d)); try done; lia.
Qed.

(** The three comparisons of matching.rs, on quotients of counts below 2^26. *)
Theorem scores_compare : forall p1 q1 p2 q2 : nat, 0 < q1 -> 0 < q2 ->
  (Z.of_nat p1 < 2 ^ 26)%Z -> (Z.of_nat q1 < 2 ^ 26)%Z -> (Z.of_nat p2 < 2 ^ 26)%Z -> (Z.of_nat q2 < 2 ^ 26)%Z ->
  let x := f_div (of_count p1) (of_count q1) in
  let y := f_div (of_count p2) (of_count q2) in
  (f_gt x y = true <-> p2 * q1 < p1 * q2) /\ (f_ge x y = true <-> p2 * q1 <= p1 * q2) /\
  (f_lt x y = true <-> p1 * q2 < p2 * q1).
Proof.
  intros p1 q1 p2 q2 Q1 Q2 A B C D x y.
  assert (f_gt x y = ratio_gt (p1, q1) (p2, q2)) as -> by (by apply fgt_ratio).
  assert (f_ge x y = ge_thr (mkCfg p2 q2 0) (p1, q1)) as -> by (by apply fge_ratio).
  assert (f_lt x y = negb (ge_thr (mkCfg p2 q2 0) (p1, q1))) as -> by (by apply flt_ratio).
  unfold ratio_gt, ge_thr. cbn [fst snd thr_num thr_den]. rewrite Nat.ltb_lt, Nat.leb_le, negb_true_iff, Nat.leb_gt.
  done.
Qed.
Print Assumptions scores_compare.

(** Beyond 2^26 this fails: (n-1)/n and n/(n+1) are one double for n = 2^27. *)
Theorem scores_compare_refuted : exists p1 q1 p2 q2 : nat, 0 < q1 /\ 0 < q2 /\ p2 * q1 < p1 * q2 /\
  f_gt (f_div (of_count p1) (of_count q1)) (f_div (of_count p2) (of_count q2)) = false.
Proof.
  exists (Z.to_nat 134217728), (Z.to_nat 134217729), (Z.to_nat 134217727), (Z.to_nat 134217728).
  split; [lia|]. split; [lia|]. split; [lia|].
  unfold of_count. rewrite !Z2Nat.id by lia. vm_compute. reflexivity.
Qed.
Print Assumptions scores_compare_refuted.

Example scores_compare_example :
  f_gt (f_div (of_count 1000) (of_count 2001)) (f_div (of_count 999) (of_count 1999)) = true /\
  f_ge (f_div (of_count 1000) (of_count 2001)) f_half = false /\
  f_ge (f_div (of_count 1000) (of_count 2000)) f_half = true.
Proof. vm_compute. done. Qed.

(** *** The bottom-up phase *)

(** The double [f] is the quotient of the fraction [r], of moderate size. *)
Definition score (f : f64) (r : ratio) : Prop :=
  f = quot (fst r) (snd r) /\ 0 < snd r /\ countable (fst r) /\ countable (snd r).

Lemma find_ext_all {A} (f g : A -> bool) l : (forall x, f x = g x) -> find f l = find g l.
Proof. intros E. induction l as [|x l IH]; [done|]. cbn. by rewrite E, IH. Qed.

Section Agree.
  Context {H K P T : Type} (heqb : H -> H -> bool) (keqb : K -> K -> bool).
  Variables (sim : P -> P -> ratio) (fsim : P -> P -> f64) (cfg : config) (fthr : f64).
  Variables ta tb : dtree H K P T.
  Hypothesis THR : score fthr (thr_num cfg, thr_den cfg).
  Hypothesis SIM : forall a b, score (fsim (t_props ta a) (t_props tb b)) (sim (t_props ta a) (t_props tb b)).
  Hypothesis DESC : forall a b,
    (Z.of_nat (length (t_desc ta a)) < 2 ^ 25 /\ Z.of_nat (length (t_desc tb b)) < 2 ^ 25)%Z.

  Lemma score_ge f r : score f r -> f_ge f fthr = ge_thr cfg r.
  Proof using THR.
    destruct r as [p q], cfg as [n d h]. intros (-> & Q & A & B). destruct THR as (-> & Q' & A' & B'). cbn [fst snd] in *.
    by apply fge_ratio.
  Qed.
  Lemma score_lt f r : score f r -> f_lt f fthr = negb (ge_thr cfg r).
  Proof using THR.
    destruct r as [p q], cfg as [n d h]. intros (-> & Q & A & B). destruct THR as (-> & Q' & A' & B'). cbn [fst snd] in *.
    by apply flt_ratio.
  Qed.
  Lemma score_gt f r f' r' : score f r -> score f' r' -> f_gt f f' = ratio_gt r r'.
  Proof using.
    destruct r as [p q], r' as [p' q']. intros (-> & Q & A & B) (-> & Q' & A' & B'). cbn [fst snd] in *. by apply fgt_ratio.
  Qed.

  Lemma dice_score m a b : score (f_dice ta tb m a b) (dice ta tb m a b).
  Proof using DESC.
    destruct (DESC a b) as [L1 L2].
    assert (dice_common ta tb m a b <= length (t_desc ta a)) as Hc by apply filter_length_le.
    assert (f_dice ta tb m a b = match t_desc ta a, t_desc tb b with [], [] => f_one
      | da, db => quot (2 * dice_common ta tb m a b) (length da + length db) end) as ->.
    { unfold f_dice, quot. destruct (t_desc ta a), (t_desc tb b); try done; rewrite mul_two; try done;
        unfold countable; lia. }
    unfold dice, score, countable.
    destruct (t_desc ta a) as [|x da], (t_desc tb b) as [|y db]; cbn [fst snd]; [split; [by vm_compute|lia]|..];
      (split; [done|]); cbn [length] in *; lia.
  Qed.

  Lemma pos_agree m a pb : f_pos_candidate keqb fsim fthr ta tb m a pb = pos_candidate keqb sim cfg ta tb m a pb.
  Proof using THR SIM. unfold f_pos_candidate, pos_candidate. apply find_ext_all. intros b. by rewrite (score_ge _ _ (SIM a b)). Qed.

  Lemma dice_step_agree m a best fbest b :
    match fbest, best with
    | None, None => True
    | Some (x, f), Some (y, r) => x = y /\ score f r
    | _, _ => False
    end ->
    match f_dice_step fsim fthr ta tb m a fbest b, dice_step sim cfg ta tb m a best b with
    | None, None => True
    | Some (x, f), Some (y, r) => x = y /\ score f r
    | _, _ => False
    end.
  Proof using THR SIM DESC.
    intros HB. unfold f_dice_step, dice_step.
    destruct (contains_b m b); [done|]. destruct (Nat.eqb _ 0); [done|]. destruct (negb (ancestry_compatible _ _ _ _ _)); [done|].
    rewrite (score_lt _ _ (SIM a b)). destruct (negb (ge_thr _ _)); [done|].
    rewrite (score_ge _ _ (dice_score m a b)). destruct (ge_thr cfg (dice ta tb m a b)); cbn [andb]; [|done].
    destruct fbest as [[x f]|], best as [[y r]|]; try done.
    - destruct HB as [-> HS]. rewrite (score_gt _ _ _ _ (dice_score m a b) HS).
      destruct (ratio_gt _ _); [|done]. split; [done|]. apply dice_score.
    - split; [done|]. apply dice_score.
  Qed.

  Lemma dice_best_agree m idx a :
    match f_dice_best keqb fsim fthr ta tb m idx a, dice_best keqb sim cfg ta tb m idx a with
    | None, None => True
    | Some (x, f), Some (y, r) => x = y /\ score f r
    | _, _ => False
    end.
  Proof using THR SIM DESC.
    unfold f_dice_best, dice_best. generalize (by_kind keqb tb idx (t_kind ta a)) as l. intros l.
    cut (match @None (nat * f64), @None (nat * ratio) with
         | None, None => True | Some (x, f), Some (y, r) => x = y /\ score f r | _, _ => False end); [|done].
    generalize (@None (nat * f64)) (@None (nat * ratio)). induction l as [|b l IH]; intros fbest best HB; [done|].
    cbn [fold_left]. apply IH. by apply dice_step_agree.
  Qed.

  Lemma root_agree m idx a : f_root_candidate keqb fsim fthr ta tb m idx a = root_candidate keqb sim cfg ta tb m idx a.
  Proof using THR SIM. unfold f_root_candidate, root_candidate. apply find_ext_all. intros b. by rewrite (score_ge _ _ (SIM a b)). Qed.

  Lemma pass1_agree opa idx m a : f_pass1_step keqb fsim fthr ta tb opa idx m a = pass1_step keqb sim cfg ta tb opa idx m a.
  Proof using THR SIM DESC.
    unfold f_pass1_step, pass1_step. destruct (_ || _); [done|].
    assert (match matched_parent_b ta m a with Some pb => f_pos_candidate keqb fsim fthr ta tb m a pb | None => None end =
            match matched_parent_b ta m a with Some pb => pos_candidate keqb sim cfg ta tb m a pb | None => None end) as ->.
    { destruct (matched_parent_b ta m a); [apply pos_agree|done]. }
    destruct (match matched_parent_b ta m a with Some _ => _ | None => _ end); [done|].
    pose proof (dice_best_agree m idx a) as HD. rewrite root_agree.
    destruct (f_dice_best _ _ _ _ _ _ _ _) as [[x f]|], (dice_best _ _ _ _ _ _ _ _) as [[y r]|]; try done. by destruct HD as [-> _].
  Qed.

  Lemma leaf_agree m a pb : f_leaf_candidate heqb keqb fsim fthr ta tb m a pb = leaf_candidate heqb keqb sim cfg ta tb m a pb.
  Proof using THR SIM.
    unfold f_leaf_candidate, leaf_candidate. destruct (find _ _); [done|]. destruct (find _ _); [done|].
    apply find_ext_all. intros b. by rewrite (score_ge _ _ (SIM a b)).
  Qed.
  Lemma global_agree m a l : forall best, f_leaf_global heqb fsim fthr ta tb m a l best = leaf_global heqb sim cfg ta tb m a l best.
  Proof using THR SIM.
    induction l as [|b l IH]; intros best; [done|]. cbn [f_leaf_global leaf_global].
    destruct (contains_b m b); [apply IH|]. destruct (negb (Nat.eqb _ 0)); [apply IH|].
    destruct (negb (ancestry_compatible _ _ _ _ _)); [apply IH|]. destruct (heqb _ _); [done|].
    rewrite (score_ge _ _ (SIM a b)). destruct best; cbn [andb]; [apply IH|].
    destruct (ge_thr _ _); apply IH.
  Qed.
  Lemma pass2_agree opa idx m a : f_pass2_step heqb keqb fsim fthr ta tb opa idx m a = pass2_step heqb keqb sim cfg ta tb opa idx m a.
  Proof using THR SIM.
    unfold f_pass2_step, pass2_step. destruct (_ || _); [done|]. destruct (negb _); [done|].
    destruct (matched_parent_b ta m a); [by rewrite leaf_agree|by rewrite global_agree].
  Qed.

  Lemma fold_agree (f g : matching -> nat -> matching) l : (forall m a, f m a = g m a) ->
    forall m, fold_left f l m = fold_left g l m.
  Proof using. intros E. induction l as [|x l IH]; intros m; [done|]. cbn. by rewrite E, IH. Qed.

  Lemma bottom_up_agree m : f_bottom_up heqb keqb fsim fthr ta tb m = bottom_up heqb keqb sim cfg ta tb m.
  Proof using THR SIM DESC.
    unfold f_bottom_up, bottom_up. rewrite (fold_agree _ _ _ (pass1_agree _ _)). by apply fold_agree, pass2_agree.
  Qed.

  Lemma td_loop_thr n d f sf st m :
    td_loop heqb keqb (mkCfg n d (min_height cfg)) ta tb f sf st m = td_loop heqb keqb cfg ta tb f sf st m.
  Proof using. reflexivity. Qed.

  Lemma compute_agree : f_compute_matching heqb keqb fsim fthr (min_height cfg) ta tb = compute_matching heqb keqb sim cfg ta tb.
  Proof using THR SIM DESC.
    unfold f_compute_matching, compute_matching, top_down. rewrite td_loop_thr.
    destruct (td_loop _ _ _ _ _ _ _ _ _); [|done]. by rewrite bottom_up_agree.
  Qed.
End Agree.

(** Any two trees, any kind of properties: if every similarity is a quotient of two
    counts below 2^26 and the trees have fewer than 2^25 nodes, the matching with
    [f64] scores is the matching with fractions. *)
Theorem matching_floats : forall {H K P T} (heqb : H -> H -> bool) (keqb : K -> K -> bool)
    (sim : P -> P -> ratio) (fsim : P -> P -> f64) (cfg : config) (fthr : f64) (ta tb : dtree H K P T),
  score fthr (thr_num cfg, thr_den cfg) ->
  (forall a b, score (fsim (t_props ta a) (t_props tb b)) (sim (t_props ta a) (t_props tb b))) ->
  (forall a b, (Z.of_nat (length (t_desc ta a)) < 2 ^ 25 /\ Z.of_nat (length (t_desc tb b)) < 2 ^ 25)%Z) ->
  f_compute_matching heqb keqb fsim fthr (min_height cfg) ta tb = compute_matching heqb keqb sim cfg ta tb.
Proof. intros. by apply compute_agree. Qed.
Print Assumptions matching_floats.

(** *** Documents *)

(** Fewer than 2^25 nodes, and no element with 2^25 attributes. *)
Definition moderate (d : document) : Prop :=
  (Z.of_nat (length (doc_arena d)) < 2 ^ 25)%Z /\
  forall i tag ats, node_kind (doc_arena d) i = Some (NElem tag ats) -> (Z.of_nat (length ats) < 2 ^ 25)%Z.

Lemma qdedup_le l : length (qdedup l) <= length l.
Proof. induction l as [|q l IH]; [done|]. cbn. destruct (existsb _ _); cbn; lia. Qed.
Lemma qdedup_cons q l : 0 < length (qdedup (q :: l)).
Proof.
  revert q. induction l as [|q' l IH]; intros q; [cbn; lia|]. cbn [qdedup]. destruct (existsb _ (q' :: l)); [apply IH|cbn; lia].
Qed.

Lemma props_score x y : (Z.of_nat (length x) < 2 ^ 25)%Z -> (Z.of_nat (length y) < 2 ^ 25)%Z ->
  score (f_props_sim x y) (props_sim x y).
Proof.
  intros Hx Hy. unfold f_props_sim, props_sim.
  assert (x = [] /\ y = [] \/ 0 < length (qdedup (keys x)) + length (qdedup (keys y))) as [[-> ->]|Hpos].
  { destruct x as [|[q v] x]; [|right; pose proof (qdedup_cons q (keys x)); cbn [keys map fst] in *; unfold keys in *; lia].
    destruct y as [|[q v] y]; [by left|right; pose proof (qdedup_cons q (keys y)); cbn [keys map fst] in *; unfold keys in *; lia]. }
  { split; [by vm_compute|]. cbn. unfold countable. lia. }
  assert (length (qdedup (keys x)) <= length x) as Lx by (etransitivity; [apply qdedup_le|unfold keys; by rewrite map_length]).
  assert (length (qdedup (keys y)) <= length y) as Ly by (etransitivity; [apply qdedup_le|unfold keys; by rewrite map_length]).
  assert (length (List.filter (fun q => existsb (qname_eqb q) (qdedup (keys y))) (qdedup (keys x))) <= length (qdedup (keys x))) as Hf
    by apply filter_length_le.
  set (n := length (List.filter _ _)) in *.
  assert (score (if Nat.eqb (length (qdedup (keys x)) + length (qdedup (keys y))) 0 then f_one
                 else f_div (of_count (2 * n)) (of_count (length (qdedup (keys x)) + length (qdedup (keys y)))))
                (2 * n, length (qdedup (keys x)) + length (qdedup (keys y)))) as HS.
  { destruct (Nat.eqb_spec (length (qdedup (keys x)) + length (qdedup (keys y))) 0) as [E|_]; [lia|].
    split; [done|]. cbn [fst snd]. unfold countable. lia. }
  destruct x, y; [cbn in Hpos; lia|exact HS..].
Qed.

Lemma desc_bound {D} (a : arena D) n i : wf a -> length a <= n -> 0 < n ->
  length (match descendants a i with Some l => l | None => [] end) <= n.
Proof.
  intros W Hn H0. destruct (tree_exists a i W) as (r & Er & Hr). rewrite <- Er, (descendants_spec a r W Hr).
  destruct (decide (rid r < length a)) as [L|L].
  - pose proof (is_tree_size a r W Hr L). lia.
  - destruct r as [j ts]. apply is_tree_eq in Hr as [Hc _]. cbn [rid] in *. rewrite children_ge in Hc by lia.
    destruct ts; [|done]. cbn. lia.
Qed.

Definition props_below (t : arena tdata) : Prop :=
  forall i d, data t i = Some d -> (Z.of_nat (length (td_props d)) < 2 ^ 25)%Z.

Lemma tdata_of_props d i x : moderate d -> data (doc_arena d) i = Some x -> (Z.of_nat (length (td_props (tdata_of x))) < 2 ^ 25)%Z.
Proof.
  intros [_ M] Hx. unfold tdata_of. destruct (d_kind x) eqn:Ek; cbn [td_props length]; try lia.
  eapply (M i). unfold node_kind. by rewrite Hx, Ek.
Qed.

Lemma new_below t d : props_below t -> (Z.of_nat (length (td_props d)) < 2 ^ 25)%Z -> props_below (fst (new_node t d)).
Proof.
  intros HB Hd i e. rewrite data_new. case_match; [intros [= <-]; done|apply HB].
Qed.
Lemma append_below t p c t' : append t p c = Val t' -> props_below t -> props_below t'.
Proof.
  unfold append. destruct (Nat.eqb p c); [done|]. destruct (is_ancestor t c p) as [[]|]; try done.
  intros [= <-] HB i d Hd. apply (HB i). by rewrite data_set_parent, data_set_children, data_detach in Hd.
Qed.

Lemma add_below d : moderate d -> forall f t p src t', add_children f (doc_arena d) t p src = Val t' -> props_below t -> props_below t'.
Proof.
  intros M. induction f as [|f IH]; intros t p src t' E HB; [done|]. rewrite add_children_S in E.
  revert t HB E. generalize (children (doc_arena d) src) as l.
  induction l as [|c l IHl]; intros t HB E; cbn [add_go] in E; [by injection E as <-|].
  destruct (data (doc_arena d) c) as [x|] eqn:Ex; [|done]. pose proof (tdata_of_props d c x M Ex) as Hp.
  pose proof (new_below t (tdata_of x) HB Hp) as HN.
  destruct (d_kind x); [by apply (IHl t)|..]; destruct (new_node t (tdata_of x)) as [t1 n] eqn:En; cbn [fst] in HN; bnd E t2 E2;
    pose proof (append_below _ _ _ _ E2 HN) as H2; [bnd E t3 E3; apply (IHl t3); [by eapply IH|done]|by apply (IHl t2)..].
Qed.

Lemma build_below d b t : moderate d -> build_tree (doc_arena d) b = Val t -> props_below t.
Proof.
  intros M E. unfold build_tree in E. destruct (data (doc_arena d) b) as [x|]; [|done].
  eapply add_below; [done|exact E|]. intros i y Hy. unfold data in Hy. destruct i; cbn in Hy; [|done]. injection Hy as <-. cbn. lia.
Qed.

Lemma dprops_below {D} (td : D -> tdata) (a : arena D) i :
  (forall i d, data a i = Some d -> (Z.of_nat (length (td_props (td d))) < 2 ^ 25)%Z) ->
  (Z.of_nat (length (dprops td a i)) < 2 ^ 25)%Z.
Proof. intros HB. unfold dprops. destruct (data a i) eqn:E; [by eapply HB|cbn; lia]. Qed.

(** The whole diff: with [f64] scores it returns the very patches (or the very
    failure) that it returns with scores as fractions. *)
Theorem diff_floats : forall {H} (heqb : H -> H -> bool) hcomb h0 (old new : document),
  proper old -> proper new -> moderate old -> moderate new ->
  f_diff heqb hcomb h0 old new = diff heqb hcomb h0 old new.
Proof.
  intros H heqb hcomb h0 old new PO PN MO MN. unfold f_diff, diff.
  destruct (body old) as [ob|] eqn:Eo; [|done]. destruct (body new) as [nb|] eqn:En; [|done].
  unfold f_diff_bodies, diff_bodies.
  destruct (build_tree (doc_arena old) ob) as [t| | |] eqn:Et; try done. cbn [obind].
  destruct (mk_dtree hcomb h0 (fun d => d) t 0) as [ta| | |] eqn:Ea; try done. cbn [obind].
  destruct (mk_dtree hcomb h0 tdata_of (doc_arena new) nb) as [tb| | |] eqn:Eb; try done. cbn [obind].
  assert (f_html_matching heqb ta tb = html_matching heqb ta tb) as ->; [|done].
  unfold f_html_matching, html_matching.
  change 0 with (min_height diff_config) at 1. rewrite (matching_floats heqb hkind_eqb props_sim f_props_sim diff_config); [done|..].
  - split; [by vm_compute|]. cbn. unfold countable. lia.
  - intros a b. apply props_score.
    + unfold mk_dtree in Ea. bnd Ea it E1. bnd Ea po E2. injection Ea as <-. cbn [t_props].
      apply dprops_below. exact (build_below old ob t MO Et).
    + unfold mk_dtree in Eb. bnd Eb it E1. bnd Eb po E2. injection Eb as <-. cbn [t_props].
      apply dprops_below. intros i d Hd. by eapply tdata_of_props.
  - destruct (body_data old ob Eo) as (x & Ex). destruct (body_data new nb En) as (y & Ey).
    pose proof (data_lt _ _ _ Ex) as Lx. pose proof (data_lt _ _ _ Ey) as Ly.
    destruct (proper_children old ob PO) as (hs & Hh).
    destruct (build_tree_ok _ _ _ _ (pp_wf _ PO) Ex Hh) as (t' & Et' & HT). rewrite Et in Et'. injection Et' as <-.
    destruct (build_tree_small old ob t (pp_wf _ PO)) as [HL _]; [|done|done|].
    { intros b' Eb'. apply (proper_children old b' PO). }
    assert (wf t) as Wt by apply HT.
    destruct MO as [LO _], MN as [LN _]. intros a b.
    unfold mk_dtree in Ea. bnd Ea it E1. bnd Ea po E2. injection Ea as <-. cbn [t_desc].
    unfold mk_dtree in Eb. bnd Eb it' E1'. bnd Eb po' E2'. injection Eb as <-. cbn [t_desc].
    pose proof (desc_bound t (length (doc_arena old)) a Wt HL ltac:(lia)).
    pose proof (desc_bound (doc_arena new) (length (doc_arena new)) b (pp_wf _ PN) ltac:(lia) ltac:(lia)). lia.
Qed.
Print Assumptions diff_floats.

Definition moderate_check (d : document) : bool :=
  forallb (fun n => match d_kind (nd_data n) with NElem _ l => Nat.leb (length l) 100 | _ => true end) (doc_arena d)
  && Nat.leb (length (doc_arena d)) 1000.
Lemma moderate_ok d : moderate_check d = true -> moderate d.
Proof.
  unfold moderate_check. rewrite andb_true_iff, forallb_forall, Nat.leb_le. intros [HF HL]. split; [lia|].
  intros i tag ats Hk. unfold node_kind, data in Hk. destruct (doc_arena d !! i) as [n|] eqn:En; [|done]. cbn in Hk.
  injection Hk as Hk. specialize (HF n). rewrite Hk in HF. apply elem_of_list_lookup_2, elem_of_list_In in En.
  apply HF, Nat.leb_le in En. lia.
Qed.

(** The two documents of [diff_total_example]: scores decide several of the pairs. *)
Example diff_floats_example :
  proper (mk_doc [] total_old) /\ proper (mk_doc [] total_new) /\
  moderate (mk_doc [] total_old) /\ moderate (mk_doc [] total_new) /\
  (exists ps, f_diff phash_eqb PH PH0 (mk_doc [] total_old) (mk_doc [] total_new) = Val ps /\ length ps = 20).
Proof.
  split; [by apply proper_mk_doc|]. split; [by apply proper_mk_doc|].
  split; [by apply moderate_ok|]. split; [by apply moderate_ok|].
  eexists. split; [vm_compute; reflexivity|reflexivity].
Qed.
