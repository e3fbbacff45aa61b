(** C77: how much the matching looks at. *)
From stdpp Require Import list_numbers.
From Verif Require Import Base Arena Matching Stats HtmlDiff Dom ArenaProofs MatchProofs TreeProofs DtreeProofs TotalProofs
  Instances InstanceProofs.

(** ** Lists *)

Lemma nodup_flat {A B} (f : A -> list B) l :
  NoDup l -> (forall x, x ∈ l -> NoDup (f x)) ->
  (forall x y z, x ∈ l -> y ∈ l -> z ∈ f x -> z ∈ f y -> x = y) -> NoDup (flat_map f l).
Proof.
  induction l as [|x l IH]; intros Hl Hf Hd; cbn; [constructor|]. apply NoDup_cons in Hl as [Hx Hl].
  apply NoDup_app. split_and!.
  - apply Hf. by left.
  - intros z Hz Hz'. apply elem_flat_map in Hz' as (y & Hy & Hz').
    destruct Hx. rewrite (Hd x y z); [done|by left|by right|done|done].
  - apply IH; [done| |].
    + intros y Hy. apply Hf. by right.
    + intros u v z Hu Hv. apply Hd; by right.
Qed.

Lemma flat_map_sub {A B} (f g : A -> list B) l : (forall x, x ∈ l -> f x ⊆+ g x) -> flat_map f l ⊆+ flat_map g l.
Proof.
  induction l as [|x l IH]; intros Hf; cbn; [done|]. apply submseteq_app; [apply Hf; by left|].
  apply IH. intros y Hy. apply Hf. by right.
Qed.

Lemma flat_map_sub_l {A B} (f : A -> list B) l k : l ⊆+ k -> flat_map f l ⊆+ flat_map f k.
Proof.
  induction 1 as [|x l k _ IH|x y l|x l k _ IH|l k k' _ IH1 _ IH2]; cbn.
  - done.
  - by apply submseteq_app.
  - rewrite !(assoc_L (++)). apply submseteq_app; [|done]. apply Permutation_submseteq. apply Permutation_app_comm.
  - by apply submseteq_inserts_l.
  - by etrans.
Qed.

Lemma nodup_product {A B} (l : list (A * B)) (ka : list A) (kb : list B) : NoDup l ->
  (forall a b, (a, b) ∈ l -> a ∈ ka /\ b ∈ kb) -> length l <= length ka * length kb.
Proof.
  intros ND HI. rewrite <- prod_length. apply submseteq_length, NoDup_submseteq; [done|].
  intros [a b] Hab. apply elem_of_list_In, in_prod; apply elem_of_list_In; by apply (HI a b).
Qed.

(** ** Pairs of nodes of equal depth *)

Fixpoint pd (r s : rose) {struct r} : list (nat * nat) :=
  let 'Rose i rs := r in
  (i, rid s) :: flat_map (fun x => flat_map (fun y => pd x y) (rsub s)) rs.

Lemma pd_eq r s : pd r s = (rid r, rid s) :: flat_map (fun x => flat_map (pd x) (rsub s)) (rsub r).
Proof. by destruct r. Qed.

Lemma pd_in r : forall s x y, (x, y) ∈ pd r s -> x ∈ preorder r /\ y ∈ preorder s.
Proof.
  induction r as [i rs IH] using rose_ind'. intros s x y Hxy. rewrite pd_eq in Hxy.
  apply elem_of_cons in Hxy as [[= -> ->]|Hxy]; [split; [by left|apply preorder_rid]|].
  apply elem_flat_map in Hxy as (u & Hu & Hxy). apply elem_flat_map in Hxy as (v & Hv & Hxy). cbn [rsub] in Hu.
  destruct (IH u Hu v x y Hxy) as [H1 H2]. rewrite !preorder_eq. split; right; apply elem_flat_map; eauto.
Qed.

Lemma flat_nodup_list (ts : list rose) : NoDup (flat_map preorder ts) -> NoDup ts.
Proof.
  induction ts as [|t ts IH]; cbn; [constructor|]. intros (H1 & H2 & H3)%NoDup_app. constructor; [|by apply IH].
  intros Ht. apply (H2 (rid t)); [apply preorder_rid|]. apply elem_flat_map. exists t. split; [done|apply preorder_rid].
Qed.

Lemma pd_nodup r : forall s, NoDup (preorder r) -> NoDup (preorder s) -> NoDup (pd r s).
Proof.
  induction r as [i rs IH] using rose_ind'. intros s Nr Ns. rewrite pd_eq.
  rewrite preorder_eq in Nr, Ns. apply NoDup_cons in Nr as [Nr1 Nr2]. apply NoDup_cons in Ns as [Ns1 Ns2].
  cbn [rid rsub] in *. constructor.
  - intros Hin. apply elem_flat_map in Hin as (u & Hu & Hin). apply elem_flat_map in Hin as (v & Hv & Hin).
    apply pd_in in Hin as [Hin _]. apply Nr1. apply elem_flat_map. eauto.
  - assert (forall u, u ∈ rs -> NoDup (preorder u)) as HU.
    { intros u Hu. apply (subt_nodup u (Rose i rs)); [|by apply subt_child]. rewrite preorder_eq. by constructor. }
    assert (forall v, v ∈ rsub s -> NoDup (preorder v)) as HV.
    { intros v Hv. apply (subt_nodup v s); [|by apply subt_child]. rewrite preorder_eq. by constructor. }
    apply nodup_flat.
    + by apply flat_nodup_list.
    + intros u Hu. apply nodup_flat; [by apply flat_nodup_list| |].
      * intros v Hv. apply IH; [done|by apply HU|by apply HV].
      * intros v v' [x y] Hv Hv' H1 H2. apply pd_in in H1 as [_ H1]. apply pd_in in H2 as [_ H2].
        by apply (flat_map_nodup_inj preorder (rsub s) v v' y).
    + intros u u' [x y] Hu Hu' H1 H2.
      apply elem_flat_map in H1 as (v & _ & H1). apply elem_flat_map in H2 as (v' & _ & H2).
      apply pd_in in H1 as [H1 _]. apply pd_in in H2 as [H2 _]. by apply (flat_map_nodup_inj preorder rs u u' x).
Qed.

Section Stats.
  Context {H K P T : Type}.
  Variable heqb : H -> H -> bool.
  Variable keqb : K -> K -> bool.
  Variable sim : P -> P -> ratio.
  Variable cfg : config.
  Variables ta tb : dtree H K P T.

  (** ** Recording changes nothing *)

  Lemma td_loop_erase f sf : forall st m log,
    match td_loop_s heqb keqb cfg ta tb f sf st m log with Some (m', _) => Some m' | None => None end =
    td_loop heqb keqb cfg ta tb f sf st m.
  Proof using Type.
    induction f as [|f IH]; intros [|[a b] st] m log; cbn [td_loop td_loop_s]; try done.
    repeat (match goal with |- match (if ?c then _ else _) with _ => _ end = _ => destruct c end; [by apply IH|]).
    destruct (heqb _ _ && _); [destruct (match_subtrees _ _ _ _ _ _); [by apply IH|done]|].
    repeat (match goal with |- match (if ?c then _ else _) with _ => _ end = _ => destruct c end); by apply IH.
  Qed.

  Definition asked (m : matching) (a b : nat) : bool :=
    negb (contains_b m b) && negb (Nat.eqb (length (t_children tb b)) 0) && ancestry_compatible ta tb m a b
    && ge_thr cfg (sim (t_props ta a) (t_props tb b)).

  Lemma dice_step_s_eq m a best calls b :
    dice_step_s sim cfg ta tb m a (best, calls) b =
    (dice_step sim cfg ta tb m a best b, calls ++ if asked m a b then [(a, b)] else []).
  Proof using Type.
    unfold dice_step_s, dice_step, asked. destruct (contains_b m b); cbn; [by rewrite app_nil_r|].
    destruct (Nat.eqb _ 0); cbn; [by rewrite app_nil_r|].
    destruct (ancestry_compatible _ _ _ _ _); cbn; [|by rewrite app_nil_r].
    destruct (ge_thr cfg (sim _ _)); cbn; [|by rewrite app_nil_r]. by destruct (_ && _).
  Qed.

  Lemma dice_fold_s m a l : forall best calls,
    fold_left (dice_step_s sim cfg ta tb m a) l (best, calls) =
    (fold_left (dice_step sim cfg ta tb m a) l best, calls ++ map (pair a) (List.filter (asked m a) l)).
  Proof using Type.
    induction l as [|b l IH]; intros best calls; cbn [fold_left List.filter map]; [by rewrite app_nil_r|].
    rewrite dice_step_s_eq, IH. f_equal. rewrite <- app_assoc. f_equal. by destruct (asked m a b).
  Qed.

  (** The calls of one iteration of pass 1. *)
  Definition calls1 (opa idx : list nat) (m : matching) (a : nat) : list (nat * nat) :=
    if contains_a m a || mem a opa then []
    else match match matched_parent_b ta m a with
               | Some pb => pos_candidate keqb sim cfg ta tb m a pb
               | None => None
               end with
         | Some _ => []
         | None => map (pair a) (List.filter (asked m a) (by_kind keqb tb idx (t_kind ta a)))
         end.

  Lemma pass1_step_s_eq opa idx m calls a :
    pass1_step_s keqb sim cfg ta tb opa idx (m, calls) a =
    (pass1_step keqb sim cfg ta tb opa idx m a, calls ++ calls1 opa idx m a).
  Proof using Type.
    unfold pass1_step_s, pass1_step, calls1. destruct (_ || _); [by rewrite app_nil_r|]. cbn zeta.
    destruct (match matched_parent_b ta m a with Some pb => pos_candidate keqb sim cfg ta tb m a pb | None => None end) as [b|]; [by rewrite app_nil_r|].
    rewrite dice_fold_s. unfold dice_best.
    destruct (fold_left (dice_step sim cfg ta tb m a) _ None) as [[b s]|]; [done|].
    destruct (t_parent ta a); [done|]. by destruct (root_candidate _ _ _ _ _ _ _ _).
  Qed.

  Lemma pass1_cases opa idx m a : pass1_step keqb sim cfg ta tb opa idx m a = m \/
    exists b, pass1_step keqb sim cfg ta tb opa idx m a = m_add m a b.
  Proof using Type.
    unfold pass1_step. destruct (_ || _); [by left|]. cbn zeta.
    destruct (match matched_parent_b ta m a with Some pb => pos_candidate keqb sim cfg ta tb m a pb | None => None end) as [b|]; [by eauto|].
    destruct (dice_best _ _ _ _ _ _ _ _) as [[b s]|]; [by eauto|].
    destruct (t_parent ta a); [by left|]. destruct (root_candidate _ _ _ _ _ _ _ _); [by eauto|by left].
  Qed.

  Lemma pass1_back opa idx m a :
    (forall x, contains_a (pass1_step keqb sim cfg ta tb opa idx m a) x = false -> contains_a m x = false) /\
    (forall y, contains_b (pass1_step keqb sim cfg ta tb opa idx m a) y = false -> contains_b m y = false).
  Proof using Type.
    destruct (pass1_cases opa idx m a) as [->|[b ->]]; [done|]. split; intros x; unfold contains_a, contains_b.
    - rewrite get_b_add. by destruct (Nat.eqb a x).
    - rewrite get_a_add. by destruct (Nat.eqb b x).
  Qed.

  Lemma calls1_in opa idx m a x b : (x, b) ∈ calls1 opa idx m a ->
    x = a /\ contains_a m a = false /\ a ∉ opa /\ b ∈ idx /\ contains_b m b = false /\
    t_children tb b <> [] /\ keqb (t_kind tb b) (t_kind ta a) = true.
  Proof using Type.
    unfold calls1. destruct (contains_a m a) eqn:Ea; [by intros ?%elem_of_nil|]. cbn [orb].
    destruct (mem a opa) eqn:Eo; [by intros ?%elem_of_nil|]. apply mem_false in Eo.
    destruct (match matched_parent_b ta m a with Some pb => pos_candidate keqb sim cfg ta tb m a pb | None => None end) as [c|]; [by intros ?%elem_of_nil|].
    intros (y & [= -> ->] & Hy)%elem_of_list_fmap. apply lfilter_elem in Hy as [Hy HA].
    apply lfilter_elem in Hy as [Hy HK]. unfold asked in HA.
    apply andb_true_iff in HA as [HA _]. apply andb_true_iff in HA as [HA _]. apply andb_true_iff in HA as [HA1 HA2].
    apply negb_true_iff in HA1, HA2. split_and!; try done. intros E. by rewrite E in HA2.
  Qed.

  Lemma calls1_nodup opa idx m a : NoDup idx -> NoDup (calls1 opa idx m a).
  Proof using Type.
    intros N. unfold calls1. destruct (_ || _); [constructor|].
    destruct (match matched_parent_b ta m a with Some pb => pos_candidate keqb sim cfg ta tb m a pb | None => None end) as [c|]; [constructor|].
    apply NoDup_fmap_2; [by intros ? ? [= ->]|]. apply NoDup_ListNoDup. do 2 apply List.NoDup_filter. by apply NoDup_ListNoDup.
  Qed.

  Lemma pass1_fold_s opa idx l : forall m, exists c,
    (forall calls, fold_left (pass1_step_s keqb sim cfg ta tb opa idx) l (m, calls) =
      (fold_left (pass1_step keqb sim cfg ta tb opa idx) l m, calls ++ c)) /\
    (NoDup l -> NoDup idx -> NoDup c) /\
    (forall a b, (a, b) ∈ c -> a ∈ l /\ contains_a m a = false /\ a ∉ opa /\ b ∈ idx /\ contains_b m b = false /\
       t_children tb b <> [] /\ keqb (t_kind tb b) (t_kind ta a) = true).
  Proof using Type.
    induction l as [|a l IH]; intros m.
    { exists []. split; [intros calls; cbn; by rewrite app_nil_r|]. split; [by constructor|]. by intros ? ? ?%elem_of_nil. }
    destruct (IH (pass1_step keqb sim cfg ta tb opa idx m a)) as (c & E & N & I).
    exists (calls1 opa idx m a ++ c). split; [|split].
    - intros calls. cbn [fold_left]. rewrite pass1_step_s_eq, E. by rewrite <- app_assoc.
    - intros [Ha Nl]%NoDup_cons Ni. apply NoDup_app. split_and!; [by apply calls1_nodup| |by apply N].
      intros [x b] H1 H2. apply calls1_in in H1 as (-> & _). apply I in H2 as (H2 & _). done.
    - intros x b [Hx|Hx]%elem_of_app.
      + apply calls1_in in Hx as (-> & Hx). split; [by left|done].
      + apply I in Hx as (H1 & H2 & H3 & H4 & H5 & H6). split; [by right|].
        split; [by eapply pass1_back|]. split; [done|]. split; [done|]. split; [by eapply pass1_back|done].
  Qed.

  (** ** The candidate pairs *)

  Variables ra rb : rose.
  Hypothesis PA : presents ta ra.
  Hypothesis PB : presents tb rb.

  Definition ids (p : rose * rose) : nat * nat := (rid (fst p), rid (snd p)).

  Definition rpush (m : matching) (r s : rose) : list (rose * rose) :=
    flat_map (fun x => flat_map (fun y =>
      if negb (contains_b m (rid y))
         && (heqb (t_hash ta (rid x)) (t_hash tb (rid y)) || keqb (t_kind ta (rid x)) (t_kind tb (rid y)))
      then [(x, y)] else []) (rsub s)) (rsub r).

  Lemma map_flat_map {A B C} (f : B -> C) (g : A -> list B) l : map f (flat_map g l) = flat_map (fun x => map f (g x)) l.
  Proof using Type. induction l as [|x l IH]; cbn; [done|]. by rewrite map_app, IH. Qed.
  Lemma flat_map_map {A B C} (f : A -> B) (g : B -> list C) l : flat_map g (map f l) = flat_map (fun x => g (f x)) l.
  Proof using Type. induction l as [|x l IH]; cbn; [done|]. by rewrite IH. Qed.
  Lemma flat_map_flat {A B C} (f : A -> list B) (g : B -> list C) l : flat_map g (flat_map f l) = flat_map (fun x => flat_map g (f x)) l.
  Proof using Type. induction l as [|x l IH]; cbn; [done|]. by rewrite flat_map_app, IH. Qed.

  Lemma td_push_roses m r s : subt r ra -> subt s rb ->
    td_push heqb keqb ta tb m (rid r) (rid s) = map ids (rpush m r s).
  Proof using PA PB.
    intros Hr Hs. unfold td_push, rpush. rewrite (pr_children ta ra PA r Hr), (pr_children tb rb PB s Hs).
    rewrite flat_map_map, map_flat_map. apply flat_map_ext. intros x. rewrite flat_map_map, map_flat_map.
    apply flat_map_ext. intros y. by destruct (_ && _).
  Qed.

  Lemma rpush_pd m r s : flat_map (fun p => pd (fst p) (snd p)) (rpush m r s) ⊆+ flat_map (fun x => flat_map (pd x) (rsub s)) (rsub r).
  Proof using Type.
    unfold rpush. rewrite flat_map_flat. apply flat_map_sub. intros x _. rewrite flat_map_flat. apply flat_map_sub.
    intros y _. destruct (_ && _); cbn; [by rewrite app_nil_r|apply submseteq_nil_l].
  Qed.

  Lemma td_loop_pairs f sf : forall rst m log m' log',
    (forall p, p ∈ rst -> subt (fst p) ra /\ subt (snd p) rb) ->
    td_loop_s heqb keqb cfg ta tb f sf (map ids rst) m log = Some (m', log') ->
    exists new, log' = log ++ new /\ new ⊆+ flat_map (fun p => pd (fst p) (snd p)) rst.
  Proof using PA PB.
    induction f as [|f IH]; intros [|[r s] rst] m log m' log' HP; cbn [map ids fst snd td_loop_s]; try done.
    1-2: intros [= <- <-]; exists []; by rewrite app_nil_r.
    assert (forall p, p ∈ rst -> subt (fst p) ra /\ subt (snd p) rb) as HP' by (intros p Hp; apply HP; by right).
    destruct (HP (r, s)) as [Hr Hs]; [by left|]. cbn [fst snd] in Hr, Hs.
    assert (forall m2, td_loop_s heqb keqb cfg ta tb f sf (map ids rst) m2 (log ++ [(rid r, rid s)]) = Some (m', log') ->
      exists new, log' = log ++ new /\ new ⊆+ flat_map (fun p => pd (fst p) (snd p)) ((r, s) :: rst)) as HC.
    { intros m2 E. destruct (IH rst m2 _ m' log' HP' E) as (new & -> & HN).
      exists ((rid r, rid s) :: new). split; [by rewrite <- app_assoc|]. cbn [flat_map fst snd]. rewrite pd_eq. cbn [app].
      apply submseteq_skip. by apply submseteq_inserts_l. }
    destruct (_ || _); [apply HC|]. destruct (Nat.ltb _ _); [apply HC|].
    destruct (heqb _ _ && _). { destruct (match_subtrees _ _ _ _ _ _); [apply HC|done]. }
    destruct (_ || _). { destruct (keqb _ _); apply HC. }
    rewrite td_push_roses by done. rewrite <- map_rev, <- map_app. intros E.
    apply IH in E as (new & -> & HN).
    - exists ((rid r, rid s) :: new). split; [by rewrite <- app_assoc|]. cbn [flat_map fst snd]. rewrite pd_eq. cbn [app].
      apply submseteq_skip. etrans; [exact HN|]. rewrite flat_map_app. apply submseteq_app; [|done].
      etrans; [|apply (rpush_pd m)]. apply flat_map_sub_l. apply Permutation_submseteq. symmetry. apply Permutation_rev.
    - intros p [Hp|Hp]%elem_of_app; [|by apply HP']. apply elem_of_list_In, in_rev, elem_of_list_In in Hp.
      unfold rpush in Hp. apply elem_flat_map in Hp as (x & Hx & Hp). apply elem_flat_map in Hp as (y & Hy & Hp).
      destruct (_ && _); [|by apply elem_of_nil in Hp]. apply elem_of_list_singleton in Hp as ->. cbn [fst snd].
      split; (eapply subt_trans; [by apply subt_child|done]).
  Qed.
End Stats.

(** ** C77 *)

(** With the statistics on, the matching is the same; what is recorded does not
    depend on what was recorded before. *)
Theorem recording_is_transparent : forall {H K P T} heqb keqb sim cfg (ta tb : dtree H K P T),
  match compute_matching heqb keqb sim cfg ta tb with
  | Val m => exists log c, forall calls,
      compute_matching_s heqb keqb sim cfg ta tb calls = Val (mkRun m log (calls ++ c))
  | o => forall calls, compute_matching_s heqb keqb sim cfg ta tb calls = Diverge /\ o = Diverge
  end.
Proof.
  intros H K P T heqb keqb sim cfg ta tb. unfold compute_matching, compute_matching_s, top_down.
  rewrite <- (td_loop_erase _ _ _ _ _ _ _ _ _ []).
  destruct (td_loop_s _ _ _ _ _ _ _ _ _ _) as [[m log]|]; [|done].
  unfold bottom_up_s, bottom_up. cbn zeta.
  destruct (pass1_fold_s keqb sim cfg ta tb (opaque_descendants ta) (b_index tb m (opaque_descendants tb)) (t_iter ta) m)
    as (c & E & _). exists log, c. intros calls. by rewrite E.
Qed.
Print Assumptions recording_is_transparent.

(** No pair of nodes is a candidate twice, and no Dice coefficient is computed
    twice; so both numbers are at most the product of the sizes. *)
Theorem each_pair_once : forall {H K P T} heqb keqb sim cfg (ta tb : dtree H K P T) ra rb,
  presents ta ra -> presents tb rb ->
  exists r, compute_matching_s heqb keqb sim cfg ta tb reset_stats = Val r /\
    NoDup (run_pairs r) /\ NoDup (run_calls r) /\
    (forall a b, (a, b) ∈ run_pairs r \/ (a, b) ∈ run_calls r -> a ∈ t_iter ta /\ b ∈ t_iter tb) /\
    length (run_pairs r) <= length (t_iter ta) * length (t_iter tb) /\
    let '(calls, ua, ub) := get_stats (run_calls r) in
    calls <= ua * ub /\ ua <= length (t_iter ta) /\ ub <= length (t_iter tb).
Proof.
  intros H K P T heqb keqb sim cfg ta tb ra rb PA PB.
  destruct (compute_matching_total heqb keqb sim cfg ta tb ra PA) as [m E].
  unfold compute_matching, top_down in E.
  unfold compute_matching_s. rewrite <- (td_loop_erase _ _ _ _ _ _ _ _ _ []) in E.
  destruct (td_loop_s _ _ _ _ _ _ _ _ _ _) as [[m1 log]|] eqn:EL; [|done]. clear E.
  assert (NoDup log /\ forall a b, (a, b) ∈ log -> a ∈ t_iter ta /\ b ∈ t_iter tb) as [N1 I1].
  { change [(t_root ta, t_root tb)] with [(t_root ta, t_root tb)] in EL.
    rewrite (pr_root _ _ PA), (pr_root _ _ PB) in EL.
    apply (td_loop_pairs heqb keqb cfg ta tb ra rb PA PB _ _ [(ra, rb)]) in EL as (new & -> & HN).
    2:{ intros p ->%elem_of_list_singleton. split; constructor. }
    cbn [flat_map fst snd app] in HN. rewrite app_nil_r in HN. cbn [app].
    pose proof (pd_nodup ra rb (pr_nodup _ _ PA) (pr_nodup _ _ PB)) as N. split.
    - apply submseteq_Permutation in HN as (k & HN). rewrite HN in N. by apply NoDup_app in N as (? & _).
    - intros a b Hab. rewrite (pr_iter _ _ PA), (pr_iter _ _ PB). apply pd_in. by eapply elem_of_submseteq. }
  unfold bottom_up_s. cbn zeta.
  destruct (pass1_fold_s keqb sim cfg ta tb (opaque_descendants ta) (b_index tb m1 (opaque_descendants tb)) (t_iter ta) m1)
    as (c & E & N2 & I2).
  assert (NoDup c) as Nc.
  { apply N2; [exact (pr_iter_nodup ta ra PA)|]. unfold b_index. apply NoDup_ListNoDup, List.NoDup_filter, NoDup_ListNoDup.
    exact (pr_iter_nodup tb rb PB). }
  assert (forall a b, (a, b) ∈ c -> a ∈ t_iter ta /\ b ∈ t_iter tb) as Ic.
  { intros a b Hab. apply I2 in Hab as (Ha & _ & _ & Hb & _). split; [done|]. by eapply b_index_iter. }
  rewrite E. eexists. split; [reflexivity|]. cbn [run_pairs run_calls reset_stats app]. split_and!; [done|done| | |].
  - intros a b [Hab|Hab]; [by apply I1|by apply Ic].
  - by apply nodup_product.
  - assert (forall l k : list nat, (forall x, x ∈ l -> x ∈ k) -> length (nodup Nat.eq_dec l) <= length k) as HL.
    { intros l k HI. apply List.NoDup_incl_length; [apply List.NoDup_nodup|]. intros x Hx. apply nodup_In in Hx.
      apply elem_of_list_In, HI. by apply elem_of_list_In. }
    unfold get_stats. split_and!.
    + apply nodup_product; [done|]. intros a b Hab. split; apply elem_of_list_In, nodup_In, elem_of_list_In.
      * by apply (elem_of_list_fmap_1 fst _ (a, b)).
      * by apply (elem_of_list_fmap_1 snd _ (a, b)).
    + apply HL. intros x ([a b] & -> & Hab)%elem_of_list_fmap. by apply (Ic a b).
    + apply HL. intros x ([a b] & -> & Hab)%elem_of_list_fmap. by apply (Ic a b).
Qed.
Print Assumptions each_pair_once.

(** A Dice coefficient is computed only for two nodes that the top-down phase left
    unmatched, of the same kind, the second one with children, none of them inside
    opaque content. *)
Theorem dice_only_for : forall {H K P T} heqb keqb sim cfg (ta tb : dtree H K P T) r a b,
  compute_matching_s heqb keqb sim cfg ta tb reset_stats = Val r -> (a, b) ∈ run_calls r ->
  exists m, top_down heqb keqb cfg ta tb m_empty = Some m /\ contains_a m a = false /\ contains_b m b = false /\
    keqb (t_kind tb b) (t_kind ta a) = true /\ t_children tb b <> [] /\
    a ∉ opaque_descendants ta /\ b ∉ opaque_descendants tb.
Proof.
  intros H K P T heqb keqb sim cfg ta tb r a b. unfold compute_matching_s, top_down.
  rewrite <- (td_loop_erase _ _ _ _ _ _ _ _ _ []).
  destruct (td_loop_s _ _ _ _ _ _ _ _ _ _) as [[m1 log]|]; [|done]. unfold bottom_up_s. cbn zeta.
  destruct (pass1_fold_s keqb sim cfg ta tb (opaque_descendants ta) (b_index tb m1 (opaque_descendants tb)) (t_iter ta) m1)
    as (c & E & _ & I). rewrite E. intros [= <-] Hc. cbn in Hc. exists m1. split; [done|].
  apply I in Hc as (H1 & H2 & H3 & H4 & H5 & H6 & H7). unfold b_index in H4. apply lfilter_elem in H4 as [_ H4].
  apply andb_true_iff in H4 as [_ H4]. apply negb_true_iff, mem_false in H4. done.
Qed.
Print Assumptions dice_only_for.

(** And for each of these, at the moment its turn comes: what is recorded is all that is
    computed. *)
Lemma pass1_fold_calls {H K P T} keqb sim cfg (ta tb : dtree H K P T) opa idx l : forall m calls, exists c,
  snd (fold_left (pass1_step_s keqb sim cfg ta tb opa idx) l (m, calls)) = calls ++ c /\
  forall a b, (a, b) ∈ c <-> exists l1 l2, l = l1 ++ a :: l2 /\
    (a, b) ∈ calls1 keqb sim cfg ta tb opa idx (fold_left (pass1_step keqb sim cfg ta tb opa idx) l1 m) a.
Proof.
  induction l as [|x l IH]; intros m calls.
  { exists []. split; [by rewrite app_nil_r|]. intros a b. split; [by intros ?%elem_of_nil|]. intros ([|? ?] & ? & ? & _); done. }
  cbn [fold_left]. rewrite pass1_step_s_eq. destruct (IH (pass1_step keqb sim cfg ta tb opa idx m x)
    (calls ++ calls1 keqb sim cfg ta tb opa idx m x)) as (c & -> & Hc).
  exists (calls1 keqb sim cfg ta tb opa idx m x ++ c). split; [by rewrite app_assoc|]. intros a b. rewrite elem_of_app, Hc. split.
  - intros [Hx|(l1 & l2 & -> & Hl)].
    + pose proof Hx as (-> & _)%calls1_in. by exists [], l.
    + by exists (x :: l1), l2.
  - intros (l1 & l2 & E & Hl). destruct l1 as [|y l1]; cbn in E; injection E as -> ->; [by left|].
    right. by exists l1, l2.
Qed.

Theorem dice_recorded : forall {H K P T} heqb keqb sim cfg (ta tb : dtree H K P T) r l1 a l2,
  compute_matching_s heqb keqb sim cfg ta tb reset_stats = Val r ->
  NoDup (t_iter ta) -> t_iter ta = l1 ++ a :: l2 ->
  exists m0, top_down heqb keqb cfg ta tb m_empty = Some m0 /\
    let opa := opaque_descendants ta in let opb := opaque_descendants tb in
    let m := fold_left (pass1_step keqb sim cfg ta tb opa (b_index tb m0 opb)) l1 m0 in
    forall b, (a, b) ∈ run_calls r <->
      (contains_a m a = false /\ a ∉ opa /\
       match matched_parent_b ta m a with Some pb => pos_candidate keqb sim cfg ta tb m a pb | None => None end = None) /\
      (b ∈ t_iter tb /\ contains_b m0 b = false /\ b ∉ opb /\ keqb (t_kind tb b) (t_kind ta a) = true) /\
      contains_b m b = false /\ t_children tb b <> [] /\ ancestry_compatible ta tb m a b = true /\
      ge_thr cfg (sim (t_props ta a) (t_props tb b)) = true.
Proof.
  intros H K P T heqb keqb sim cfg ta tb r l1 a l2. unfold compute_matching_s, top_down.
  rewrite <- (td_loop_erase _ _ _ _ _ _ _ _ _ []).
  destruct (td_loop_s _ _ _ _ _ _ _ _ _ _) as [[m0 log]|]; [|done]. unfold bottom_up_s. cbn zeta. intros E N EI.
  exists m0. split; [done|]. intros b.
  set (idx := b_index tb m0 (opaque_descendants tb)) in *. set (opa := opaque_descendants ta) in *.
  destruct (pass1_fold_calls keqb sim cfg ta tb opa idx (t_iter ta) m0 reset_stats) as (c & Ec & Hc).
  destruct (fold_left (pass1_step_s _ _ _ _ _ _ _) (t_iter ta) (m0, reset_stats)) as [m1 calls].
  cbn [snd] in Ec. injection E as <-. cbn [run_calls]. rewrite Ec. cbn [reset_stats app]. rewrite Hc.
  set (m := fold_left (pass1_step keqb sim cfg ta tb opa idx) l1 m0).
  transitivity ((a, b) ∈ calls1 keqb sim cfg ta tb opa idx m a).
  { split; [|intros; by exists l1, l2]. intros (k1 & k2 & Ek & Hk). rewrite EI in Ek.
    assert (k1 = l1) as ->; [|done]. rewrite EI in N. clear -N Ek. revert k1 Ek. induction l1 as [|y l1 IH]; intros [|z k1] Ek; cbn in *; [done| | |].
    - injection Ek as -> ->. apply NoDup_cons in N as [N _]. destruct N. rewrite elem_of_app. right. by left.
    - injection Ek as -> <-. apply NoDup_cons in N as [N _]. destruct N. rewrite elem_of_app. right. by left.
    - injection Ek as -> Ek. apply NoDup_cons in N as [_ N]. f_equal. by apply IH. }
  unfold calls1. destruct (contains_a m a); cbn [orb].
  { split; [by intros ?%elem_of_nil|]. by intros [[? _] _]. }
  destruct (mem a opa) eqn:Eo.
  { apply mem_true in Eo. split; [by intros ?%elem_of_nil|]. by intros [(_ & ? & _) _]. }
  apply mem_false in Eo.
  destruct (match matched_parent_b ta m a with Some pb => pos_candidate keqb sim cfg ta tb m a pb | None => None end) as [d|].
  { split; [by intros ?%elem_of_nil|]. by intros [(_ & _ & ?) _]. }
  unfold by_kind, asked. split.
  - intros (y & [= ->] & Hy)%elem_of_list_fmap. apply lfilter_elem in Hy as [Hy HA]. apply lfilter_elem in Hy as [Hy HK].
    unfold idx, b_index in Hy. apply lfilter_elem in Hy as [Hy HB]. apply andb_true_iff in HB as [HB1 HB2].
    apply negb_true_iff in HB1, HB2. apply mem_false in HB2.
    apply andb_true_iff in HA as [HA HA4]. apply andb_true_iff in HA as [HA HA3]. apply andb_true_iff in HA as [HA1 HA2].
    apply negb_true_iff in HA1, HA2. split_and!; try done. intros E. by rewrite E in HA2.
  - intros (_ & (H1 & H2 & H3 & H4) & H5 & H6 & H7 & H8). apply elem_of_list_fmap. exists b. split; [done|].
    apply lfilter_elem. split; [apply lfilter_elem; split; [|done]; unfold idx, b_index; apply lfilter_elem; split; [done|]|].
    + rewrite H2. cbn. by apply negb_true_iff, mem_false.
    + rewrite H5, H7, H8. cbn. by destruct (t_children tb b).
Qed.
Print Assumptions dice_recorded.

(** *** The product is needed *)

Definition flat_tree (n off : nat) : dtree nat unit unit unit := {|
  t_root := 0;
  t_hash := fun i => i + off;
  t_kind := fun _ => tt;
  t_props := fun _ => tt;
  t_text := fun _ => None;
  t_parent := fun i => if Nat.eqb i 0 then None else Some 0;
  t_children := fun i => if Nat.eqb i 0 then seq 1 n else [];
  t_position := fun i => i - 1;
  t_height := fun i => if Nat.eqb i 0 then rheight (Rose 0 (map (fun i => Rose i []) (seq 1 n))) else 0;
  t_iter := seq 0 (S n);
  t_post := seq 1 n ++ [0];
  t_desc := fun i => if Nat.eqb i 0 then seq 0 (S n) else [i];
  t_opaque := fun _ => false |}.
Definition flat_rose (n : nat) : rose := Rose 0 (map (fun i => Rose i []) (seq 1 n)).

Lemma flat_presents n off : presents (flat_tree n off) (flat_rose n).
Proof.
  assert (flat_map preorder (map (fun i => Rose i []) (seq 1 n)) = seq 1 n) as EP.
  { rewrite flat_map_map. cbn. induction (seq 1 n) as [|x l IH]; cbn; [done|]. by rewrite IH. }
  assert (flat_map postorder (map (fun i => Rose i []) (seq 1 n)) = seq 1 n) as EQ.
  { clear EP. rewrite flat_map_map. cbn. induction (seq 1 n) as [|x l IH]; cbn; [done|]. by rewrite IH. }
  assert (map rid (map (fun i => Rose i []) (seq 1 n)) = seq 1 n) as EI.
  { rewrite map_map. cbn. by rewrite map_id. }
  assert (forall s, subt s (flat_rose n) -> s = flat_rose n \/ exists i, s = Rose i [] /\ i <> 0) as HS.
  { intros s Hs. inversion Hs as [|? u ? Hs' Hu]; subst; [by left|]. right. cbn in Hu.
    apply elem_of_list_fmap in Hu as (i & -> & Hi). apply elem_of_seq in Hi. inversion Hs' as [|? u ? Hs2 Hu]; subst; [|by apply elem_of_nil in Hu].
    exists i. split; [done|lia]. }
  constructor.
  - done.
  - cbn. rewrite EP. change (0 :: seq 1 n) with (seq 0 (S n)). apply NoDup_seq.
  - cbn. by rewrite EP.
  - cbn. by rewrite EQ.
  - intros s Hs. destruct (HS s Hs) as [->|(i & -> & Hi)]; cbn; [by rewrite EI|]. by destruct (Nat.eqb_spec i 0).
  - intros s Hs. destruct (HS s Hs) as [->|(i & -> & Hi)]; cbn; [by rewrite EP|]. by destruct (Nat.eqb_spec i 0).
  - intros s Hs. destruct (HS s Hs) as [->|(i & -> & Hi)]; [done|]. cbn -[rheight]. by destruct (Nat.eqb_spec i 0).
  - intros s k c Hs Hc. destruct (HS s Hs) as [->|(i & -> & Hi)]; [|done]. cbn in Hc.
    rewrite list_lookup_fmap in Hc. destruct (seq 1 n !! k) as [x|] eqn:Ex; [|done]. injection Hc as <-.
    apply lookup_seq in Ex as [-> Hk]. cbn. split; [done|lia].
  - done.
Qed.

Lemma flat_pops n off m sf l : forall f log,
  (forall x y, (x, y) ∈ l -> 0 < x /\ 0 < y /\ x <> y + off /\ contains_a m x = false /\ contains_b m y = false) ->
  length l <= f ->
  td_loop_s Nat.eqb (fun _ _ => true) (mkCfg 1 2 0) (flat_tree n 0) (flat_tree n off) f sf l m log = Some (m, log ++ l).
Proof.
  induction l as [|[x y] l IH]; intros f log HI Hf; cbn in Hf.
  { destruct f; cbn; by rewrite app_nil_r. }
  destruct f as [|f]; [lia|]. destruct (HI x y) as (Hx & Hy & Hne & Ha & Hb); [by left|].
  cbn [td_loop_s]. rewrite Ha, Hb. cbn [orb].
  change (Nat.ltb (t_height (flat_tree n 0) x) (min_height (mkCfg 1 2 0))) with false. cbv beta iota zeta.
  change (t_hash (flat_tree n 0) x) with (x + 0). change (t_hash (flat_tree n off) y) with (y + off).
  replace (Nat.eqb (x + 0) (y + off)) with false by (symmetry; apply Nat.eqb_neq; lia). cbn [andb].
  change (t_opaque (flat_tree n 0) x) with false. change (t_opaque (flat_tree n off) y) with false. cbn [orb].
  assert (td_push Nat.eqb (fun _ _ => true) (flat_tree n 0) (flat_tree n off) m x y = []) as ->.
  { unfold td_push. cbn. destruct x; [lia|done]. }
  cbn [rev app]. rewrite IH; [by rewrite <- app_assoc| |lia]. intros u v Huv. apply HI. by right.
Qed.

(** Two roots with [n] children each, no two nodes alike: every pair of children is
    a candidate. *)
Theorem candidates_quadratic : forall n, exists (ta tb : dtree nat unit unit unit) ra rb r,
  presents ta ra /\ presents tb rb /\ length (t_iter ta) = S n /\ length (t_iter tb) = S n /\
  compute_matching_s Nat.eqb (fun _ _ => true) (fun _ _ => (1, 1)) (mkCfg 1 2 0) ta tb reset_stats = Val r /\
  length (run_pairs r) = S (n * n).
Proof.
  intros n. exists (flat_tree n 0), (flat_tree n (S n)), (flat_rose n), (flat_rose n).
  pose proof (flat_presents n 0) as PA. pose proof (flat_presents n (S n)) as PB.
  set (ta := flat_tree n 0) in *. set (tb := flat_tree n (S n)) in *.
  set (l := flat_map (fun x => flat_map (fun y => [(x, y)]) (seq 1 n)) (seq 1 n)).
  assert (length l = n * n) as EL.
  { unfold l. assert (forall k : list nat, length (flat_map (fun x => flat_map (fun y => [(x, y)]) (seq 1 n)) k) = length k * n) as HX.
    { induction k as [|x k IHk]; cbn; [done|]. rewrite app_length, IHk. f_equal.
      transitivity (length (seq 1 n)); [|apply seq_length]. clear IHk l. induction (seq 1 n) as [|y k' IH']; cbn; [done|]. by rewrite IH'. }
    rewrite HX, seq_length. done. }
  assert (td_loop_s Nat.eqb (fun _ _ => true) (mkCfg 1 2 0) ta tb (td_fuel ta tb) (S (length (t_iter ta))) [(t_root ta, t_root tb)] m_empty []
     = Some (m_empty, (0, 0) :: rev l)) as E.
  { assert (exists f, td_fuel ta tb = S f /\ n * n <= f) as (f & -> & Hf).
    { unfold td_fuel. cbn [t_iter ta flat_tree]. rewrite seq_length. cbn [pair_weight]. eexists. split; [reflexivity|].
      cbn [t_root ta tb flat_tree t_children Nat.eqb].
      assert (forall k : list nat, length k * n <= list_sum (flat_map (fun x => map (fun y => pair_weight ta tb n x y) (seq 1 n)) k)) as HX.
      { induction k as [|x k IHk]; [cbn; lia|]. cbn [flat_map length]. rewrite list_sum_app.
        assert (n <= list_sum (map (fun y => pair_weight ta tb n x y) (seq 1 n))); [|lia].
        assert (forall (g : nat -> nat) k, (forall y, 1 <= g y) -> length k <= list_sum (map g k)) as HG.
        { intros g k' Hg. induction k' as [|y k' IH']; [cbn; lia|]. specialize (Hg y). unfold list_sum in *. cbn. lia. }
        rewrite <- (seq_length n 1) at 1. apply HG. intros y. destruct n; cbn [pair_weight]; lia. }
      specialize (HX (seq 1 n)). rewrite seq_length in HX. exact HX. }
    cbn [td_loop_s]. change (t_root ta) with 0. change (t_root tb) with 0.
    change (contains_a m_empty 0 || contains_b m_empty 0) with false.
    change (Nat.ltb (t_height ta 0) (min_height (mkCfg 1 2 0))) with false. cbv beta iota zeta.
    change (t_hash ta 0) with 0. change (t_hash tb 0) with (S n). change (Nat.eqb 0 (S n)) with false. cbn [andb].
    change (t_opaque ta 0) with false. change (t_opaque tb 0) with false. cbn [orb].
    assert (td_push Nat.eqb (fun _ _ => true) ta tb m_empty 0 0 = l) as ->.
    { unfold td_push, l. cbn [t_children ta tb flat_tree Nat.eqb]. apply flat_map_ext. intros x. apply flat_map_ext. intros y.
      assert (contains_b m_empty y = false) as -> by (by destruct y). cbn. by rewrite orb_true_r. }
    rewrite app_nil_r. cbn [app]. unfold ta, tb.
    rewrite flat_pops; [done| |rewrite rev_length; lia].
    intros x y Hxy. apply elem_of_list_In, in_rev, elem_of_list_In in Hxy. unfold l in Hxy.
    apply elem_flat_map in Hxy as (u & Hu & Hxy). apply elem_flat_map in Hxy as (v & Hv & Hxy).
    apply elem_of_list_singleton in Hxy as [= -> ->]. apply elem_of_seq in Hu, Hv.
    split_and!; [lia|lia|lia|by destruct u|by destruct v]. }
  unfold compute_matching_s. rewrite E.
  destruct (bottom_up_s _ _ _ _ _ _ _ _) as [m' calls]. eexists. split_and!; [done|done| | |reflexivity|].
  - cbn. by rewrite seq_length.
  - cbn. by rewrite seq_length.
  - cbn. by rewrite rev_length, EL.
Qed.
Print Assumptions candidates_quadratic.

(** Two trees whose roots have the same hash and kind: there is one candidate. *)
Theorem equal_roots_one_candidate : forall {H K P T} heqb keqb sim cfg (ta tb : dtree H K P T) ra r,
  presents ta ra -> min_height cfg <= rheight ra ->
  heqb (t_hash ta (t_root ta)) (t_hash tb (t_root tb)) = true ->
  keqb (t_kind ta (t_root ta)) (t_kind tb (t_root tb)) = true ->
  compute_matching_s heqb keqb sim cfg ta tb reset_stats = Val r -> run_pairs r = [(t_root ta, t_root tb)].
Proof.
  intros H K P T heqb keqb sim cfg ta tb ra r PA Hh EH EK. unfold compute_matching_s.
  assert (exists f, td_fuel ta tb = S f) as [f ->].
  { unfold td_fuel. destruct (length (t_iter ta)); cbn; eauto. }
  cbn [td_loop_s]. assert (contains_a m_empty (t_root ta) = false) as -> by (by destruct (t_root ta)).
  assert (contains_b m_empty (t_root tb) = false) as -> by (by destruct (t_root tb)). cbn [orb].
  rewrite EH, EK. rewrite (pr_root _ _ PA), (pr_height _ _ PA ra (subt_refl _)).
  destruct (Nat.ltb_spec (rheight ra) (min_height cfg)); [lia|]. cbn [andb].
  destruct (match_subtrees _ _ _ _ _ _) as [m|]; [|done].
  assert (td_loop_s heqb keqb cfg ta tb f (S (length (t_iter ta))) [] m ([] ++ [(rid ra, t_root tb)]) =
    Some (m, [(rid ra, t_root tb)])) as -> by (by destruct f).
  destruct (bottom_up_s _ _ _ _ _ _ _ _) as [m' calls]. by intros [= <-].
Qed.
Print Assumptions equal_roots_one_candidate.

(** The position of a child costs as many comparisons as there are children up to it. *)
Theorem position_cost : forall {D} (a : arena D) p k c,
  wf a -> children a p !! k = Some c -> position_s a c = (position a c, S k) /\ position a c = k.
Proof.
  intros D a p k c W Hk. pose proof (position_spec a p k c W Hk) as EP. split; [|done].
  assert (parent a c = Some p) as HP by (apply (wf_pc _ W); by eapply elem_of_list_lookup_2).
  unfold position_s. rewrite HP, EP. pose proof (wf_nd a W p) as ND.
  assert (forall l i j, NoDup l -> l !! i = Some c -> scan c l j j = (j + i, S (j + i))) as HS.
  { induction l as [|x l IH]; intros [|i] j Nl; cbn; [done|done| |].
    - intros [= ->]. rewrite Nat.eqb_refl. by rewrite Nat.add_0_r.
    - intros Hi. apply NoDup_cons in Nl as [Nx Nl]. destruct (Nat.eqb_spec x c) as [->|_].
      { destruct Nx. by eapply elem_of_list_lookup_2. }
      rewrite (IH i (S j) Nl Hi). f_equal; lia. }
  by rewrite (HS _ k 0 ND Hk).
Qed.
Print Assumptions position_cost.

(** The two pages of the examples: how many candidates and coefficients. *)
Definition ex_run (d e : document) : outcome (list (nat * nat) * list (nat * nat) * (nat * nat)) :=
  let! ta := old_tree d in let! tb := new_tree e in
  let! r := compute_matching_s phash_eqb hkind_eqb props_sim diff_config ta tb reset_stats in
  Val (run_pairs r, run_calls r, (length (t_iter ta), length (t_iter tb))).

Example stats_example :
  ex_run ex_old ex_new =
    Val ([(0, 2); (3, 5); (6, 6); (4, 7); (1, 10); (2, 11)], [(0, 2); (1, 10); (3, 5)], (9, 8)) /\
  ex_run ex_old ex_old = Val ([(0, 2)], [], (9, 9)) /\
  get_stats [(0, 2); (1, 10); (3, 5)] = (3, 3, 3) /\
  position_s (doc_arena ex_old) 1 = (0, 1).
Proof. vm_compute. done. Qed.
