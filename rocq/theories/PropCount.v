(** Property theorem C32 without assumptions on the documents: the number of patches
    is at most quadratic in the size of the two pages, also when nodes are moved below
    themselves, when hashes collide and when there are opaque elements. *)
From stdpp Require Import list_numbers.
From Verif Require Import Base Arena Matching Chawathe Dom HtmlDiff
  ArenaProofs ArenaOps TreeProofs DtreeProofs MatchProofs ScriptProofs DomTree ApplyProofs
  ShadowProofs ConvProofs BuildProofs RoundProofs AssembleProofs ConvTotal DiffTotal NumberProofs PayloadProofs CountProofs
  Instances InstanceProofs PropMatch PropRoundtrip PropTotal PropPayload.
Local Open Scope list_scope.

(** Every node is the child of at most one node. *)
Lemma degrees {D} (a : arena D) : wf a -> forall l, NoDup l -> sum (map (fun p => length (children a p)) l) <= length a.
Proof.
  intros W l ND.
  assert (sum (map (fun p => length (children a p)) l) = length (flat_map (children a) l)) as ->.
  { clear ND. induction l as [|p l IH]; [done|]. cbn [map sum fold_right flat_map]. unfold sum in IH. rewrite app_length. lia. }
  rewrite <- (seq_length (length a) 0). apply submseteq_length, NoDup_submseteq.
  - induction ND as [|p l Hp ND IH]; [constructor|]. cbn [flat_map]. apply NoDup_app. split; [apply (wf_nd _ W)|]. split; [|done].
    intros x Hx Hin. apply elem_of_list_In, in_flat_map in Hin as (q & Hq & Hxq). apply elem_of_list_In in Hq, Hxq.
    apply (wf_pc _ W) in Hx, Hxq. congruence.
  - intros x Hx. apply elem_of_list_In, in_flat_map in Hx as (q & Hq & Hxq). apply elem_of_list_In in Hxq.
    pose proof (wf_child_lt _ _ _ W Hxq). apply elem_of_seq. lia.
Qed.

Lemma sum_submseteq l k : l ⊆+ k -> sum l <= sum k.
Proof. induction 1; cbn in *; unfold sum in *; lia. Qed.

Lemma opaque_contents_count {H} (heqb : H -> H -> bool) new ta (tb : dtree H hkind attrs string) : forall pairs oc,
  opaque_contents heqb new ta tb pairs = Val oc -> length oc <= length pairs.
Proof.
  induction pairs as [|[x y] l IH]; intros oc E; [injection E as <-; done|]. cbn [opaque_contents] in E.
  destruct (negb _); [specialize (IH _ E); cbn; lia|]. destruct (heqb _ _); [specialize (IH _ E); cbn; lia|].
  bnd E s1 E1. bnd E r Er. injection E as <-. specialize (IH r eq_refl). cbn. lia.
Qed.
Lemma opaque_patches_count sh : forall oc ps, opaque_patches sh oc = Val ps -> length ps = length oc.
Proof.
  induction oc as [|[x s] oc IH]; intros ps E; [injection E as <-; done|]. cbn [opaque_patches] in E.
  bnd E q E1. bnd E qs Es. injection E as <-. cbn. f_equal. by apply IH.
Qed.
Lemma insert_all_count a : forall l pos ps, insert_all a l pos = Val ps -> length ps = length l.
Proof.
  induction l as [|c l IH]; intros pos ps E; [injection E as <-; done|]. cbn [insert_all] in E.
  bnd E p Ep. bnd E qs Es. injection E as <-. cbn. f_equal. by eapply IH.
Qed.

Lemma mk_dtree_iter {D H} hcomb (h0 : H) (f : D -> tdata) (a : arena D) i t : wf a -> i < length a ->
  mk_dtree hcomb h0 f a i = Val t -> length (t_iter t) <= length a.
Proof.
  intros W Hi E. destruct (tree_exists a i W) as (r & Er & Hr). unfold mk_dtree in E.
  rewrite <- Er, (descendants_spec _ _ W Hr) in E. cbn [ofuel obind] in E. bnd E po Epo. injection E as <-. cbn.
  apply is_tree_size; [done|done|by rewrite Er].
Qed.

(** The two sides of the pairs: only the root of the new body may occur twice. *)
Lemma html_matching_sides {H} (heqb : H -> H -> bool) (ta tb : dtree H hkind attrs string) m :
  html_matching heqb ta tb = Val m -> NoDup (map fst (m_pairs m)) /\
  exists l k, map snd (m_pairs m) = l ++ k /\ NoDup l /\ NoDup k.
Proof.
  unfold html_matching. intros E. bnd E m0 E0. pose proof (compute_matching_bijection _ _ _ _ _ _ _ E0) as B0.
  destruct (hkind_eqb _ _ && _) eqn:Ec; injection E as <-.
  - cbn [m_add m_pairs]. rewrite !map_app. cbn [map fst snd]. split.
    + apply NoDup_app. split; [apply B0|]. split; [|apply NoDup_singleton]. intros x Hx Hr.
      apply elem_of_list_singleton in Hr. apply andb_true_iff in Ec as [_ Ec]. apply negb_true_iff, contains_a_false in Ec.
      apply elem_of_list_fmap in Hx as ([a b] & Hxa & Hin). apply (bij_fwd _ B0) in Hin. cbn [fst] in Hxa. subst x. rewrite Hr in *. congruence.
    + eexists _, _. split; [done|]. split; [apply B0|apply NoDup_singleton].
  - split; [apply B0|]. eexists _, []. split; [by rewrite app_nil_r|]. split; [apply B0|constructor].
Qed.

Lemma flat_map_sub {A B C} (f : A -> list B) (g : B -> list C) (h : A -> C) l :
  (forall x, length (flat_map g (f x)) <= 1 /\ forall y, y ∈ flat_map g (f x) -> y = h x) ->
  flat_map g (flat_map f l) ⊆+ map h l.
Proof.
  intros HF. induction l as [|x l IH]; [done|]. cbn [flat_map map]. rewrite flat_map_app.
  destruct (HF x) as [H1 H2]. destruct (flat_map g (f x)) as [|y [|z r]]; cbn [app length] in *; [by apply submseteq_cons| |lia].
  rewrite (H2 y ltac:(left)). by apply submseteq_skip.
Qed.

Lemma submseteq_nodup {A} (l k : list A) : l ⊆+ k -> NoDup k -> NoDup l.
Proof. intros (r & E)%submseteq_Permutation ND. rewrite E in ND. by apply NoDup_app in ND as (? & _ & _). Qed.

Lemma position_lt {D} (a : arena D) i p : wf a -> parent a i = Some p -> position a i < length (children a p).
Proof.
  intros W Hp. unfold position. rewrite Hp. apply (wf_pc _ W) in Hp. destruct (index_of_elem i _ Hp) as (k & Ek).
  rewrite Ek. apply index_of_lookup in Ek. by eapply lookup_lt_Some.
Qed.

Lemma flat_map_nil {A B} (f : A -> list B) l : (forall x, x ∈ l -> f x = []) -> flat_map f l = [].
Proof.
  intros HF. induction l as [|x l IH]; [done|]. cbn [flat_map]. rewrite (HF x ltac:(left)). apply IH. intros y Hy. apply HF. by right.
Qed.

Section Script.
  Context {H : Type}.
  Variables (ta tb : dtree H hkind attrs string) (m : matching).
  Notation script := (html_edit_script ta tb m).

  (** Every old node is moved at most once. *)
  Lemma script_subjects : NoDup (map fst (m_pairs m)) -> NoDup (flat_map subject script).
  Proof.
    intros ND. unfold html_edit_script. rewrite script_eq, !flat_map_app.
    rewrite (flat_map_nil subject (flat_map _ (m_pairs m))) at 1.
    2:{ intros op Hop. apply elem_flat_map in Hop as (z & _ & Hop). by apply in_ph1 in Hop as (a & b & -> & _ & _ & [[? ->]|[? ->]]). }
    rewrite (flat_map_nil subject (flat_map _ (t_iter tb))).
    2:{ intros op Hop. apply elem_flat_map in Hop as (z & _ & Hop). by apply in_ph2 in Hop as (_ & _ & p & _ & ->). }
    rewrite (flat_map_nil subject (flat_map _ (t_post ta))).
    2:{ intros op Hop. apply elem_flat_map in Hop as (z & _ & Hop). by apply in_ph5 in Hop as (_ & _ & ->). }
    cbn [app]. rewrite app_nil_r. eapply (submseteq_nodup _ (map fst (m_pairs m))); [|done].
    apply flat_map_sub. intros [a b]. unfold phase4.
    repeat case_match; cbn; (split; [lia|]); intros y Hy; try by apply elem_of_nil in Hy.
    all: by apply elem_of_list_singleton in Hy.
  Qed.

  (** New nodes that get a place: those inserted and those moved. *)
  Lemma script_sets : flat_map sets script ⊆+ t_iter tb ++ map snd (m_pairs m).
  Proof.
    unfold html_edit_script. rewrite script_eq, !flat_map_app.
    rewrite (flat_map_nil sets (flat_map _ (m_pairs m))) at 1.
    2:{ intros op Hop. apply elem_flat_map in Hop as (z & _ & Hop). by apply in_ph1 in Hop as (a & b & -> & _ & _ & [[? ->]|[? ->]]). }
    rewrite (flat_map_nil sets (flat_map _ (t_post ta))).
    2:{ intros op Hop. apply elem_flat_map in Hop as (z & _ & Hop). by apply in_ph5 in Hop as (_ & _ & ->). }
    cbn [app]. rewrite app_nil_r. apply submseteq_app.
    - rewrite <- (map_id (t_iter tb)) at 2. apply flat_map_sub. intros b. unfold phase2.
      repeat case_match; cbn; (split; [lia|]); intros y Hy; try by apply elem_of_nil in Hy.
      by apply elem_of_list_singleton in Hy.
    - apply flat_map_sub. intros [a b]. unfold phase4.
      repeat case_match; cbn; (split; [lia|]); intros y Hy; try by apply elem_of_nil in Hy.
      all: by apply elem_of_list_singleton in Hy.
  Qed.
End Script.

(** ** C32 *)

(** For all proper documents (trees in which texts and comments have no children) and
    all hashes.  [n], [k]: the number of nodes of the two documents. *)
Theorem patch_count_all : forall {H} (heqb : H -> H -> bool) hcomb h0 (old new : document) n k,
  proper old -> proper new -> length (doc_arena old) = n -> length (doc_arena new) = k ->
  exists ps, diff heqb hcomb h0 old new = Val ps /\
    length ps <= (4 * n + k) * (9 * n + 6 * k + 3) + n + k.
Proof.
  intros H heqb hcomb h0 old new n k PO PN En Ek.
  destruct (diff_total heqb hcomb h0 old new PO PN) as (ps & E). exists ps. split; [done|].
  destruct (body old) as [ob|] eqn:EO, (body new) as [nb|] eqn:EN.
  2:{ unfold diff in E. rewrite EO, EN in E. injection E as <-. rewrite map_length, rev_length, seq_length.
      pose proof (wf_fan _ (pp_wf _ PO) ob). lia. }
  2:{ unfold diff in E. rewrite EO, EN in E. apply insert_all_count in E. pose proof (wf_fan _ (pp_wf _ PN) nb). lia. }
  2:{ unfold diff in E. rewrite EO, EN in E. injection E as <-. cbn. lia. }
  destruct (diff_parts heqb hcomb h0 old new ob nb PO PN EO EN) as (t & ta & tb & rb & m & sh & oc & l1 & l2 & DP).
  destruct (dp_trees _ _ _ _ _ _ _ _ _ _ _ _ _ _ DP) as (ob' & nb' & EO' & EN' & Et & Ea & Eb).
  rewrite EO in EO'. injection EO' as <-. rewrite EN in EN'. injection EN' as <-.
  pose proof (pp_wf _ PN) as WN.
  destruct (build_tree_small old ob t (pp_wf _ PO) (proper_html _ PO) EO Et) as [HLt _].
  destruct (body_data old ob EO) as (x & Ex). destruct (body_data new nb EN) as (y & Ey).
  assert (wf t) as Wt.
  { destruct (proper_children old ob PO) as (ts & Hts).
    destruct (build_tree_ok (doc_arena old) ob _ ts (pp_wf _ PO) Ex Hts) as (t' & Et' & BT). rewrite Et in Et'. injection Et' as <-. apply BT. }
  pose proof (dp_len _ _ _ _ _ _ _ _ _ _ _ _ _ _ DP) as L0.
  pose proof (mk_dtree_iter _ _ _ _ _ _ Wt L0 Ea) as HA.
  pose proof (mk_dtree_iter _ _ _ _ _ _ WN (data_lt _ _ _ Ey) Eb) as HB.
  destruct (tree_exists t 0 Wt) as (ra & Hra & Hta).
  destruct (mk_dtree_presents hcomb h0 (fun d => d) t ra Wt) as (ta' & Ea' & PA); [by rewrite Hra|done|].
  rewrite Hra, Ea in Ea'. injection Ea' as <-.
  pose proof (dp_tb _ _ _ _ _ _ _ _ _ _ _ _ _ _ DP) as PB.
  pose proof (dp_match _ _ _ _ _ _ _ _ _ _ _ _ _ _ DP) as EM.
  destruct (html_matching_pairs heqb ta tb ra rb m PA PB EM) as (MQ & MF).
  destruct (html_matching_sides heqb ta tb m EM) as (NDa & lb & kb & Elk & NDl & NDk).
  assert (length (m_pairs m) <= n) as HM.
  { rewrite <- En, <- (map_length fst). etransitivity; [|exact HLt]. etransitivity; [|exact HA].
    apply submseteq_length, NoDup_submseteq; [done|]. intros z Hz. apply elem_of_list_fmap in Hz as ([a b] & -> & Hab).
    by destruct (MQ a b Hab). }
  pose proof (dp_script _ _ _ _ _ _ _ _ _ _ _ _ _ _ DP) as ES.
  assert (length (l1 ++ l2) <= 4 * n + k) as HK.
  { rewrite <- ES. unfold html_edit_script.
    pose proof (script_length String.eqb props_empty props_diff any_different (@length prop_change) (@length attr) ta tb m) as HS.
    assert (forall {A} (f : A -> bool) l, length (List.filter f l) <= length l) as HFl.
    { intros A f l. induction l as [|z l IH]; cbn; [lia|]. destruct (f z); cbn; lia. }
    pose proof (HFl _ (fun b => negb (contains_b m b)) (t_iter tb)).
    pose proof (HFl _ (fun a => negb (contains_a m a)) (t_post ta)).
    assert (length (t_post ta) = length (t_iter ta)) as EL.
    { rewrite (pr_post _ _ PA), (pr_iter _ _ PA). apply Permutation_length, postorder_perm. }
    etransitivity; [exact HS|lia]. }
  pose proof (script_subjects ta tb m NDa) as NDs. rewrite ES, flat_map_app in NDs. apply NoDup_app in NDs as (NDs & _ & _).
  set (deg := fun p => length (children (doc_arena new) p)).
  assert (sum (map deg (flat_map sets l1)) <= 3 * k) as HSet.
  { pose proof (script_sets ta tb m) as HS. rewrite ES, flat_map_app, Elk in HS.
    assert (flat_map sets l1 ⊆+ t_iter tb ++ lb ++ kb) as HS1.
    { etransitivity; [|exact HS]. apply submseteq_inserts_r. done. }
    apply (fmap_submseteq deg) in HS1. apply sum_submseteq in HS1. rewrite !fmap_app, !(sum_app _ L0) in HS1.
    pose proof (degrees (doc_arena new) WN (t_iter tb) ltac:(rewrite (pr_iter _ _ PB); apply PB)).
    pose proof (degrees (doc_arena new) WN lb NDl). pose proof (degrees (doc_arena new) WN kb NDk).
    unfold deg in *. change (@fmap list list_fmap nat nat) with (@map nat nat) in HS1. lia. }
  pose proof (dp_sh _ _ _ _ _ _ _ _ _ _ _ _ _ _ DP) as CI.
  pose proof (dp_new _ _ _ _ _ _ _ _ _ _ _ _ _ _ DP) as Esh.
  assert (length (sh_arena sh) = length t + 2) as HSh.
  { destruct (shadow_new_full t Wt L0) as (sh' & Esh' & FS).
    - destruct (proper_children old ob PO) as (ts & Hts).
      destruct (build_tree_ok (doc_arena old) ob _ ts (pp_wf _ PO) Ex Hts) as (t' & Et' & BT). rewrite Et in Et'. injection Et' as <-. apply BT.
    - rewrite Esh in Esh'. injection Esh' as <-. rewrite (fs_len _ _ FS). lia. }
  rewrite (dp_diff _ _ _ _ _ _ _ _ _ _ _ _ _ _ DP) in E. rewrite convert_loop_app in E.
  bnd E s2 E2. bnd E2 s1 E1.
  assert (length (cs_out s1) <= 0 + length l1 * S (length t + 2 + 2 * length l1 + holes deg (seq 0 k) (mkCS sh (b2s_of (m_pairs m)) []) + sum (map deg (flat_map sets l1)))) as H1.
  { apply (convert_loop_count (length t) tb rb (m_pairs m) (insert_nodes (l1 ++ l2)) PB L0
      (dp_iter _ _ _ _ _ _ _ _ _ _ _ _ _ _ DP) MF deg (seq 0 k) (NoDup_seq _ _) l1 (length t + 2) _ s1 CI); [|done| |done].
    - intros op Hop. split; [by apply (dp_sound _ _ _ _ _ _ _ _ _ _ _ _ _ _ DP)|].
      assert (op ∈ html_edit_script ta tb m) as Hs by (rewrite ES; apply elem_of_app; by left).
      assert (forall b p, t_parent tb b = Some p -> p ∈ seq 0 k /\ t_position tb b < deg p /\ p <> b) as HPl.
      { assert (t_parent tb = parent (doc_arena new) /\ t_position tb = position (doc_arena new)) as [-> ->].
        { unfold mk_dtree in Eb. bnd Eb it Eit. bnd Eb po Epo. injection Eb as <-. done. }
        intros b p Hp. split; [apply elem_of_seq; pose proof (wf_parent_lt _ _ _ WN Hp); lia|].
        split; [by apply position_lt|]. intros ->. destruct (wf_chain _ WN b) as [l Hc]. pose proof (chain_not_self _ _ _ Hc) as Hn. inversion Hc; subst; [congruence|]. rewrite Hp in H0. injection H0 as <-. apply Hn. left. }
      apply in_script in Hs as [(z & _ & Hz)|[(z & _ & Hz)|[(z & _ & Hz)|(z & _ & Hz)]]].
      + by apply in_ph1 in Hz as (a & b & -> & _ & _ & [[? ->]|[? ->]]).
      + apply in_ph2 in Hz as (_ & _ & p & Hp & ->). by apply HPl.
      + apply in_ph4 in Hz as (a & b & pa & pb & -> & _ & _ & _ & Hp & -> & _). by apply HPl.
      + by apply in_ph5 in Hz as (_ & _ & ->).
    - exists []. split; [constructor|]. cbn [length cs_shadow]. split; [lia|]. intros z Hz. by apply elem_of_nil in Hz. }
  pose proof (deletes_count _ tb (insert_nodes (l1 ++ l2)) L0 l2 s1 s2 (fun op Hop => let (a, Ha) := dp_del _ _ _ _ _ _ _ _ _ _ _ _ _ _ DP op Hop in ex_intro _ a (proj1 Ha)) E2) as H2.
  assert (holes deg (seq 0 k) (mkCS sh (b2s_of (m_pairs m)) []) <= k) as HH.
  { rewrite <- Ek at 2. etransitivity; [|apply (degrees (doc_arena new) WN (seq 0 k) (NoDup_seq _ _))].
    unfold holes. clear. induction (seq 0 k) as [|z l IH]; [done|]. cbn [map sum fold_right]. unfold sum in IH. unfold unfilled at 1, deg at 1. lia. }
  assert (length ps <= length (cs_out s2) + n) as HP.
  { pose proof (opaque_contents_count _ _ _ _ _ _ (dp_oc _ _ _ _ _ _ _ _ _ _ _ _ _ _ DP)) as HO.
    destruct oc as [|z oc]; [injection E as <-; lia|]. bnd E qs Eqs. injection E as <-. rewrite app_length, (opaque_patches_count _ _ _ Eqs). lia. }
  rewrite app_length in HK. rewrite En in HLt.
  assert (length (cs_out s2) <= (length l1 + length l2) * (9 * n + 6 * k + 3)) as HF.
  { rewrite H2. rewrite Nat.mul_add_distr_r. apply Nat.add_le_mono.
    - etransitivity; [exact H1|]. cbn [Nat.add]. apply Nat.mul_le_mono_l. lia.
    - nia. }
  etransitivity; [exact HP|]. enough ((length l1 + length l2) * (9 * n + 6 * k + 3) <= (4 * n + k) * (9 * n + 6 * k + 3)) by lia.
  by apply Nat.mul_le_mono_r.
Qed.
Print Assumptions patch_count_all.

(** Together with C51: every number in a patch is bounded by the sizes of the pages
    alone. *)
Theorem patch_numbers_page : forall {H} (heqb : H -> H -> bool) hcomb h0 (old new : document) n k ps,
  proper old -> proper new -> length (doc_arena old) = n -> length (doc_arena new) = k ->
  diff heqb hcomb h0 old new = Val ps ->
  forall p x, p ∈ ps -> x ∈ patch_numbers p -> x <= 144 * (n + k) * (n + k) + 53 * (n + k) + 2.
Proof.
  intros H heqb hcomb h0 old new n k ps PO PN En Ek E p x Hp Hx.
  destruct (patch_count_all heqb hcomb h0 old new n k PO PN En Ek) as (ps' & E' & HL).
  rewrite E in E'. injection E' as <-.
  pose proof (patch_numbers_bounded heqb hcomb h0 old new ps (pp_wf _ PO) (proper_html _ PO) (pp_wf _ PN) E p x Hp Hx) as HB.
  nia.
Qed.
Print Assumptions patch_numbers_page.

(** Two pages of together at most 5000 nodes: all numbers fit into [u32]. *)
Theorem patch_numbers_u32 : forall {H} (heqb : H -> H -> bool) hcomb h0 (old new : document) ps,
  proper old -> proper new ->
  (N.of_nat (length (doc_arena old)) + N.of_nat (length (doc_arena new)) <= 5000)%N ->
  diff heqb hcomb h0 old new = Val ps ->
  forall p x, p ∈ ps -> x ∈ patch_numbers p -> (N.of_nat x < 2 ^ 32)%N.
Proof.
  intros H heqb hcomb h0 old new ps PO PN HN E p x Hp Hx.
  pose proof (patch_numbers_page heqb hcomb h0 old new _ _ ps PO PN eq_refl eq_refl E p x Hp Hx) as HB.
  revert HB HN. generalize (length (doc_arena old)) as n, (length (doc_arena new)) as k. intros n k HB HN.
  assert (N.of_nat x <= 144 * (N.of_nat n + N.of_nat k) * (N.of_nat n + N.of_nat k) + 53 * (N.of_nat n + N.of_nat k) + 2)%N as HX by lia.
  change (2 ^ 32)%N with 4294967296%N. nia.
Qed.
Print Assumptions patch_numbers_u32.

(** The documents of [total_old] and [total_new] (19 and 18 nodes, nesting swaps, a
    changed opaque element) give 20 patches for 17 operations: there are more patches
    than operations, so the bound on operations is not one on patches. *)
Example patch_count_all_example :
  proper (mk_doc [] total_old) /\ proper (mk_doc [] total_new) /\
  length (doc_arena (mk_doc [] total_old)) = 19 /\ length (doc_arena (mk_doc [] total_new)) = 18 /\
  (exists ps, pdiff (mk_doc [] total_old) (mk_doc [] total_new) = Val ps /\ length ps = 20 /\
     exists p, p ∈ ps /\ 3 ∈ patch_numbers p) /\
  (let! t := build_tree (doc_arena (mk_doc [] total_old)) 2 in
   let! ta := mk_dtree PH PH0 (fun d => d) t 0 in
   let! tb := mk_dtree PH PH0 tdata_of (doc_arena (mk_doc [] total_new)) 2 in
   let! m := html_matching phash_eqb ta tb in Val (length (html_edit_script ta tb m))) = Val 17.
Proof.
  split; [apply proper_mk_doc; vm_compute; reflexivity|].
  split; [apply proper_mk_doc; vm_compute; reflexivity|].
  do 2 (split; [vm_compute; reflexivity|]). split; [|vm_compute; reflexivity].
  eexists. split; [vm_compute; reflexivity|]. split; [vm_compute; reflexivity|].
  exists (PInsertElement [0; 3] "body" [] [] (Some 3)). split; [|vm_compute; right; left].
  apply elem_of_list_lookup. exists 3. vm_compute. reflexivity.
Qed.
