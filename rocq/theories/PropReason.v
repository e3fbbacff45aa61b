(** C65: every match has a reason, and obvious matches are not missed. *)
From Verif Require Import Base Arena Matching Chawathe Dom HtmlDiff.
From Verif Require Import TreeProofs MatchProofs DtreeProofs ScriptProofs ReasonProofs EmptyProofs AttrProofs HashProofs.
From Verif Require Import Instances PropMatch.
Local Open Scope string_scope.

(** Each pair is added for one of seven reasons, which only look at the pairs added
    before it: equal trees high enough, or at the same place in such trees; opaque
    elements of the same kind; same position below matched parents and alike; enough
    matched descendants in common, alike and below the parent's partner; roots; equal
    leaves below matched parents; equal or alike leaves whose parents have no partner
    elsewhere. *)
Theorem matched_for_a_reason :
  forall {H K P T} (heqb : H -> H -> bool) (keqb : K -> K -> bool) (sim : P -> P -> ratio)
         (cfg : config) (ta tb : dtree H K P T) (m : matching) a b,
  compute_matching heqb keqb sim cfg ta tb = Val m -> (a, b) ∈ m_pairs m ->
  exists before after, m_pairs m = (before ++ (a, b) :: after)%list /\ reason heqb keqb sim cfg ta tb before a b.
Proof. intros. by apply matching_reasons. Qed.
Print Assumptions matched_for_a_reason.

(** Number of names in both lists. *)
Definition common_names (x y : attrs) : nat :=
  length (List.filter (fun q => existsb (qname_eqb q) (map fst y)) (map fst x)).
Definition half_in_common (x y : attrs) : Prop := length x + length y <= 4 * common_names x y \/ (x = [] /\ y = []).

Lemma qdedup_nodup (l : list qname) : NoDup l -> qdedup l = l.
Proof.
  induction 1 as [|q l Hq ND IH]; [done|]. cbn. rewrite IH.
  destruct (existsb (qname_eqb q) l) eqn:E; [|done]. apply existsb_exists in E as (r & Hr & E). apply qname_eqb_eq in E as ->.
  exfalso. apply Hq. by apply elem_of_list_In.
Qed.

Lemma props_half x y : NoDup (map fst x) -> NoDup (map fst y) ->
  thr_num diff_config * snd (props_sim x y) <= fst (props_sim x y) * thr_den diff_config -> half_in_common x y.
Proof.
  intros NX NY. unfold props_sim, keys. rewrite (qdedup_nodup (map fst x)), (qdedup_nodup (map fst y)) by done. intros E.
  destruct x as [|a x]; [destruct y as [|b y]; [by right|]|]; left; unfold common_names; cbn [fst snd] in E; unfold diff_config in E; cbn [thr_num thr_den] in E; rewrite !map_length in E; (match type of E with 1 * ?s <= 2 * ?n * 2 => change (s <= 4 * n) end); lia.
Qed.

Lemma along_equal {H K P T} (heqb : H -> H -> bool) (ta tb : dtree H K P T) ra rb a0 b0 a b :
  presents ta ra -> presents tb rb -> no_collision heqb ta tb ->
  a0 ∈ t_iter ta -> b0 ∈ t_iter tb -> heqb (t_hash ta a0) (t_hash tb b0) = true ->
  along ta tb a0 b0 a b -> a ∈ t_iter ta /\ b ∈ t_iter tb /\ heqb (t_hash ta a) (t_hash tb b) = true.
Proof.
  intros PA PB NC Ha Hb Hh HA. induction HA as [|a b k x y HA IH Oa Ob Hx Hy]; [done|].
  destruct IH as (Ia & Ib & E). destruct (NC a b Ia Ib E) as [_ HF].
  pose proof (Forall2_lookup_lr _ _ _ _ _ _ HF Hx Hy) as Exy.
  split; [by apply (pr_child ta ra PA a x Ia), (elem_of_list_lookup_2 _ k)|].
  split; [by apply (pr_child tb rb PB b y Ib), (elem_of_list_lookup_2 _ k)|done].
Qed.

(** The hashes of two nodes are equal. *)
Definition same_hash {H K P T} (heqb : H -> H -> bool) (ta tb : dtree H K P T) (a b : nat) : Prop :=
  heqb (t_hash ta a) (t_hash tb b) = true \/ heqb (t_hash tb b) (t_hash ta a) = true.

(** In [diff]: a node is kept as another one (its attributes edited, its text set)
    only if the two have the same hash, or share half of their attribute names, or
    one is opaque, or they are the bodies. *)
Theorem kept_as :
  forall {H} (heqb : H -> H -> bool) (ta tb : dtree H hkind attrs string) ra rb m a b,
  presents ta ra -> presents tb rb -> no_collision heqb ta tb ->
  (forall x, x ∈ t_iter ta -> NoDup (map fst (t_props ta x))) ->
  (forall x, x ∈ t_iter tb -> NoDup (map fst (t_props tb x))) ->
  html_matching heqb ta tb = Val m -> (a, b) ∈ m_pairs m ->
  t_kind ta a = t_kind tb b /\
  ((a = t_root ta /\ b = t_root tb) \/ same_hash heqb ta tb a b \/
   t_opaque ta a = true \/ t_opaque tb b = true \/ half_in_common (t_props ta a) (t_props tb b)).
Proof.
  intros H heqb ta tb ra rb m a b PA PB NC NX NY E Hin. unfold html_matching in E.
  destruct (compute_matching heqb hkind_eqb props_sim diff_config ta tb) as [m0| | |] eqn:E0; try done. cbn [obind] in E.
  assert ((a, b) ∈ m_pairs m0 -> t_kind ta a = t_kind tb b /\
    ((a = t_root ta /\ b = t_root tb) \/ same_hash heqb ta tb a b \/
     t_opaque ta a = true \/ t_opaque tb b = true \/ half_in_common (t_props ta a) (t_props tb b))) as HM.
  { clear Hin. intros Hin. split.
    { apply (compute_matching_kinds heqb hkind_eqb props_sim diff_config ta tb ra rb PA PB m0 a b NC); [|done|done].
      intros ? ?. apply hkind_eqb_eq. }
    destruct (matching_reasons heqb hkind_eqb props_sim diff_config ta tb m0 a b E0 Hin) as (l0 & l1 & El & HR).
    destruct (compute_matching_iter heqb _ _ _ ta tb ra rb PA PB m0 a b E0 Hin) as [Ia Ib].
    right. destruct HR as [a0 b0 Hh Hk Hm HA Hl|Ho Hk Hm|pa pb Ep Hl Hc Hk Hpos Hs|Hk Hs Hpa Hc Hd|Ep1 Ep2 Hk Hs|pa pb Ep Hl Hc L1 L2 Hk Hh|Hp L1 L2 Hpa Hk Hs].
    - left. left. assert ((a0, b0) ∈ m_pairs m0) as H0.
      { rewrite El. apply elem_of_app in Hl as [Hl|Hl]; apply elem_of_app; [by left|right]. apply elem_of_list_singleton in Hl as ->. left. }
      destruct (compute_matching_iter heqb _ _ _ ta tb ra rb PA PB m0 a0 b0 E0 H0) as [I1 I2].
      by destruct (along_equal heqb ta tb ra rb a0 b0 a b PA PB NC I1 I2 Hh HA) as (_ & _ & ?).
    - right. destruct Ho as [Ho|Ho]; [by left|right; by left].
    - right. right. right. by apply props_half; [apply NX|apply NY|].
    - right. right. right. by apply props_half; [apply NX|apply NY|].
    - right. right. right. by apply props_half; [apply NX|apply NY|].
    - left. by right.
    - destruct Hs as [Hs|Hs]; [left; by right|]. right. right. right. by apply props_half; [apply NX|apply NY|]. }
  destruct (hkind_eqb (t_kind ta (t_root ta)) (t_kind tb (t_root tb)) && negb (contains_a m0 (t_root ta))) eqn:Ef.
  - injection E as <-. cbn in Hin. apply elem_of_app in Hin as [Hin|Hin]; [by apply HM|].
    apply elem_of_list_singleton in Hin as [= -> ->]. apply andb_true_iff in Ef as [Ef _]. apply hkind_eqb_eq in Ef. split; [done|by left].
  - injection E as <-. by apply HM.
Qed.
Print Assumptions kept_as.

(** So attributes are edited only there. *)
Corollary edited_attributes :
  forall {H} (heqb : H -> H -> bool) (ta tb : dtree H hkind attrs string) ra rb m a b ch,
  presents ta ra -> presents tb rb -> no_collision heqb ta tb ->
  (forall x, x ∈ t_iter ta -> NoDup (map fst (t_props ta x))) ->
  (forall x, x ∈ t_iter tb -> NoDup (map fst (t_props tb x))) ->
  html_matching heqb ta tb = Val m ->
  UpdateProperties a b ch ∈ html_edit_script ta tb m ->
  (a = t_root ta /\ b = t_root tb) \/ same_hash heqb ta tb a b \/
  t_opaque ta a = true \/ t_opaque tb b = true \/ half_in_common (t_props ta a) (t_props tb b).
Proof.
  intros H heqb ta tb ra rb m a b ch PA PB NC NX NY E Hop.
  eapply (kept_as heqb ta tb ra rb m a b); try done.
  unfold html_edit_script in Hop. apply in_script in Hop as [(q & Hq & Hop)|[(b' & Hb & Hop)|[(q & _ & Hop)|(a' & _ & Hop)]]].
  - apply in_ph1 in Hop as (x & y & -> & _ & _ & [[s F]|[c F]]); [done|]. by injection F as <- <- _.
  - by apply in_ph2 in Hop as (? & ? & ? & ? & ?).
  - by apply in_ph4 in Hop as (? & ? & ? & ? & ? & ? & ? & ? & ? & ? & ?).
  - by apply in_ph5 in Hop as (? & ? & ?).
Qed.
Print Assumptions edited_attributes.

(** ** C12 in the edit script: the changes of matched nodes *)

Definition updates (a : nat) (op : hop) : bool :=
  match op with UpdateProperties a' _ _ => Nat.eqb a' a | _ => false end.
Definition retexts (a : nat) (op : hop) : bool :=
  match op with SetText a' _ _ => Nat.eqb a' a | _ => false end.

(** A matched pair outside opaque content gets no attribute update if the attribute
    lists are equal, and otherwise one that makes the new list of the old one; and it
    gets a new text if and only if the new node has a text which the old one lacks. *)
Theorem updates_exact :
  forall {H} (ta tb : dtree H hkind attrs string) ra rb (m : matching) a b,
  presents ta ra -> presents tb rb -> bijection m -> (a, b) ∈ m_pairs m ->
  ~ inside_opaque ta ra a -> ~ inside_opaque tb rb b ->
  NoDup (map fst (t_props ta a)) -> NoDup (map fst (t_props tb b)) ->
  let script := html_edit_script ta tb m in
  (t_props ta a = t_props tb b -> List.filter (updates a) script = []) /\
  (t_props ta a <> t_props tb b -> exists ch,
     List.filter (updates a) script = [UpdateProperties a b ch] /\
     rebuild_attrs (t_props ta a) ch = t_props tb b) /\
  (t_text ta a = t_text tb b \/ t_text tb b = None -> List.filter (retexts a) script = []) /\
  (forall s, t_text tb b = Some s -> t_text ta a <> Some s -> List.filter (retexts a) script = [SetText a b s]).
Proof.
  intros H ta tb ra rb m a b PA PB B Hin Oa Ob Na Nb script.
  assert (a ∉ opaque_descendants ta) as Oa' by (intros F; by apply (inside_opaque_desc ta ra a PA) in F).
  assert (b ∉ opaque_descendants tb) as Ob' by (intros F; by apply (inside_opaque_desc tb rb b PB) in F).
  set (ph1 := phase1 String.eqb props_empty props_diff any_different (@length prop_change) (@length attr) ta tb
    (opaque_descendants ta) (opaque_descendants tb)).
  assert (forall f, (forall op, f op = true -> exists c, op = UpdateProperties a c.1 c.2 \/ exists s, op = SetText a c.1 s) ->
    List.filter f script = List.filter f (ph1 (a, b))) as HF.
  { intros f Hf. subst script. unfold html_edit_script. rewrite script_eq, !List.filter_app.
    assert (forall op : hop, op_rank op <> 0 -> f op = false) as Hno.
    { intros op Ho. destruct (f op) eqn:E; [|done]. destruct (Hf op E) as (c & [->|(s & ->)]); by destruct Ho. }
    rewrite (filter_flat_map_one f _ (m_pairs m) (a, b)); [|apply (NoDup_fmap_1 fst), (bij_nodup_a _ B)|done|].
    2:{ intros [x y] Hxy Hne. apply filter_nil. intros op Hop.
        apply in_ph1 in Hop as (x' & y' & Exy & _ & _ & Hop). injection Exy as <- <-.
        destruct (f op) eqn:E; [|done]. exfalso. apply Hne.
        assert (x = a) as ->. { destruct (Hf op E) as (c & [->|(s & ->)]); destruct Hop as [[? F]|[? F]]; try done; by injection F. }
        f_equal. apply (bij_fwd _ B) in Hin. apply (bij_fwd _ B) in Hxy. congruence. }
    rewrite !filter_flat_map_none; [by rewrite !app_nil_r| | |].
    - intros q op _ Hop. apply in_ph5 in Hop as (_ & _ & ->). by apply Hno.
    - intros q op _ Hop. apply in_ph4 in Hop as (? & ? & ? & ? & _ & _ & _ & _ & _ & -> & _). by apply Hno.
    - intros q op _ Hop. apply in_ph2 in Hop as (_ & _ & ? & _ & ->). by apply Hno. }
  assert (forall l1 l2 (f : hop -> bool), List.filter f (l1 ++ l2)%list = (List.filter f l1 ++ List.filter f l2)%list) as HA by (intros; apply List.filter_app).
  assert (ph1 (a, b) =
    ((if otext_eqb String.eqb (t_text ta a) (t_text tb b) then [] else match t_text tb b with Some s => [SetText a b s] | None => [] end) ++
    (if props_empty (t_props ta a) && props_empty (t_props tb b) then []
     else if any_different (props_diff (t_props ta a) (t_props tb b)) || Nat.ltb (length (props_diff (t_props ta a) (t_props tb b))) (length (t_props ta a))
     then [UpdateProperties a b (props_diff (t_props ta a) (t_props tb b))] else []))%list) as E1.
  { subst ph1. unfold phase1. apply mem_false in Oa', Ob'. by rewrite Oa', Ob'. }
  assert (forall x, Nat.eqb x x = true) as Hr by apply Nat.eqb_refl.
  assert (otext_eqb String.eqb (t_text ta a) (t_text tb b) = true <-> t_text ta a = t_text tb b) as Ht.
  { destruct (t_text ta a) as [u|], (t_text tb b) as [v|]; cbn; rewrite ?String.eqb_eq; naive_solver. }
  split_and!.
  - intros E. rewrite HF by (intros [] F; try done; cbn in F; apply Nat.eqb_eq in F as ->; eexists (_, _); by left).
    rewrite E1, HA, E. rewrite props_diff_refl_none by done.
    unfold props_diff. rewrite props_diff_loop_length, Nat.ltb_irrefl.
    by destruct (otext_eqb _ _ _), (t_text tb b), (props_empty (t_props tb b)).
  - intros Hne. rewrite HF by (intros [] F; try done; cbn in F; apply Nat.eqb_eq in F as ->; eexists (_, _); by left).
    exists (props_diff (t_props ta a) (t_props tb b)). split; [|apply rebuild_props_diff].
    rewrite E1, HA.
    destruct (props_empty (t_props ta a) && props_empty (t_props tb b)) eqn:Ee.
    { exfalso. apply Hne. destruct (t_props ta a), (t_props tb b); done. }
    destruct (any_different _ || _) eqn:Ed.
    + destruct (otext_eqb _ _ _); [|destruct (t_text tb b)]; cbn; by rewrite Hr.
    + exfalso. apply Hne. apply orb_false_iff in Ed as [Ed El]. apply Nat.ltb_ge in El. by apply no_update_equal.
  - intros E. rewrite HF by (intros [] F; try done; cbn in F; apply Nat.eqb_eq in F as ->; eexists (_, []); by right; eexists).
    rewrite E1, HA. destruct (otext_eqb String.eqb _ _) eqn:Eo.
    2:{ destruct E as [E|E]; [apply Ht in E; congruence|]. rewrite E. by repeat case_match. }
    by repeat case_match.
  - intros s Es Hne. rewrite HF by (intros [] F; try done; cbn in F; apply Nat.eqb_eq in F as ->; eexists (_, []); by right; eexists).
    rewrite E1, HA. destruct (otext_eqb String.eqb _ _) eqn:Eo; [exfalso; pose proof (proj1 Ht eq_refl); congruence|]. rewrite Es. cbn. rewrite Hr.
    by repeat case_match.
Qed.
Print Assumptions updates_exact.

(** Node 3 of the example gets attribute [id="y"], node 5 keeps its list; node 2 gets a
    new text. *)
Example updates_example :
  List.filter (updates 3) ex_script = [UpdateProperties 3 3 [mkPC (PAttr (mkQ None "" "id")) (Some "y")]] /\
  get_b ex_m 5 = Some 6 /\ List.filter (updates 5) ex_script = [] /\
  List.filter (retexts 2) ex_script = [SetText 2 12 "one!"].
Proof. vm_compute. auto 10. Qed.

(** What is not missed.  Two nodes of the same kind, both left without partner: they
    are not at the same position below matched parents with similar attributes; they
    are not equal leaves below matched parents; they are not equal or similar leaves
    of which the first has an unmatched parent, unless the parent of the second has a
    partner that is not above the first. *)
Theorem no_match_missed :
  forall {H K P T} (heqb : H -> H -> bool) (keqb : K -> K -> bool) (sim : P -> P -> ratio)
         (cfg : config) (ta tb : dtree H K P T) ra rb (m : matching) x y,
  presents ta ra -> presents tb rb -> compute_matching heqb keqb sim cfg ta tb = Val m ->
  x ∈ preorder ra -> y ∈ preorder rb -> ~ inside_opaque ta ra x -> ~ inside_opaque tb rb y ->
  keqb (t_kind tb y) (t_kind ta x) = true ->
  (forall z, (x, z) ∉ m_pairs m) -> (forall z, (z, y) ∉ m_pairs m) ->
  (forall p q, (p, q) ∈ m_pairs m -> x ∈ t_children ta p -> y ∈ t_children tb q ->
     ~ (t_position tb y = t_position ta x /\ alike sim cfg ta tb x y) /\
     ~ (t_children ta x = [] /\ t_children tb y = [] /\ heqb (t_hash tb y) (t_hash ta x) = true)) /\
  ((forall p z, t_parent ta x = Some p -> (p, z) ∉ m_pairs m) ->
   t_children ta x = [] -> t_children tb y = [] ->
   heqb (t_hash tb y) (t_hash ta x) = true \/ alike sim cfg ta tb x y ->
   exists p q, t_parent tb y = Some q /\ (p, q) ∈ m_pairs m /\ x ∉ t_desc ta p).
Proof.
  intros H K P T heqb keqb sim cfg ta tb ra rb m x y PA PB E Hx Hy Ox Oy Hk Nx Ny.
  pose proof (compute_matching_bijection _ _ _ _ _ _ _ E) as B.
  assert (get_b m x = None) as Gx by (destruct (get_b m x) as [z|] eqn:F; [|done]; apply (bij_fwd _ B) in F; by apply Nx in F).
  assert (get_a m y = None) as Gy by (destruct (get_a m y) as [z|] eqn:F; [|done]; apply (bij_bwd _ B) in F; by apply Ny in F).
  assert (x ∉ opaque_descendants ta) as Ox' by (intros F; by apply (inside_opaque_desc ta ra x PA) in F).
  assert (y ∉ opaque_descendants tb) as Oy' by (intros F; by apply (inside_opaque_desc tb rb y PB) in F).
  split.
  - intros p q Hpq Hcx Hcy.
    destruct (compute_matching_iter heqb _ _ _ ta tb ra rb PA PB m p q E Hpq) as [Ip _]. rewrite (pr_iter _ _ PA) in Ip.
    apply (bij_fwd _ B) in Hpq. split.
    + intros [Hpos Hs]. by eapply (no_missed_position heqb keqb sim cfg ta tb ra PA m p q x y).
    + intros (L1 & L2 & Hh). by eapply (no_missed_leaf heqb keqb sim cfg ta tb ra PA m p q x y).
  - intros Hp L1 L2 Hs.
    assert (forall p, t_parent ta x = Some p -> get_b m p = None) as Hp'.
    { intros p Ep. destruct (get_b m p) as [z|] eqn:F; [|done]. apply (bij_fwd _ B) in F. by apply (Hp p z Ep) in F. }
    destruct (t_parent tb y) as [q|] eqn:Eq.
    + destruct (get_a m q) as [p|] eqn:Ea.
      * exists p, q. split; [done|]. split; [by apply (bij_bwd _ B)|]. intros Hd.
        eapply (no_missed_far heqb keqb sim cfg ta tb ra rb PA PB m x y); try done.
        intros p' q' Eq' Ea'. assert (q' = q) as -> by congruence. assert (p' = p) as -> by congruence. done.
      * exfalso. eapply (no_missed_far heqb keqb sim cfg ta tb ra rb PA PB m x y); try done.
        intros p' q' Eq' Ea'. assert (q' = q) as -> by congruence. congruence.
    + exfalso. eapply (no_missed_far heqb keqb sim cfg ta tb ra rb PA PB m x y); try done.
      intros p' q' Eq' Ea'. congruence.
Qed.
Print Assumptions no_match_missed.

(** Nor is a pair with enough content in common.  Two nodes of the same kind, with
    similar attributes, both left without partner, the second with children, whose
    parents' partners (if any) are above them: less of what is below them than the
    threshold asks for was matched as equal in the first phase. *)
Theorem no_content_match_missed :
  forall {H K P T} (heqb : H -> H -> bool) (keqb : K -> K -> bool) (sim : P -> P -> ratio)
         (cfg : config) (ta tb : dtree H K P T) ra rb (m first : matching) x y,
  presents ta ra -> presents tb rb ->
  top_down heqb keqb cfg ta tb m_empty = Some first -> compute_matching heqb keqb sim cfg ta tb = Val m ->
  x ∈ preorder ra -> y ∈ preorder rb -> ~ inside_opaque ta ra x -> ~ inside_opaque tb rb y ->
  keqb (t_kind tb y) (t_kind ta x) = true -> alike sim cfg ta tb x y -> t_children tb y <> [] ->
  parents_agree ta tb (m_pairs m) x y ->
  (forall z, (x, z) ∉ m_pairs m) -> (forall z, (z, y) ∉ m_pairs m) ->
  2 * shared ta tb (m_pairs first) x y * thr_den cfg < thr_num cfg * (length (t_desc ta x) + length (t_desc tb y)).
Proof.
  intros H K P T heqb keqb sim cfg ta tb ra rb m m0 x y PA PB E0 E Hx Hy Ox Oy Hk Hs Hc HP Nx Ny.
  pose proof (compute_matching_bijection _ _ _ _ _ _ _ E) as B.
  assert (get_b m x = None) as Gx by (destruct (get_b m x) as [z|] eqn:F; [|done]; apply (bij_fwd _ B) in F; by apply Nx in F).
  assert (get_a m y = None) as Gy by (destruct (get_a m y) as [z|] eqn:F; [|done]; apply (bij_bwd _ B) in F; by apply Ny in F).
  apply Nat.nle_gt. intros Hd. eapply (no_missed_content heqb keqb sim cfg ta tb ra rb PA PB m m0 x y); try done.
  - intros F. by apply (inside_opaque_desc ta ra x PA) in F.
  - intros F. by apply (inside_opaque_desc tb rb y PB) in F.
Qed.
Print Assumptions no_content_match_missed.


(** ** Example *)

Definition re_old := [el "div" [el_a "p" [ex_attr "id" "a"] [tx "z"]; el "b" [tx "1"]; el "b" [tx "2"]; el "b" [tx "3"]];
                      el "i" [tx "4"; el "u" []]].
Definition re_new := [el "div" [el_a "p" [ex_attr "class" "b"] [el "br" []]; el "b" [tx "1"]; el "b" [tx "2"]; el "b" [tx "3"]];
                      el "i" [tx "4"; el "u" []; tx "z"]].
Definition re_a := left_tree re_old.
Definition re_b := right_tree re_new.
Definition re_m := match compute_matching phash_eqb hkind_eqb props_sim diff_config re_a re_b with Val m => m | _ => m_empty end.

(** The bodies share most of their content, the [div]s are at the same position, the
    [u]s are equal. *)
Example matched_for_a_reason_example :
  m_pairs re_m = [(12, 14); (11, 13); (8, 10); (9, 11); (6, 8); (7, 9); (4, 6); (5, 7); (0, 2); (1, 3); (10, 12)] /\
  reason phash_eqb hkind_eqb props_sim diff_config re_a re_b [] 12 14 /\
  reason phash_eqb hkind_eqb props_sim diff_config re_a re_b (take 8 (m_pairs re_m)) 0 2 /\
  reason phash_eqb hkind_eqb props_sim diff_config re_a re_b (take 9 (m_pairs re_m)) 1 3.
Proof.
  split; [vm_compute; reflexivity|]. split; [|split].
  - apply (r_equal _ _ _ _ _ _ [] 12 14 12 14); [vm_compute; (reflexivity || lia)..|constructor|left].
  - apply r_content; [vm_compute; reflexivity|vm_compute; lia| |vm_compute; discriminate|vm_compute; lia].
    split; intros pa pb Ep Hin; [vm_compute in Ep; discriminate|].
    vm_compute in Ep. injection Ep as <-. vm_compute in Hin.
    repeat (apply elem_of_cons in Hin as [Hin|Hin]; [discriminate Hin|]). inversion Hin.
  - apply (r_position _ _ _ _ _ _ _ 1 3 0 2); [vm_compute; reflexivity|vm_compute; do 8 right; left|vm_compute; left|
      vm_compute; reflexivity|vm_compute; reflexivity|vm_compute; lia].
Qed.

(** The paragraphs (2, 4) are at the same position below matched parents but not
    alike; the texts "z" (3, 15) are equal leaves, the first below a paragraph
    without partner, but the parent of the second is matched with an element that
    is not above the first. *)
Example no_match_missed_example : exists ra rb,
  presents re_a ra /\ presents re_b rb /\
  compute_matching phash_eqb hkind_eqb props_sim diff_config re_a re_b = Val re_m /\
  get_b re_m 2 = None /\ get_a re_m 4 = None /\ (1, 3) ∈ m_pairs re_m /\ 2 ∈ t_children re_a 1 /\ 4 ∈ t_children re_b 3 /\
  t_position re_b 4 = t_position re_a 2 /\ ~ alike props_sim diff_config re_a re_b 2 4 /\
  get_b re_m 3 = None /\ get_a re_m 15 = None /\ phash_eqb (t_hash re_b 15) (t_hash re_a 3) = true /\
  t_parent re_a 3 = Some 2 /\ t_parent re_b 15 = Some 12 /\ (10, 12) ∈ m_pairs re_m /\ ~ (3 ∈ t_desc re_a 10).
Proof.
  destruct (left_presents re_old) as [ra PA], (right_presents re_new) as [rb PB]. exists ra, rb.
  split; [done|]. split; [done|]. split; [vm_compute; reflexivity|].
  repeat match goal with |- _ /\ _ => split end; try (vm_compute; reflexivity).
  - vm_compute. do 9 right. left.
  - vm_compute. left.
  - vm_compute. left.
  - vm_compute. lia.
  - vm_compute. do 10 right. left.
  - intros Hin. apply mem_true in Hin. vm_compute in Hin. discriminate.
Qed.

(** Two [div]s (5, 3) with too little in common: one [b] with its text. *)
Definition rc_a := left_tree [el "p" [tx "x"]; el "p" [tx "y"]; el "div" [el "b" [tx "1"]; el "q" [tx "2"]; el "q" [tx "3"]]].
Definition rc_b := right_tree [el "div" [el "b" [tx "1"]; el "s" [tx "4"]; el "s" [tx "5"]; el "s" [tx "6"]]; el "p" [tx "x"]; el "p" [tx "y"]].
Example no_content_match_missed_example : exists ra rb first m,
  presents rc_a ra /\ presents rc_b rb /\
  top_down phash_eqb hkind_eqb diff_config rc_a rc_b m_empty = Some first /\
  compute_matching phash_eqb hkind_eqb props_sim diff_config rc_a rc_b = Val m /\
  get_b m 5 = None /\ get_a m 3 = None /\ t_kind rc_a 5 = t_kind rc_b 3 /\
  alike props_sim diff_config rc_a rc_b 5 3 /\ parents_agree rc_a rc_b (m_pairs m) 5 3 /\
  shared rc_a rc_b (m_pairs first) 5 3 = 2 /\ length (t_desc rc_a 5) = 7 /\ length (t_desc rc_b 3) = 9.
Proof.
  destruct (left_presents [el "p" [tx "x"]; el "p" [tx "y"]; el "div" [el "b" [tx "1"]; el "q" [tx "2"]; el "q" [tx "3"]]]) as [ra PA].
  destruct (right_presents [el "div" [el "b" [tx "1"]; el "s" [tx "4"]; el "s" [tx "5"]; el "s" [tx "6"]]; el "p" [tx "x"]; el "p" [tx "y"]]) as [rb PB].
  exists ra, rb. eexists _, _. split; [exact PA|]. split; [exact PB|]. split; [vm_compute; reflexivity|]. split; [vm_compute; reflexivity|].
  do 3 (split; [vm_compute; reflexivity|]). split; [vm_compute; lia|]. split; [|vm_compute; repeat split].
  split; intros pa pb Ep Hin; vm_compute in Ep; injection Ep as <-; apply mem_true; apply elem_of_list_In in Hin; cbn in Hin;
    repeat (destruct Hin as [Hin|Hin]; [first [discriminate Hin|injection Hin as <-; vm_compute; reflexivity]|]); done.
Qed.

Lemma single_names (t : dtree phash hkind attrs string) :
  forallb (fun x => Nat.leb (length (t_props t x)) 1) (t_iter t) = true ->
  forall x, x ∈ t_iter t -> NoDup (map fst (t_props t x)).
Proof.
  intros E x Hx. rewrite forallb_forall in E. apply elem_of_list_In, E, Nat.leb_le in Hx.
  destruct (t_props t x) as [|q [|]]; cbn in *; [constructor|apply NoDup_singleton|lia].
Qed.

(** The hypotheses of [kept_as] hold of the example; the script edits attributes in
    the example of [PropMatch.v]. *)
Example kept_as_example : exists ra rb m,
  presents ex_a ra /\ presents ex_b rb /\ no_collision phash_eqb ex_a ex_b /\
  (forall x, x ∈ t_iter ex_a -> NoDup (map fst (t_props ex_a x))) /\ (forall x, x ∈ t_iter ex_b -> NoDup (map fst (t_props ex_b x))) /\
  html_matching phash_eqb ex_a ex_b = Val m /\ (3, 3) ∈ m_pairs m /\
  half_in_common (t_props ex_a 3) (t_props ex_b 3) /\ t_props ex_a 3 <> t_props ex_b 3.
Proof.
  destruct (left_presents
    [el "p" [tx "one"]; el_a "div" [ex_attr "id" "x"] [el "b" [tx "two"]; tx "three"];
     opaque_el [el "i" [tx "in"]]; el "i" [tx "gone"]]) as [ra PA].
  destruct (right_presents
    [el_a "div" [ex_attr "id" "y"] [tx "three"; el "b" [tx "two"]; el "u" []];
     opaque_el [el "i" [tx "changed"]]; el "p" [tx "one!"]]) as [rb PB].
  exists ra, rb, ex_m. split; [exact PA|]. split; [exact PB|]. split; [apply faithful_no_collision, ex_faithful|].
  split; [apply single_names; vm_compute; reflexivity|]. split; [apply single_names; vm_compute; reflexivity|]. split; [vm_compute; reflexivity|].
  split; [apply elem_of_list_In; vm_compute; tauto|]. split; [left; vm_compute; lia|vm_compute; discriminate].
Qed.
