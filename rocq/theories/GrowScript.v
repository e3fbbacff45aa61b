(** The edit script and the patches after content was added or removed (C67). *)
From stdpp Require Import list_numbers sorting relations.
From Verif Require Import Base Arena Matching Chawathe Dom HtmlDiff
  AttrProofs MatchProofs ArenaProofs ArenaOps TreeProofs DtreeProofs ScriptProofs DomTree FrameProofs BuildProofs HashProofs ConvProofs
  ApplyProofs ShadowProofs SimProofs RoundProofs AssembleProofs NestProofs Instances DiffTotal TotalProofs SelfProofs RestyleProofs OpaqueProofs
  InPlaceSpec InPlaceMatch InPlaceProofs GrowMatch GrowSpec GrowProofs PropMatch MirrorProofs.

(** ** Operations and patches *)

Definition op_patch (op : hop) (p : patch) : bool :=
  match op with
  | UpdateProperties _ _ _ => match p with PUpdateProps _ _ => true | _ => false end
  | Insert _ _ _ _ => an_insert p
  | Delete _ => a_remove p
  | Move _ _ _ _ => a_move p
  | SetText _ _ _ => match p with PSetText _ _ => true | _ => false end
  end.

Section Shape.
  Context {H : Type}.
  Variable tb : dtree H hkind attrs string.

  Lemma reparent_out l : forall par pos s s', reparent_loop l par pos s = Val s' -> exists ps, cs_out s' = cs_out s ++ ps.
  Proof.
    induction l as [|[i c] l IH]; intros par pos s s'; cbn [reparent_loop]; [intros [= <-]; exists []; by rewrite app_nil_r|].
    destruct (compute_path _ _) as [from| | |]; cbn [obind]; try done.
    destruct (detach_with_placeholder _ _) as [sh1| | |]; cbn [obind]; try done.
    destruct (match children (sh_arena sh1) par !! (pos + 1 + i) with Some _ => _ | None => _ end) as [a2| | |]; cbn [obind]; try done.
    destruct (ref_with_position _ _ _) as [to| | |]; cbn [obind]; try done.
    intros (ps & ->)%IH. unfold emit. cbn [cs_out]. rewrite <- app_assoc. eauto.
  Qed.

  Lemma convert_op_out ins s op s' : convert_op tb ins s op = Val s' ->
    exists ps p, cs_out s' = cs_out s ++ ps ++ [p] /\ op_patch op p = true.
  Proof.
    destruct op as [x y ch|y py k kd|x|x y py k|x y s0]; cbn [convert_op].
    - destruct (compute_path _ _) as [p| | |]; cbn [obind]; try done. intros [= <-]. by exists [], (PUpdateProps p ch).
    - destruct (shadow_parent s py) as [sp| | |]; cbn [obind]; try done. destruct (new_node _ _) as [a1 n].
      destruct (sh_insert _ _ _ _) as [[sh1 slot]| | |]; cbn [obind]; try done.
      destruct (ref_with_position _ _ _) as [at_| | |]; cbn [obind]; try done.
      destruct kd as [tag ns| |]; [|intros [= <-]; eexists [], _; done|intros [= <-]; eexists [], _; done].
      destruct (extract_children _ _ _ _) as [cs| | |]; cbn [obind]; try done. intros [= <-]. eexists [], _. done.
    - destruct (compute_path _ _) as [p| | |]; cbn [obind]; try done. destruct (detach_with_placeholder _ _) as [sh1| | |]; cbn [obind]; try done.
      intros [= <-]. by exists [], (PRemove p).
    - destruct (shadow_parent s py) as [sp| | |]; cbn [obind]; try done.
      destruct (sh_is_ancestor _ _ _) as [anc| | |]; cbn [obind]; try done.
      match goal with |- context [obind ?e _] => destruct e as [s1| | |] eqn:E1 end; cbn [obind]; try done.
      assert (exists ps, cs_out s1 = cs_out s ++ ps) as (ps & E).
      { destruct anc; [|injection E1 as <-; exists []; by rewrite app_nil_r].
        destruct (oget (parent (sh_arena (cs_shadow s)) x)) as [par| | |]; cbn [obind] in E1; try done. by eapply reparent_out. }
      destruct (compute_path _ _) as [from| | |]; cbn [obind]; try done.
      destruct (sh_move _ _ _ _) as [[sh2 slot]| | |]; cbn [obind]; try done.
      destruct (ref_with_position _ _ _) as [to| | |]; cbn [obind]; try done.
      intros [= <-]. cbn [cs_out]. rewrite E, <- app_assoc. eexists ps, _. done.
    - destruct (compute_path _ _) as [p| | |]; cbn [obind]; try done. intros [= <-]. by exists [], (PSetText p s0).
  Qed.

  Lemma convert_shape ins ops : forall s s', convert_loop tb ins s ops = Val s' ->
    exists ps, cs_out s' = cs_out s ++ ps /\ length ops <= length ps /\
      (length ps = length ops -> Forall2 (fun op p => op_patch op p = true) ops ps).
  Proof.
    induction ops as [|op ops IH]; intros s s'; cbn [convert_loop].
    - intros [= <-]. exists []. rewrite app_nil_r. split; [done|]. split; [done|]. intros _. constructor.
    - destruct (convert_op tb ins s op) as [s1| | |] eqn:E1; cbn [obind]; try done.
      intros Hl. apply convert_op_out in E1 as (p1 & p & E1 & Hp). apply IH in Hl as (ps & E2 & L & F).
      exists (p1 ++ p :: ps). split; [by rewrite E2, E1, <- !app_assoc|]. rewrite app_length. cbn [length]. split; [lia|].
      intros EL. assert (p1 = []) as -> by (destruct p1; [done|cbn [length] in EL; lia]). cbn [app]. constructor; [done|]. apply F. cbn [length] in EL. lia.
  Qed.
End Shape.

Lemma count_forall2 {A B} (f : A -> bool) (g : B -> bool) (R : A -> B -> Prop) l l' : Forall2 R l l' ->
  (forall x y, R x y -> f x = g y) -> length (List.filter g l') = length (List.filter f l).
Proof.
  intros HF HR. induction HF as [|x y l l' Hxy HF IH]; [done|]. cbn [List.filter]. rewrite (HR x y Hxy).
  destruct (g y); cbn [length]; by rewrite IH.
Qed.

(** ** Sizes *)

Lemma mirror_size h : forall h' p q, bare h = bare h' -> length (mirror p q h h') = hsize h.
Proof.
  induction h as [s|s|tag ns l cs IH] using htree_ind'; intros [tag' ns' l' cs'|s'|s'] p q HB; cbn [bare] in HB; try done.
  injection HB as _ _ HB. rewrite mirror_elem. cbn [length hsize]. f_equal. generalize 0 as k. revert cs' HB.
  induction cs as [|c cs IHc]; intros [|c' cs'] HB k; cbn [map] in HB; try done. injection HB as H1 H2. cbn [mirror_in map]. rewrite app_length.
  cbn [list_sum foldr]. rewrite (IH c ltac:(left)) by done. f_equal. apply IHc; [|done]. intros z Hz. apply IH. by right.
Qed.
Lemma bare_size h : forall h', bare h = bare h' -> hsize h = hsize h'.
Proof.
  induction h as [s|s|tag ns l cs IH] using htree_ind'; intros [tag' ns' l' cs'|s'|s'] HB; cbn [bare] in HB; try done.
  injection HB as _ _ HB. cbn [hsize]. f_equal. revert cs' HB.
  induction cs as [|c cs IHc]; intros [|c' cs'] HB; cbn [map] in HB; try done. injection HB as H1 H2. cbn [map list_sum foldr].
  rewrite (IH c ltac:(left) c') by done. f_equal. apply IHc; [|done]. intros z Hz. apply IH. by right.
Qed.
Lemma hsize_children h : hsize h = S (list_sum (map hsize (hchildren h))).
Proof. by destruct h. Qed.

Lemma plan_size pl : forall p q k k' cs cs', fits_in pl k k' cs cs' = true ->
  list_sum (map hsize cs) = length (pairs_in pl p q k k' cs cs') + list_sum (map hsize (removed_in pl cs cs')) /\
  list_sum (map hsize cs') = length (pairs_in pl p q k k' cs cs') + list_sum (map hsize (added_in pl cs cs')).
Proof.
  induction pl as [|below IHb rest IHr|rest IHr|rest IHr]; intros p q k k' cs cs' HF.
  - destruct cs, cs'; done.
  - destruct cs as [|c cs], cs' as [|c' cs']; try done. cbn [fits_in] in HF. apply andb_true_iff in HF as [HF1 HF2].
    destruct (IHr p q _ _ _ _ HF2) as [I1 I2]. cbn [pairs_in removed_in added_in map list_sum foldr].
    change (foldr Nat.add 0) with list_sum. rewrite I1, I2, !map_app, !list_sum_app, app_length.
    destruct (same_bare c c') eqn:Eb.
    + apply same_bare_eq in Eb. rewrite mirror_size by done. rewrite <- (bare_size _ _ Eb). cbn [map list_sum foldr]. lia.
    + cbn [orb] in HF1. apply andb_true_iff in HF1 as [_ HF1]. cbn [length]. destruct (IHb (p ++ [k]) (q ++ [k']) _ _ _ _ HF1) as [J1 J2].
      rewrite (hsize_children c), (hsize_children c'), J1, J2. lia.
  - destruct cs' as [|c' cs']; [by destruct cs|]. assert (fits_in rest k (S k') cs cs' = true) as HF' by by destruct cs.
    destruct (IHr p q _ _ _ _ HF') as [I1 I2].
    assert (pairs_in (New rest) p q k k' cs (c' :: cs') = pairs_in rest p q k (S k') cs cs') as -> by by destruct cs.
    assert (removed_in (New rest) cs (c' :: cs') = removed_in rest cs cs') as -> by by destruct cs.
    assert (added_in (New rest) cs (c' :: cs') = c' :: added_in rest cs cs') as -> by by destruct cs.
    split; [done|]. cbn [map list_sum foldr]. change (foldr Nat.add 0) with list_sum. rewrite I2. lia.
  - destruct cs as [|c cs]; [done|]. assert (fits_in rest (S k) k' cs cs' = true) as HF' by by destruct cs'.
    destruct (IHr p q _ _ _ _ HF') as [I1 I2].
    assert (pairs_in (Gone rest) p q k k' (c :: cs) cs' = pairs_in rest p q (S k) k' cs cs') as -> by by destruct cs'.
    assert (removed_in (Gone rest) (c :: cs) cs' = c :: removed_in rest cs cs') as -> by by destruct cs'.
    assert (added_in (Gone rest) (c :: cs) cs' = added_in rest cs cs') as -> by by destruct cs'.
    split; [|done]. cbn [map list_sum foldr]. change (foldr Nat.add 0) with list_sum. rewrite I1. lia.
Qed.
Lemma by_size pl p q h h' : fits_in pl 0 0 (hchildren h) (hchildren h') = true ->
  hsize h = length (pairs_by pl p q h h') + list_sum (map hsize (removed pl h h')) /\
  hsize h' = length (pairs_by pl p q h h') + list_sum (map hsize (added pl h h')).
Proof.
  intros HF. unfold pairs_by, removed, added. destruct (same_bare h h') eqn:Eb.
  - apply same_bare_eq in Eb. rewrite mirror_size by done. rewrite <- (bare_size _ _ Eb). cbn [map list_sum foldr]. lia.
  - destruct (plan_size pl p q 0 0 _ _ HF) as [I1 I2]. rewrite (hsize_children h), (hsize_children h'), I1, I2. cbn [length]. lia.
Qed.

(** Both paths of a pair have one length. *)
Definition level (e : pairing) : Prop := length (fst (fst e)) = length (snd (fst e)).
Lemma mirror_level h : forall h' p q, length p = length q -> Forall level (mirror p q h h').
Proof.
  induction h as [s|s|tag ns l cs IH] using htree_ind'; intros [tag' ns' l' cs'|s'|s'] p q HL;
    try (cbn [mirror]; by repeat constructor).
  rewrite mirror_elem. constructor; [done|]. generalize 0 as k. revert cs'.
  induction cs as [|c cs IHc]; intros [|c' cs'] k; cbn [mirror_in]; try constructor. apply Forall_app. split.
  - apply IH; [left|]. rewrite !app_length. cbn [length]. lia.
  - apply IHc. intros z Hz. apply IH. by right.
Qed.
Lemma plan_level pl : forall p q k k' cs cs', length p = length q -> Forall level (pairs_in pl p q k k' cs cs').
Proof.
  induction pl as [|below IHb rest IHr|rest IHr|rest IHr]; intros p q k k' cs cs' HL; destruct cs as [|c cs], cs' as [|c' cs'];
    cbn [pairs_in]; try constructor; auto.
  assert (length (p ++ [k]) = length (q ++ [k'])) as HL' by (rewrite !app_length; cbn [length]; lia).
  apply Forall_app. split; [|by apply IHr]. destruct (same_bare c c'); [by apply mirror_level|]. constructor; [done|by apply IHb].
Qed.
Lemma by_level pl h h' : Forall level (pairs_by pl [] [] h h').
Proof. unfold pairs_by. destruct (same_bare h h'); [by apply mirror_level|]. constructor; [done|by apply plan_level]. Qed.

(** ** Nothing is moved below itself *)

Lemma node_at_last {D} (a : arena D) p : forall i k x, node_at a i (p ++ [k]) = Some x -> exists j, children a j !! k = Some x.
Proof.
  induction p as [|n p IH]; intros i k x; cbn [app node_at].
  - destruct (children a i !! k) as [j|] eqn:E; [|done]. intros [= ->]. by exists i.
  - destruct (children a i !! n); [apply IH|done].
Qed.

Section Script.
  Context {H : Type}.
  Variables (heqb : H -> H -> bool) (hcomb : hkind -> option string -> list H -> H) (h0 : H).
  Variables (old new : document) (ob nb : nat) (oats : attrs) (ts us : list htree).
  Hypothesis PO : plain_doc old ob oats ts.
  Hypothesis PN : plain_doc new nb [] us.
  Variable pl : plan.
  Variables (t : arena tdata) (ta tb : dtree H hkind attrs string) (m : matching) (ra rb : rose) (W : list ((nat * nat) * pairing)).
  Hypothesis G : grown heqb hcomb h0 new nb ts us pl t ta tb m ra rb W.

  Let PA := gr_a _ _ _ _ _ _ _ _ _ _ _ _ _ _ _ G.
  Let PB := gr_b _ _ _ _ _ _ _ _ _ _ _ _ _ _ _ G.
  Let BM := gr_bij _ _ _ _ _ _ _ _ _ _ _ _ _ _ _ G.
  Let BT := gr_built _ _ _ _ _ _ _ _ _ _ _ _ _ _ _ G.

  Lemma gr_root_parent : t_parent ta 0 = None.
  Proof using G.
    destruct (mk_dtree_fields _ _ _ _ _ _ (gr_ea _ _ _ _ _ _ _ _ _ _ _ _ _ _ _ G)) as (A1 & A2 & A3 & A4 & A5 & _).
    rewrite A5. apply (bt_root_parent _ _ _ BT).
  Qed.

  Lemma pairs_iff x y : (x, y) ∈ m_pairs m <-> (x, y) ∈ map fst W.
  Proof using G. by rewrite (gr_pairs _ _ _ _ _ _ _ _ _ _ _ _ _ _ _ G). Qed.

  (** Counterparts are below counterparts. *)
  Lemma pair_places x y : (x, y) ∈ m_pairs m -> (x = 0 /\ y = nb) \/
    exists u u' k k', subt u ra /\ subt u' rb /\ get_b m (rid u) = Some (rid u') /\
      t_parent ta x = Some (rid u) /\ t_position ta x = k /\ t_parent tb y = Some (rid u') /\ t_position tb y = k' /\
      children t (rid u) !! k = Some x /\ children (doc_arena new) (rid u') !! k' = Some y.
  Proof using G.
    intros Hin. apply pairs_iff in Hin.
    destruct (grow_subt _ _ _ ra rb _ x y (gr_grow _ _ _ _ _ _ _ _ _ _ _ _ _ _ _ G) Hin) as (s & s' & S1 & S2 & S3 & -> & -> & S4).
    destruct S4 as [[-> ->]|(u & u' & k & k' & U1 & U2 & U3 & U4 & U5 & U6 & U7)].
    { left. split; [apply (gr_ra _ _ _ _ _ _ _ _ _ _ _ _ _ _ _ G)|apply (gr_rb _ _ _ _ _ _ _ _ _ _ _ _ _ _ _ G)]. }
    right. exists u, u', k, k'. split; [done|]. split; [done|]. split; [apply (bij_fwd _ BM); by apply pairs_iff|].
    destruct (pr_parent _ _ PA u k s U1 U3) as [-> ->]. destruct (pr_parent _ _ PB u' k' s' U2 U4) as [-> ->].
    split; [done|]. split; [done|]. split; [done|]. split; [done|].
    rewrite (is_tree_children t u), (is_tree_children (doc_arena new) u').
    - by rewrite !list_lookup_fmap, U3, U4.
    - eapply is_tree_subt; [done|apply G].
    - eapply is_tree_subt; [done|apply G].
  Qed.

  Lemma grown_swap_free : swap_free m (init_parents t tb m) (html_edit_script ta tb m).
  Proof using PO PN G.
    destruct (mk_dtree_fields _ _ _ _ _ _ (gr_ea _ _ _ _ _ _ _ _ _ _ _ _ _ _ _ G)) as (A1 & A2 & A3 & A4 & A5 & _).
    set (rk := fun n : nat + nat => match n with
               | inl x => length (preorder ra) - length (t_desc ta x)
               | inr y => S (length (preorder ra)) + (length (preorder rb) - length (t_desc tb y)) end).
    set (SS := fun n : nat + nat => match n with inl x => x ∈ preorder ra | inr y => y ∈ preorder rb /\ y <> nb end).
    assert (forall s u k, subt u ra -> rsub u !! k = Some s -> rk (inl (rid u)) < rk (inl (rid s))) as RA.
    { intros s u k Su Hk. cbn [rk]. apply elem_of_list_lookup_2 in Hk. assert (subt s ra) as Ss by (eapply subt_trans; [by apply subt_child|done]).
      rewrite (pr_desc _ _ PA u Su), (pr_desc _ _ PA s Ss). apply child_size in Hk. apply subt_size in Su, Ss. lia. }
    assert (forall s u k, subt u rb -> rsub u !! k = Some s -> rk (inr (rid u)) < rk (inr (rid s))) as RB.
    { intros s u k Su Hk. cbn [rk]. apply elem_of_list_lookup_2 in Hk. assert (subt s rb) as Ss by (eapply subt_trans; [by apply subt_child|done]).
      rewrite (pr_desc _ _ PB u Su), (pr_desc _ _ PB s Ss). apply child_size in Hk. apply subt_size in Su, Ss. lia. }
    assert ((0, nb) ∈ m_pairs m) as HR0.
    { apply pairs_iff. rewrite <- (gr_ra _ _ _ _ _ _ _ _ _ _ _ _ _ _ _ G), <- (gr_rb _ _ _ _ _ _ _ _ _ _ _ _ _ _ _ G).
      eapply grow_root. apply G. }
    apply (ranked_swap_free m SS rk).
    - intros [x|y] n HS; cbn [init_parents].
      + cbn [SS] in HS. destruct (parent t x) as [p|] eqn:Ep; [|done]. intros [= <-].
        apply preorder_subt in HS as (s & Hs & <-).
        destruct (subt_parent ra s Hs) as [->|(u & k & Su & Hk)].
        { rewrite (gr_ra _ _ _ _ _ _ _ _ _ _ _ _ _ _ _ G), (bt_root_parent _ _ _ BT) in Ep. done. }
        destruct (pr_parent _ _ PA u k s Su Hk) as [Hp _]. rewrite A5, Ep in Hp. injection Hp as ->.
        split; [apply preorder_subt; by exists u|by eapply RA].
      + destruct HS as [Hy Hne]. destruct (t_parent tb y) as [p|] eqn:Ep; [|done]. intros [= <-].
        apply preorder_subt in Hy as (s & Hs & <-).
        destruct (subt_parent rb s Hs) as [->|(u & k & Su & Hk)]; [by rewrite (gr_rb _ _ _ _ _ _ _ _ _ _ _ _ _ _ _ G) in Hne|].
        destruct (pr_parent _ _ PB u k s Su Hk) as [Hp _]. rewrite Ep in Hp. injection Hp as ->.
        unfold img. destruct (get_a m (rid u)) as [x|] eqn:Ex.
        * apply (get_ab m BM), (bij_fwd _ BM), pairs_iff in Ex. pose proof (grow_in_a _ _ _ _ _ _ _ _ (gr_grow _ _ _ _ _ _ _ _ _ _ _ _ _ _ _ G) Ex) as Hx.
          split; [done|]. cbn [rk]. lia.
        * split; [|by eapply RB]. split; [apply preorder_subt; by exists u|]. intros E. rewrite E in Ex.
          apply (bij_bwd _ BM) in HR0. congruence.
    - intros x y py k Hin. apply script_move_inv in Hin as (Hp & _ & _ & Hpar & _ & pa & Hpa & _).
      destruct (pair_places x y Hp) as [[-> ->]|(u & u' & i & j & U1 & U2 & U3 & U4 & U5 & U6 & U7 & U8 & U9)]; [by rewrite gr_root_parent in Hpa|].
      assert (py = rid u') as -> by congruence. apply (get_ab m BM) in U3. unfold img. rewrite U3.
      split; [apply preorder_subt; by exists u|].
      destruct (subt_parent ra u U1) as [Eu|_].
      all: rewrite (is_tree_children t u) in U8 by (eapply is_tree_subt; [done|apply G]); rewrite list_lookup_fmap in U8;
        destruct (rsub u !! i) as [s|] eqn:Es; [|done]; injection U8 as <-; by eapply RA.
  Qed.

  (** No operation is left out because of opaque elements. *)
  Lemma grown_opaque_a : opaque_descendants ta = [].
  Proof using PO G.
    destruct (mk_dtree_fields _ _ _ _ _ _ (gr_ea _ _ _ _ _ _ _ _ _ _ _ _ _ _ _ G)) as (A1 & A2 & A3 & A4 & A5 & A6 & A7 & A8 & A9).
    apply (opaque_none ta ra PA). intros x Hx Ho. exfalso. rewrite (pr_iter _ _ PA) in Hx.
    destruct (nodes_hold t (page ts) ra x) as (u & U1 & U2); try done; [apply G| |].
    { rewrite (gr_ra _ _ _ _ _ _ _ _ _ _ _ _ _ _ _ G). apply tholds_eq. split; [apply BT|apply (bt_holds _ _ _ BT)]. }
    pose proof (hall_nodes _ _ _ (page_unmarked _ _ _ _ PO) U1) as Hu.
    rewrite A9 in Ho. pose proof (stop_of t u x U2) as E. cbv beta in Ho. rewrite E, unmarked_opaque in Ho; done.
  Qed.
  Lemma grown_opaque_b : opaque_descendants tb = [].
  Proof using PN G.
    destruct (mk_dtree_fields _ _ _ _ _ _ (gr_eb _ _ _ _ _ _ _ _ _ _ _ _ _ _ _ G)) as (A1 & A2 & A3 & A4 & A5 & A6 & A7 & A8 & A9).
    apply (opaque_none tb rb PB). intros x Hx Ho. exfalso. rewrite (pr_iter _ _ PB) in Hx.
    destruct (nodes_hold_b (doc_arena new) (page us) rb x) as (u & U1 & U2); try done; [apply G| |].
    { rewrite (gr_rb _ _ _ _ _ _ _ _ _ _ _ _ _ _ _ G). apply holds_elem. split; apply PN. }
    pose proof (hall_nodes _ _ _ (page_unmarked _ _ _ _ PN) U1) as Hu.
    rewrite A9 in Ho. pose proof (stop_of_b (doc_arena new) u x U2) as E. cbv beta in Ho. rewrite E, unmarked_opaque in Ho; done.
  Qed.

  (** The operations of a pair. *)
  Lemma pair_moves x y p q u v : ((x, y), ((p, q), (u, v))) ∈ W ->
    length (phase4 (C:=list prop_change) ta tb m [] [] (x, y)) = if shifted ((p, q), (u, v)) then 1 else 0.
  Proof using PN G.
    intros Hin. pose proof (gr_ok _ _ _ _ _ _ _ _ _ _ _ _ _ _ _ G) as HOK. rewrite Forall_forall in HOK.
    destruct (HOK _ Hin) as (X1 & X2 & X3 & X4 & X5 & X6 & X7 & X8 & X9 & _).
    rewrite (gr_ra _ _ _ _ _ _ _ _ _ _ _ _ _ _ _ G) in X8. rewrite (gr_rb _ _ _ _ _ _ _ _ _ _ _ _ _ _ _ G) in X9.
    assert (length p = length q) as HL.
    { pose proof (by_level pl (page ts) (page us)) as HF. rewrite <- (gr_places _ _ _ _ _ _ _ _ _ _ _ _ _ _ _ G) in HF. rewrite Forall_forall in HF.
      apply (HF ((p, q), (u, v))). apply elem_of_list_In, in_map_iff. exists ((x, y), ((p, q), (u, v))). split; [done|by apply elem_of_list_In]. }
    assert ((x, y) ∈ m_pairs m) as Hm.
    { apply pairs_iff, elem_of_list_In, in_map_iff. exists ((x, y), ((p, q), (u, v))). split; [done|by apply elem_of_list_In]. }
    unfold shifted, phase4. cbn [mem existsb orb].
    pose proof (bt_wf _ _ _ BT) as WT. pose proof (pd_wf _ _ _ _ PN) as WN.
    destruct (pair_places x y Hm) as [[-> ->]|(w & w' & i & j & U1 & U2 & U3 & U4 & U5 & U6 & U7 & U8 & U9)].
    - rewrite gr_root_parent. destruct p as [|n p _] using rev_ind.
      { destruct q; [done|]. done. }
      exfalso. apply node_at_last in X8 as (k & Hk). apply elem_of_list_lookup_2, (wf_pc _ WT) in Hk.
      rewrite (bt_root_parent _ _ _ BT) in Hk. done.
    - rewrite U4, U6, U3, Nat.eqb_refl. cbn [negb]. rewrite U5, U7.
      destruct p as [|n p _] using rev_ind.
      { exfalso. cbn in X8. injection X8 as <-. rewrite gr_root_parent in U4. done. }
      destruct q as [|n' q _] using rev_ind; [rewrite app_length in HL; cbn in HL; lia|].
      rewrite !last_last.
      apply node_at_last in X8 as (k1 & Hk1). apply node_at_last in X9 as (k2 & Hk2).
      assert (k1 = rid w) as ->.
      { pose proof (elem_of_list_lookup_2 _ _ _ Hk1) as E1. pose proof (elem_of_list_lookup_2 _ _ _ U8) as E2.
        apply (wf_pc _ WT) in E1, E2. congruence. }
      assert (k2 = rid w') as ->.
      { pose proof (elem_of_list_lookup_2 _ _ _ Hk2) as E1. pose proof (elem_of_list_lookup_2 _ _ _ U9) as E2.
        apply (wf_pc _ WN) in E1, E2. congruence. }
      assert (n = i) as -> by (eapply NoDup_lookup; [apply (wf_nd _ WT (rid w))|exact Hk1|exact U8]).
      assert (n' = j) as -> by (eapply NoDup_lookup; [apply (wf_nd _ WN (rid w'))|exact Hk2|exact U9]).
      by destruct (Nat.eqb i j).
  Qed.

  Lemma pair_rewrites x y p q u v : ((x, y), ((p, q), (u, v))) ∈ W ->
    length (text_op ta tb (x, y) ++ update_op ta tb (x, y)) = if rewritten ((p, q), (u, v)) then 1 else 0.
  Proof using G.
    intros Hin. pose proof (gr_ok _ _ _ _ _ _ _ _ _ _ _ _ _ _ _ G) as HOK. rewrite Forall_forall in HOK.
    destruct (HOK _ Hin) as (X1 & X2 & X3 & X4 & X5 & X6 & X7 & _).
    destruct (mk_dtree_fields _ _ _ _ _ _ (gr_ea _ _ _ _ _ _ _ _ _ _ _ _ _ _ _ G)) as (A1 & A2 & A3 & A4 & _).
    destruct (mk_dtree_fields _ _ _ _ _ _ (gr_eb _ _ _ _ _ _ _ _ _ _ _ _ _ _ _ G)) as (B1 & B2 & B3 & B4 & _).
    apply tholds_eq in X3 as [D1 _]. destruct (tdata_of_holds _ _ _ X4) as (d & D2 & E2).
    assert (t_text ta x = td_text (tdata_of_h u) /\ t_props ta x = td_props (tdata_of_h u)) as [T1 P1].
    { rewrite A3, A4. unfold dtext, dprops. by rewrite D1. }
    assert (t_text tb y = td_text (tdata_of_h v) /\ t_props tb y = td_props (tdata_of_h v)) as [T2 P2].
    { rewrite B3, B4. unfold dtext, dprops. by rewrite D2, E2. }
    destruct u as [tag ns l cs|s|s], v as [tag' ns' l' cs'|s'|s']; try done; cbn [rewritten].
    - apply hall_eq in X5 as [[N1 _] _]. apply hall_eq in X6 as [[N2 _] _]. cbn [hattrs] in N1, N2.
      unfold text_op. cbn [fst snd]. rewrite T1, T2. cbn [tdata_of_h td_text otext_eqb app].
      rewrite (update_op_cases ta tb x y l l') by done. by destruct (attrs_eq_dec l l').
    - unfold text_op, update_op. cbn [fst snd]. rewrite T1, T2, P1, P2. cbn [tdata_of_h td_text td_props otext_eqb props_empty andb]. by destruct (String.eqb s s').
    - unfold text_op, update_op. cbn [fst snd]. rewrite T1, T2, P1, P2. cbn [tdata_of_h td_text td_props otext_eqb props_empty andb]. by destruct (String.eqb s s').
  Qed.

  Lemma count_pairs {B} (f : nat * nat -> list B) (g : pairing -> bool) :
    (forall x y e, ((x, y), e) ∈ W -> length (f (x, y)) = if g e then 1 else 0) ->
    length (flat_map f (m_pairs m)) = length (List.filter g (pairs_by pl [] [] (page ts) (page us))).
  Proof using G.
    intros Hf. rewrite <- (gr_places _ _ _ _ _ _ _ _ _ _ _ _ _ _ _ G).
    transitivity (length (flat_map f (map fst W))).
    { apply Permutation_length. apply Permutation_flat_map. apply G. }
    revert Hf. generalize W. intros l. induction l as [|[[x y] e] l IH]; intros Hf; [done|]. cbn [map flat_map fst snd List.filter].
    rewrite app_length, (Hf x y e) by left. rewrite IH by (intros x' y' e' Hin; apply Hf; by right).
    by destruct (g e).
  Qed.

  Lemma length_missing (l : list nat) (f : nat -> bool) (Z : list nat) : NoDup l -> NoDup Z ->
    (forall x, x ∈ Z -> x ∈ l) -> (forall x, f x = true <-> x ∈ Z) -> length (List.filter (fun x => negb (f x)) l) = length l - length Z.
  Proof using Type.
    intros N1 N2 HZ Hf.
    assert (length (List.filter f l) = length Z) as E.
    { apply Permutation_length. apply NoDup_Permutation; [|done|].
      - clear -N1. induction N1 as [|x l Hx N IH]; [constructor|]. cbn [List.filter]. destruct (f x); [|done]. constructor; [|done].
        rewrite elem_of_list_In, filter_In, <- elem_of_list_In. tauto.
      - intros x. rewrite elem_of_list_In, filter_In, <- elem_of_list_In, Hf. split; [tauto|]. auto. }
    assert (length l = length (List.filter f l) + length (List.filter (fun x => negb (f x)) l)) as E2.
    { clear. induction l as [|x l IH]; [done|]. cbn [List.filter]. destruct (f x); cbn [negb length]; lia. }
    lia.
  Qed.

  Lemma kinds_count {A} (f : A -> list hop) (g : hop -> bool) b l : (forall x op, x ∈ l -> op ∈ f x -> g op = b) ->
    length (List.filter g (flat_map f l)) = if b then length (flat_map f l) else 0.
  Proof using Type.
    intros HF. assert (forall op, op ∈ flat_map f l -> g op = b) as HF'.
    { intros op Hop. apply elem_flat_map in Hop as (x & Hx & Hop). by eapply HF. }
    revert HF'. generalize (flat_map f l). intros l0. induction l0 as [|op l0 IH]; intros HF'; [by destruct b|].
    cbn [List.filter]. rewrite (HF' op) by left. destruct b; cbn [length]; rewrite IH by (intros o Ho; apply HF'; by right); done.
  Qed.

  Definition of_phase (k : nat) (op : hop) : bool := Nat.eqb (phase_of op) k.

  Lemma grown_counts : fits_in pl 0 0 ts us = true ->
    length (List.filter (of_phase 1) (html_edit_script ta tb m)) = length (List.filter rewritten (pairs_by pl [] [] (page ts) (page us))) /\
    length (List.filter (of_phase 2) (html_edit_script ta tb m)) = list_sum (map hsize (added pl (page ts) (page us))) /\
    length (List.filter (of_phase 3) (html_edit_script ta tb m)) = length (List.filter shifted (pairs_by pl [] [] (page ts) (page us))) /\
    length (List.filter (of_phase 4) (html_edit_script ta tb m)) = list_sum (map hsize (removed pl (page ts) (page us))).
  Proof using PO PN G.
    intros HF. destruct (by_size pl [] [] (page ts) (page us) HF) as [Z1 Z2].
    unfold html_edit_script, generate_edit_script, edit_script_with. rewrite grown_opaque_a, grown_opaque_b.
    assert (flat_map (phase1 String.eqb props_empty props_diff any_different (@length prop_change) (@length attr) ta tb [] []) (m_pairs m) =
            flat_map (fun p => text_op ta tb p ++ update_op ta tb p) (m_pairs m)) as ->.
    { apply flat_map_ext. intros [x y]. done. }
    set (L1 := flat_map (fun p => text_op ta tb p ++ update_op ta tb p) (m_pairs m)).
    set (L2 := flat_map _ (t_iter tb)). set (L4 := flat_map (phase4 _ _ _ _ _) _). set (L5 := flat_map (phase5 _ _) _).
    assert (forall g (l1 l2 l4 l5 : list hop), length (List.filter g (l1 ++ l2 ++ l4 ++ l5)) =
              length (List.filter g l1) + (length (List.filter g l2) + (length (List.filter g l4) + length (List.filter g l5)))) as EA.
    { intros g l1 l2 l4 l5. by rewrite !List.filter_app, !app_length. }
    assert (forall k, length (List.filter (of_phase k) L1) = if Nat.eqb 1 k then length L1 else 0) as E1.
    { intros k. apply kinds_count. intros [x y] op _ Hop. apply elem_of_app in Hop as [Hop|Hop]; unfold text_op, update_op in Hop; cbn [fst snd] in Hop;
        repeat (case_match; try (by apply elem_of_nil in Hop); try (apply elem_of_list_singleton in Hop as ->; done)). }
    assert (forall k, length (List.filter (of_phase k) L2) = if Nat.eqb 2 k then length L2 else 0) as E2.
    { intros k. apply kinds_count. intros y op _ Hop. unfold phase2 in Hop. repeat (case_match; try (by apply elem_of_nil in Hop); try (apply elem_of_list_singleton in Hop as ->; done)). }
    assert (forall k, length (List.filter (of_phase k) L4) = if Nat.eqb 3 k then length L4 else 0) as E4.
    { intros k. apply kinds_count. intros [x y] op _ Hop. unfold phase4 in Hop. repeat (case_match; try (by apply elem_of_nil in Hop); try (apply elem_of_list_singleton in Hop as ->; done)). }
    assert (forall k, length (List.filter (of_phase k) L5) = if Nat.eqb 4 k then length L5 else 0) as E5.
    { intros k. apply kinds_count. intros y op _ Hop. unfold phase5 in Hop. repeat (case_match; try (by apply elem_of_nil in Hop); try (apply elem_of_list_singleton in Hop as ->; done)). }
    rewrite !EA, !E1, !E2, !E4, !E5. cbn [Nat.eqb].
    assert (length L1 = length (List.filter rewritten (pairs_by pl [] [] (page ts) (page us)))) as ->.
    { apply count_pairs. intros x y [[p q] [u v]] Hin. by apply pair_rewrites. }
    assert (length L4 = length (List.filter shifted (pairs_by pl [] [] (page ts) (page us)))) as ->.
    { apply count_pairs. intros x y [[p q] [u v]] Hin. by apply pair_moves. }
    assert (length (m_pairs m) = length (pairs_by pl [] [] (page ts) (page us))) as EL.
    { rewrite <- (gr_places _ _ _ _ _ _ _ _ _ _ _ _ _ _ _ G), (Permutation_length (gr_pairs _ _ _ _ _ _ _ _ _ _ _ _ _ _ _ G)). by rewrite !map_length. }
    assert (length L2 = list_sum (map hsize (added pl (page ts) (page us)))) as ->.
    { transitivity (length (List.filter (fun b => negb (contains_b m b)) (t_iter tb))).
      { unfold L2. assert (forall l, (forall y, y ∈ l -> y ∈ t_iter tb) -> length (flat_map (phase2 (C:=list prop_change) tb m []) l) =
            length (List.filter (fun b => negb (contains_b m b)) l)) as E; [|by apply E].
        induction l as [|y l IH]; intros Hl; [done|]. cbn [flat_map List.filter]. rewrite app_length, IH by (intros z Hz; apply Hl; by right).
        unfold phase2. destruct (contains_b m y) eqn:Ec; cbn [negb]; [done|]. cbn [mem existsb].
        destruct (t_parent tb y) eqn:Ep; [done|]. exfalso.
        destruct (decide (y = t_root tb)) as [->|Hne].
        - assert ((rid ra, rid rb) ∈ map fst W) as Hin by (eapply grow_root; apply G).
          rewrite (pr_root _ _ PB) in Ec. apply pairs_iff, (bij_bwd _ BM) in Hin. unfold contains_b in Ec. by rewrite Hin in Ec.
        - destruct (pr_nonroot tb rb PB y (Hl y ltac:(left)) Hne) as (p & Hp & _). congruence. }
      rewrite (length_missing _ _ (map snd (m_pairs m))).
      - rewrite map_length, EL, (pr_iter _ _ PB). erewrite (size_holds (doc_arena new) (page us) rb); [|apply G|]; [lia|].
        rewrite (gr_rb _ _ _ _ _ _ _ _ _ _ _ _ _ _ _ G). apply holds_elem. split; apply PN.
      - rewrite (pr_iter _ _ PB). apply PB.
      - apply (bij_nodup_b _ BM).
      - intros y Hy. apply snd_elem in Hy as (x & Hy). rewrite (pr_iter _ _ PB). eapply grow_in_b; [apply G|by apply pairs_iff].
      - intros y. unfold contains_b. split.
        + destruct (get_a m y) as [x|] eqn:E; [|done]. intros _. apply (get_ab m BM), (bij_fwd _ BM) in E. by eapply elem_snd.
        + intros Hy. apply snd_elem in Hy as (x & Hy). apply (bij_bwd _ BM) in Hy. by rewrite Hy. }
    assert (length L5 = list_sum (map hsize (removed pl (page ts) (page us)))) as ->.
    { transitivity (length (List.filter (fun b => negb (contains_a m b)) (t_post ta))).
      { unfold L5. generalize (t_post ta). intros l. induction l as [|y l IH]; [done|]. cbn [flat_map List.filter]. rewrite app_length, IH.
        unfold phase5. destruct (contains_a m y) eqn:Ec; cbn [negb]; done. }
      rewrite (length_missing _ _ (map fst (m_pairs m))).
      - rewrite map_length, EL, (pr_post _ _ PA), (Permutation_length (postorder_perm ra)).
        erewrite (size_tholds t (page ts) ra); [|apply G|]; [lia|].
        rewrite (gr_ra _ _ _ _ _ _ _ _ _ _ _ _ _ _ _ G). apply tholds_eq. split; [apply BT|apply (bt_holds _ _ _ BT)].
      - rewrite (pr_post _ _ PA). apply postorder_nodup, PA.
      - apply (bij_nodup_a _ BM).
      - intros y Hy. apply fst_elem in Hy as (x & Hy). rewrite (pr_post _ _ PA). apply postorder_elem. eapply grow_in_a; [apply G|by apply pairs_iff].
      - intros y. unfold contains_a. split.
        + destruct (get_b m y) as [x|] eqn:E; [|done]. intros _. apply (bij_fwd _ BM) in E. by eapply elem_fst.
        + intros Hy. apply fst_elem in Hy as (x & Hy). apply (bij_fwd _ BM) in Hy. by rewrite Hy. }
    lia.
  Qed.
End Script.

(** ** The comparison as a whole *)

Lemma hat_node (a : arena dnode) q : forall h i v, holds a h i -> hat h q = Some v -> exists j, node_at a i q = Some j.
Proof.
  induction q as [|k q IH]; intros h i v Hh; cbn [hat node_at]; [eauto|].
  destruct (hchildren h !! k) as [c|] eqn:Ec; [|done]. apply holds_children in Hh.
  destruct (Forall2_lookup_l _ _ _ _ _ Hh Ec) as (j & -> & Hj). by apply IH.
Qed.

Section Clear.
  Context {H : Type}.
  Variables (heqb : H -> H -> bool) (hcomb : hkind -> option string -> list H -> H) (h0 : H).
  Hypothesis CF : collision_free heqb hcomb.
  Hypothesis HR : forall x, heqb x x = true.
  Variables (old new : document) (ob nb : nat) (oats : attrs) (ts us : list htree).
  Hypothesis PO : plain_doc old ob oats ts.
  Hypothesis PN : plain_doc new nb [] us.
  Variable pl : plan.
  Hypothesis CC : clear_change pl (page ts) (page us) = true.

  Lemma clear_diff : exists t ta tb m, compared heqb hcomb h0 old new t ta tb m /\ no_collision heqb ta tb /\
    swap_free m (init_parents t tb m) (html_edit_script ta tb m) /\ opaque_silent heqb ta tb m /\
    (forall p q u v, ((p, q), (u, v)) ∈ pairs_by pl [] [] (page ts) (page us) ->
       exists x y, get_b m x = Some y /\ node_at t 0 p = Some x /\ node_at (doc_arena new) nb q = Some y) /\
    (forall q v, hat (page us) q = Some v -> (forall p e, ((p, q), e) ∉ pairs_by pl [] [] (page ts) (page us)) ->
       exists y, get_a m y = None /\ node_at (doc_arena new) nb q = Some y) /\
    (forall ps, diff heqb hcomb h0 old new = Val ps -> length ps = length (html_edit_script ta tb m) ->
       patches_count pl (page ts) (page us) ps).
  Proof using CF HR PO PN CC.
    destruct (compared_total heqb hcomb h0 old new ob nb oats [] ts us PO PN) as (t & ta & tb & m & CM).
    pose proof (compared_faithful heqb hcomb h0 old new ob nb oats [] ts us PO PN t ta tb m CF CM) as NC.
    pose proof (plain_silent heqb hcomb h0 old new ob nb oats [] ts us t ta tb m PO PN CM NC) as SI.
    destruct (compared_grown heqb hcomb h0 CF HR old new ob nb oats ts us PO PN pl CC t ta tb m CM) as (ra & rb & W & G).
    exists t, ta, tb, m. split; [done|]. split; [done|]. split; [exact (grown_swap_free heqb hcomb h0 old new ob nb oats ts us PO PN pl t ta tb m ra rb W G)|]. split; [done|].
    pose proof (gr_ok _ _ _ _ _ _ _ _ _ _ _ _ _ _ _ G) as HOK. rewrite Forall_forall in HOK.
    pose proof (gr_bij _ _ _ _ _ _ _ _ _ _ _ _ _ _ _ G) as BM.
    pose proof (gr_ra _ _ _ _ _ _ _ _ _ _ _ _ _ _ _ G) as Era. pose proof (gr_rb _ _ _ _ _ _ _ _ _ _ _ _ _ _ _ G) as Erb.
    split; [|split].
    - intros p q u v Hin. rewrite <- (gr_places _ _ _ _ _ _ _ _ _ _ _ _ _ _ _ G) in Hin.
      apply elem_of_list_In, in_map_iff in Hin as ([[x y] e] & E & Hin). cbn in E. subst e. apply elem_of_list_In in Hin.
      destruct (HOK _ Hin) as (_ & _ & _ & _ & _ & _ & _ & X8 & X9 & _). rewrite Era in X8. rewrite Erb in X9.
      exists x, y. split; [|done]. apply (bij_fwd _ BM). eapply pairs_iff; [exact G|].
      apply elem_of_list_In, in_map_iff. exists ((x, y), ((p, q), (u, v))). split; [done|by apply elem_of_list_In].
    - intros q v Hq Hno.
      assert (holds (doc_arena new) (page us) (rid rb)) as Hh' by (rewrite Erb; apply holds_elem; split; apply PN).
      destruct (hat_node (doc_arena new) q _ _ v Hh' Hq) as (c & Hn). rewrite Erb in Hn.
      exists c. split; [|done]. destruct (get_a m c) as [x|] eqn:Ex; [exfalso|done].
      apply (get_ab m BM), (bij_fwd _ BM) in Ex. eapply pairs_iff in Ex; [|exact G].
      apply elem_of_list_In, in_map_iff in Ex as ([[x' y'] [[p q'] [u w]]] & E & Hin). injection E as -> ->.
      pose proof Hin as Hin'. apply elem_of_list_In, HOK in Hin' as (_ & _ & _ & _ & _ & _ & _ & _ & X9 & _). rewrite Erb in X9.
      assert (q' = q) as -> by (eapply (node_at_inj (doc_arena new) nb); [apply PN|done|done]).
      apply (Hno p (u, w)). rewrite <- (gr_places _ _ _ _ _ _ _ _ _ _ _ _ _ _ _ G).
      apply elem_of_list_In, in_map_iff. by exists ((x, c), ((p, q), (u, w))).
    - intros ps Ed EL. destruct CM as (ob' & nb' & Eo & En & Et & Ea & Eb & EM).
      unfold diff in Ed. rewrite Eo, En in Ed. unfold diff_bodies in Ed. rewrite Et in Ed. cbn [obind] in Ed. rewrite Ea in Ed. cbn [obind] in Ed.
      rewrite Eb in Ed. cbn [obind] in Ed. rewrite EM in Ed. cbn [obind] in Ed. rewrite (opaque_contents_none heqb new ta tb (m_pairs m)) in Ed by done.
      cbn [obind] in Ed. unfold convert_ops in Ed. destruct (shadow_new t 0) as [sh| | |]; cbn [obind] in Ed; try done.
      destruct (convert_loop _ _ _ _) as [s'| | |] eqn:EC; cbn [obind] in Ed; try done. injection Ed as Ed.
      apply convert_shape in EC as (ps' & E1 & _ & F). cbn [cs_out app] in E1. rewrite Ed in E1. subst ps'. specialize (F EL).
      assert (fits_in pl 0 0 ts us = true) as HF.
      { pose proof CC as C1. unfold clear_change in C1. apply andb_true_iff in C1 as [C1 _]. apply andb_true_iff in C1 as [C1 _]. by apply andb_true_iff in C1 as [C1 _]. }
      destruct (grown_counts heqb hcomb h0 old new ob nb oats ts us PO PN pl t ta tb m ra rb W G HF) as (K1 & K2 & K3 & K4).
      assert (forall op p, op_patch op p = true -> of_phase 1 op = a_rewrite p /\ of_phase 2 op = an_insert p /\ of_phase 3 op = a_move p /\ of_phase 4 op = a_remove p) as HP.
      { intros [] [] Hop; try done. }
      assert (length (List.filter a_rewrite ps) = length (List.filter (of_phase 1) (html_edit_script ta tb m))) as J1
        by (eapply count_forall2; [exact F|]; intros op p Hop; by destruct (HP op p Hop) as (? & ? & ? & ?)).
      assert (length (List.filter an_insert ps) = length (List.filter (of_phase 2) (html_edit_script ta tb m))) as J2
        by (eapply count_forall2; [exact F|]; intros op p Hop; by destruct (HP op p Hop) as (? & ? & ? & ?)).
      assert (length (List.filter a_move ps) = length (List.filter (of_phase 3) (html_edit_script ta tb m))) as J3
        by (eapply count_forall2; [exact F|]; intros op p Hop; by destruct (HP op p Hop) as (? & ? & ? & ?)).
      assert (length (List.filter a_remove ps) = length (List.filter (of_phase 4) (html_edit_script ta tb m))) as J4
        by (eapply count_forall2; [exact F|]; intros op p Hop; by destruct (HP op p Hop) as (? & ? & ? & ?)).
      unfold patches_count. rewrite <- K1, <- K2, <- K3, <- K4, <- J1, <- J2, <- J3, <- J4. split; [done|]. split; [done|]. split; [done|]. split; [done|].
      clear - F. induction F as [|op p ops ps Hop F IH]; [done|]. cbn [List.filter].
      destruct op, p; try discriminate Hop; cbn [an_insert a_remove a_move a_rewrite length]; lia.
  Qed.
End Clear.
