(** C76: the patches between two pages depend on what the pages show only. *)
From Verif Require Import Base Arena Matching Chawathe Dom HtmlDiff ArenaProofs TreeProofs DtreeProofs HashProofs MatchProofs
  ConvProofs DomTree IsoProofs RenameProofs PropAlike PropApply Instances InstanceProofs WfCheck.
Local Open Scope string_scope.

(** ** Trees of ids *)

Inductive rrel (R : nrel) : rose -> rose -> Prop :=
| RR i j ts us : R i j -> Forall2 (rrel R) ts us -> rrel R (Rose i ts) (Rose j us).

Lemma rrel_rid R r r' : rrel R r r' -> R (rid r) (rid r').
Proof. by destruct 1. Qed.

Lemma iso_rose R (a b : arena dnode) : iso R a b -> forall r r', is_tree a r -> is_tree b r' -> R (rid r) (rid r') -> rrel R r r'.
Proof.
  intros I. induction r as [i ts IH] using rose_ind'. intros [j us] Ha Hb Hij. cbn [rid] in Hij. constructor; [done|].
  apply is_tree_eq in Ha as [Ca Ha]. apply is_tree_eq in Hb as [Cb Hb].
  pose proof (is_children _ _ _ I i j Hij) as HC. rewrite Ca, Cb in HC. clear Ca Cb Hij.
  revert us Hb HC. induction ts as [|t ts IHt]; intros [|u us] Hb HC; cbn -[rid] in HC; inversion HC; subst; constructor.
  - apply IH; [by left|apply Ha; by left|apply Hb; by left|done].
  - apply IHt; [| | |done].
    + intros x Hx. apply IH. by right.
    + intros x Hx. apply Ha. by right.
    + intros x Hx. apply Hb. by right.
Qed.

Lemma rrel_preorder R r : forall r', rrel R r r' -> Forall2 R (preorder r) (preorder r').
Proof.
  induction r as [i ts IH] using rose_ind'. intros r' HR. inversion HR as [? j ? us Hij Hts]; subst. cbn. constructor; [done|].
  clear HR Hij. induction Hts as [|t u ts us Htu Hts IHt]; cbn; [constructor|]. apply Forall2_app.
  - apply IH; [by left|done].
  - apply IHt. intros x Hx. apply IH. by right.
Qed.

Lemma rrel_postorder R r : forall r', rrel R r r' -> Forall2 R (postorder r) (postorder r').
Proof.
  induction r as [i ts IH] using rose_ind'. intros r' HR. inversion HR as [? j ? us Hij Hts]; subst. cbn.
  apply Forall2_app; [|by repeat constructor].
  clear HR Hij. induction Hts as [|t u ts us Htu Hts IHt]; cbn; [constructor|]. apply Forall2_app.
  - apply IH; [by left|done].
  - apply IHt. intros x Hx. apply IH. by right.
Qed.

Lemma rrel_height R r : forall r', rrel R r r' -> rheight r = rheight r'.
Proof.
  induction r as [i ts IH] using rose_ind'. intros r' HR. inversion HR as [? j ? us Hij Hts]; subst. cbn.
  destruct Hts as [|t u ts us Htu Hts]; [done|]. f_equal. cbn. f_equal; [apply IH; [by left|done]|].
  assert (forall x, x ∈ ts -> forall r', rrel R x r' -> rheight x = rheight r') as IH' by (intros x Hx; apply IH; by right).
  clear HR Hij Htu IH. induction Hts as [|x y ts us Hxy Hts IHt]; cbn; [done|]. f_equal.
  - apply IH'; [by left|done].
  - apply IHt. intros z Hz. apply IH'. by right.
Qed.

(** ** Documents of the same page *)

Section Iso.
  Variable R : nrel.
  Variables a b : arena dnode.
  Hypothesis I : iso R a b.
  Hypothesis Wa : wf a.
  Hypothesis Wb : wf b.

  Lemma iso_tdata i j : R i j -> option_map tdata_of (data a i) = option_map tdata_of (data b j).
  Proof using I.
    intros Hij. pose proof (is_kind _ _ _ I i j Hij) as HK. pose proof (is_elem _ _ _ I i j) as HE.
    unfold node_kind in *. destruct (data a i) as [d|], (data b j) as [e|]; cbn in *; try done.
    f_equal. unfold tdata_of. injection HK as HK. destruct (d_kind d) as [|t l| |] eqn:Ed; rewrite <- HK; try done.
    specialize (HE t l Hij eq_refl). congruence.
  Qed.

  Lemma iso_roses i j : R i j -> exists r r', rid r = i /\ rid r' = j /\ is_tree a r /\ is_tree b r' /\ rrel R r r' /\
    rheight r < tree_fuel a /\ rheight r' < tree_fuel b /\ rid r < length a /\ rid r' < length b.
  Proof using I Wa Wb.
    intros Hij. destruct (tree_exists a i Wa) as (r & <- & Ht). destruct (tree_exists b j Wb) as (r' & <- & Ht').
    destruct (is_lt _ _ _ I _ _ Hij) as [La Lb].
    exists r, r'. split_and!; try done; [by apply (iso_rose R a b)|by apply is_tree_height|by apply is_tree_height].
  Qed.

  Lemma iso_dkind i j : R i j -> dkind tdata_of a i = dkind tdata_of b j.
  Proof using I. intros Hij. pose proof (iso_tdata i j Hij) as E. unfold dkind. destruct (data a i), (data b j); cbn in E; congruence. Qed.
  Lemma iso_dprops i j : R i j -> dprops tdata_of a i = dprops tdata_of b j.
  Proof using I. intros Hij. pose proof (iso_tdata i j Hij) as E. unfold dprops. destruct (data a i), (data b j); cbn in E; congruence. Qed.
  Lemma iso_dtext i j : R i j -> dtext tdata_of a i = dtext tdata_of b j.
  Proof using I. intros Hij. pose proof (iso_tdata i j Hij) as E. unfold dtext. destruct (data a i), (data b j); cbn in E; congruence. Qed.

  Lemma iso_position i j : R i j -> position a i = position b j.
  Proof using I.
    intros Hij. unfold position. destruct (is_parent _ _ _ I i j Hij) as [p q Hpq|]; [|done].
    assert (index_of i (children a p) = index_of j (children b q)) as ->; [|done].
    induction (is_children _ _ _ I p q Hpq) as [|x y l l' Hxy Hl IH]; cbn; [done|].
    rewrite IH. assert (Nat.eqb x i = Nat.eqb y j) as ->; [|done]. by apply (iso_eqb R a b).
  Qed.

  Section Hash.
    Context {H : Type}.
    Variable heqb : H -> H -> bool.
    Variable hcomb : hkind -> option string -> list H -> H.
    Variable h0 : H.

    Lemma rhash_rel r : forall r', rrel R r r' -> rhash hcomb tdata_of a r = rhash hcomb tdata_of b r'.
    Proof using I.
      induction r as [i ts IH] using rose_ind'. intros r' HR. inversion HR as [? j ? us Hij Hts]; subst. cbn.
      rewrite (iso_dkind i j Hij), (iso_dtext i j Hij). f_equal. clear HR Hij.
      induction Hts as [|t u ts us Htu Hts IHt]; cbn; [done|]. f_equal.
      - apply IH; [by left|done].
      - apply IHt. intros x Hx. apply IH. by right.
    Qed.

    Lemma mk_dtree_rel i j : R i j ->
      orel (drel R) (mk_dtree hcomb h0 tdata_of a i) (mk_dtree hcomb h0 tdata_of b j).
    Proof using I Wa Wb.
      intros Hij. destruct (iso_roses i j Hij) as (r & r' & <- & <- & Ha & Hb & HR & Fa & Fb & La & Lb).
      unfold mk_dtree. rewrite (descendants_spec a r Wa Ha), (descendants_spec b r' Wb Hb),
        (post_order_spec a r Wa Ha La), (post_order_spec b r' Wb Hb Lb). cbn [ofuel obind orel].
      constructor; cbn [t_root t_hash t_kind t_props t_text t_parent t_children t_position t_height t_iter t_post t_desc t_opaque].
      - apply I.
      - apply I.
      - done.
      - intros x y Hxy. destruct (iso_roses x y Hxy) as (s & s' & <- & <- & Ha' & Hb' & HR' & Fa' & Fb' & La' & Lb').
        rewrite !hash_f_spec by done. by apply rhash_rel.
      - apply iso_dkind.
      - apply iso_dprops.
      - apply iso_dtext.
      - apply I.
      - apply I.
      - apply iso_position.
      - intros x y Hxy. destruct (iso_roses x y Hxy) as (s & s' & <- & <- & Ha' & Hb' & HR' & Fa' & Fb' & La' & Lb').
        rewrite !height_spec by done. by eapply rrel_height.
      - by apply rrel_preorder.
      - by apply rrel_postorder.
      - intros x y Hxy. destruct (iso_roses x y Hxy) as (s & s' & <- & <- & Ha' & Hb' & HR' & Fa' & Fb' & La' & Lb').
        rewrite !descendants_spec by done. by apply rrel_preorder.
      - intros x y Hxy. by rewrite (iso_dprops x y Hxy).
    Qed.
  End Hash.

  Lemma add_children_rel r : forall r' f f' t p, rrel R r r' -> is_tree a r -> is_tree b r' -> rheight r < f -> rheight r' < f' ->
    add_children f a t p (rid r) = add_children f' b t p (rid r').
  Proof using I.
    induction r as [i ts IH] using rose_ind'. intros r' f f' t p HR Ha Hb Hf Hf'.
    inversion HR as [? j ? us Hij Hts]; subst. destruct f as [|f]; [lia|]. destruct f' as [|f']; [lia|]. cbn [add_children rid].
    apply is_tree_eq in Ha as [-> Ha]. apply is_tree_eq in Hb as [-> Hb].
    assert (forall u, u ∈ ts -> rheight u < f) as Hh.
    { intros u Hu. pose proof (rheight_child (Rose i ts) u Hu). lia. }
    assert (forall u, u ∈ us -> rheight u < f') as Hh'.
    { intros u Hu. pose proof (rheight_child (Rose j us) u Hu). lia. } clear Hf Hf' HR Hij.
    revert t. induction Hts as [|x y ts us Hxy Hts IHt]; intros t; [done|]. cbn -[rid add_children append new_node].
    specialize (IHt (fun z Hz => IH z (elem_of_list_further _ _ _ Hz)) (fun z Hz => Ha z (elem_of_list_further _ _ _ Hz))
      (fun z Hz => Hb z (elem_of_list_further _ _ _ Hz)) (fun z Hz => Hh z (elem_of_list_further _ _ _ Hz))
      (fun z Hz => Hh' z (elem_of_list_further _ _ _ Hz))).
    pose proof (iso_tdata _ _ (rrel_rid _ _ _ Hxy)) as ED.
    pose proof (is_kind _ _ _ I _ _ (rrel_rid _ _ _ Hxy)) as EK. unfold node_kind in EK.
    destruct (data a (rid x)) as [d|], (data b (rid y)) as [e|]; cbn in ED, EK; try done.
    injection ED as ED. injection EK as EK. rewrite <- EK, <- ED.
    destruct (d_kind d) as [|tg l| |]; [apply IHt| | |]; unfold new_node.
    - destruct (append _ p _) as [t2| | |]; cbn -[rid add_children]; try done.
      rewrite (IH x (elem_of_list_here _ _) y f f' t2 (length t) Hxy (Ha x (elem_of_list_here _ _)) (Hb y (elem_of_list_here _ _))
        (Hh x (elem_of_list_here _ _)) (Hh' y (elem_of_list_here _ _))).
      destruct (add_children f' b _ _ _) as [t3| | |]; cbn; try done.
    - destruct (append _ p _) as [t2| | |]; cbn -[rid add_children]; try done.
    - destruct (append _ p _) as [t2| | |]; cbn -[rid add_children]; try done.
  Qed.

  Lemma build_tree_rel i j : R i j -> build_tree a i = build_tree b j.
  Proof using I Wa Wb.
    intros Hij. unfold build_tree. pose proof (iso_tdata i j Hij) as ED.
    destruct (data a i) as [d|], (data b j) as [e|]; cbn in ED; try done. injection ED as ->.
    destruct (iso_roses i j Hij) as (r & r' & <- & <- & Ha & Hb & HR & Fa & Fb & _). by apply add_children_rel.
  Qed.

  Lemma ser_rel r : forall r' f f' raw, rrel R r r' -> is_tree a r -> is_tree b r' -> rheight r < f -> rheight r' < f' ->
    ser_f f a raw (rid r) = ser_f f' b raw (rid r').
  Proof using I.
    intros r' f f' raw HR Ha Hb Hf Hf'.
    destruct (rose_ser a r Ha f raw Hf) as [s E]. destruct (rose_ser b r' Hb f' raw Hf') as [s' E'].
    rewrite E, E'. f_equal. apply (ser_more a f (f + f')) in E; [|lia]. apply (ser_more b f' (f + f')) in E'; [|lia].
    rewrite (iso_ser R a b _ I raw _ _ (rrel_rid _ _ _ HR)) in E. congruence.
  Qed.

  Lemma inner_html_rel i j : R i j -> serialize_inner_html a i = serialize_inner_html b j.
  Proof using I Wa Wb.
    intros Hij. unfold serialize_inner_html.
    induction (is_children _ _ _ I i j Hij) as [|x y l l' Hxy Hl IH]; cbn [ser_list]; [done|]. rewrite IH.
    destruct (iso_roses x y Hxy) as (r & r' & <- & <- & Ha & Hb & HR & Fa & Fb & _).
    by rewrite (ser_rel r r' _ (tree_fuel b) false HR Ha Hb Fa Fb).
  Qed.

  Lemma insert_content_rel r : forall r' f f', rrel R r r' -> is_tree a r -> is_tree b r' -> rheight r < f -> rheight r' < f' ->
    insert_content f a (rid r) = insert_content f' b (rid r').
  Proof using I.
    induction r as [i ts IH] using rose_ind'. intros r' f f' HR Ha Hb Hf Hf'.
    inversion HR as [? j ? us Hij Hts]; subst. destruct f as [|f]; [lia|]. destruct f' as [|f']; [lia|]. cbn [insert_content rid].
    apply is_tree_eq in Ha as [-> Ha]. apply is_tree_eq in Hb as [-> Hb].
    rewrite (is_kind _ _ _ I i j Hij). destruct (node_kind b j) as [[|t l| |]|]; try done.
    assert (forall u, u ∈ ts -> rheight u < f) as Hh.
    { intros u Hu. pose proof (rheight_child (Rose i ts) u Hu). lia. }
    assert (forall u, u ∈ us -> rheight u < f') as Hh'.
    { intros u Hu. pose proof (rheight_child (Rose j us) u Hu). lia. } clear Hf Hf' HR Hij.
    match goal with |- match ?x with _ => _ end = match ?y with _ => _ end => assert (x = y) as -> end; [|done].
    induction Hts as [|x y ts us Hxy Hts IHt]; [done|]. cbn -[rid insert_content].
    rewrite (IH x (elem_of_list_here _ _) y f f' Hxy (Ha x (elem_of_list_here _ _)) (Hb y (elem_of_list_here _ _))
        (Hh x (elem_of_list_here _ _)) (Hh' y (elem_of_list_here _ _))).
    rewrite IHt; [done|..]; intros z Hz; [apply IH|apply Ha|apply Hb|apply Hh|apply Hh']; by right.
  Qed.

  Lemma insert_all_rel l l' : Forall2 R l l' -> forall pos, insert_all a l pos = insert_all b l' pos.
  Proof using I Wa Wb.
    intros Hl. induction Hl as [|x y l l' Hxy Hl IH]; intros pos; [done|]. cbn [insert_all]. rewrite IH.
    assert (create_insert_patch a x pos = create_insert_patch b y pos) as ->; [|done].
    unfold create_insert_patch. rewrite (is_kind _ _ _ I x y Hxy).
    destruct (iso_roses x y Hxy) as (r & r' & <- & <- & Ha & Hb & HR & Fa & Fb & _).
    by rewrite (insert_content_rel r r' _ (tree_fuel b) HR Ha Hb Fa Fb).
  Qed.
End Iso.

(** ** Conversion to patches *)

Section Convert.
  Context {H : Type}.
  Variable heqb : H -> H -> bool.
  Variable R : nrel.
  Variables tb tb' : dtree H hkind attrs string.
  Hypothesis DB : drel R tb tb'.

  Lemma extract_rel skip skip' : (forall x y, R x y -> skip x = skip' y) ->
    forall f b b', R b b' -> extract_children f tb skip b = extract_children f tb' skip' b'.
  Proof using DB.
    intros HS. induction f as [|f IH]; intros b b' Hb; [done|]. cbn [extract_children].
    induction (dr_children _ _ _ DB b b' Hb) as [|x y l l' Hxy Hl IHl]; [done|].
    rewrite (HS x y Hxy), IHl, (dr_kind _ _ _ DB x y Hxy), (dr_text _ _ _ DB x y Hxy), (dr_props _ _ _ DB x y Hxy), (IH x y Hxy).
    done.
  Qed.

  (** The same state of the conversion; nodes of the new page under other names. *)
  Record csrel (s s' : cstate) : Prop := {
    cr_shadow : cs_shadow s = cs_shadow s';
    cr_out : cs_out s = cs_out s';
    cr_b2s : forall b b', R b b' -> slot_get (cs_b2s s) b = slot_get (cs_b2s s') b'
  }.

  Lemma b2s_set_rel m m' x x' n : R x x' -> (forall b b', R b b' -> slot_get m b = slot_get m' b') ->
    forall b b', R b b' -> slot_get (slot_set m x n) b = slot_get (slot_set m' x' n) b'.
  Proof using DB.
    intros Hx HM b b' Hb. rewrite !slot_get_set.
    rewrite (rel_eqb (dr_fun _ _ _ DB) (dr_inj _ _ _ DB) x x' b b' Hx Hb). destruct (Nat.eqb x' b'); [done|by apply HM].
  Qed.

  Lemma emit_rel s s' sh p : csrel s s' -> csrel (emit s sh p) (emit s' sh p).
  Proof using Type. intros [E1 E2 E3]. constructor; cbn; [done|by rewrite E2|done]. Qed.

  Lemma reparent_rel l par pos : forall s s', csrel s s' -> orel csrel (reparent_loop l par pos s) (reparent_loop l par pos s').
  Proof using Type.
    induction l as [|[i c] l IH]; intros s s' HS; [done|]. cbn [reparent_loop]. rewrite <- (cr_shadow _ _ HS).
    destruct (compute_path _ _) as [from| | |]; cbn [obind]; try done.
    destruct (detach_with_placeholder _ _) as [sh1| | |]; cbn [obind]; try done.
    match goal with |- orel _ (obind ?x _) _ => destruct x as [a2| | |] end; cbn [obind]; try done.
    destruct (ref_with_position _ _ _) as [to| | |]; cbn [obind]; try done. apply IH. by apply emit_rel.
  Qed.

  Notation hoprel := (@oprel hkind string eq R (list prop_change)).

  Lemma convert_op_rel ins ins' s s' op op' : Forall2 R ins ins' -> csrel s s' -> hoprel op op' ->
    orel csrel (convert_op tb ins s op) (convert_op tb' ins' s' op').
  Proof using DB.
    intros HI HS HO. destruct HO as [a a' b b' c Ha Hb|b b' p p' pos k Hb Hp|a a' Ha|a a' b b' p p' pos Ha Hb Hp|a a' b b' t Ha Hb];
      try subst a'; cbn [convert_op].
    - rewrite <- (cr_shadow _ _ HS). destruct (compute_path _ _) as [q| | |]; cbn [obind]; try done. by apply emit_rel.
    - assert (shadow_parent s p = shadow_parent s' p') as ->.
      { unfold shadow_parent. by rewrite (cr_b2s _ _ HS p p' Hp), (cr_shadow _ _ HS). }
      destruct (shadow_parent s' p') as [sp| | |]; cbn [obind]; try done.
      rewrite <- (cr_shadow _ _ HS), (dr_props _ _ _ DB b b' Hb), (dr_text _ _ _ DB b b' Hb).
      unfold new_node. cbv beta iota zeta.
      destruct (sh_insert _ _ _ _) as [[sh1 slot]| | |]; cbn [obind]; try done.
      destruct (ref_with_position _ _ _) as [at_| | |]; cbn [obind]; try done.
      pose proof (b2s_set_rel (cs_b2s s) (cs_b2s s') b b' (length (sh_arena (cs_shadow s))) Hb (cr_b2s _ _ HS)) as HB.
      rewrite <- (cr_out _ _ HS).
      destruct k as [tag ns| |]; cbn [obind orel]; try (constructor; cbn; [done|done|exact HB]).
      rewrite (Forall2_length _ _ _ (dr_iter _ _ _ DB)).
      match goal with |- orel _ (obind (obind (extract_children ?f tb ?sk b) _) _) (obind (obind (extract_children ?f tb' ?sk' b') _) _) =>
        assert (extract_children f tb sk b = extract_children f tb' sk' b') as -> end.
      { apply extract_rel; [|done]. intros x y Hxy. cbn beta. rewrite (HB x y Hxy). destruct (slot_get _ y); [done|].
        exact (rel_existsb (dr_fun _ _ _ DB) (dr_inj _ _ _ DB) x y _ _ Hxy HI). }
      destruct (extract_children _ _ _ _) as [cs| | |]; cbn [obind orel]; try done.
    - rewrite <- (cr_shadow _ _ HS). destruct (compute_path _ _) as [q| | |]; cbn [obind]; try done.
      destruct (detach_with_placeholder _ _) as [sh1| | |]; cbn [obind]; try done. by apply emit_rel.
    - assert (shadow_parent s p = shadow_parent s' p') as ->.
      { unfold shadow_parent. by rewrite (cr_b2s _ _ HS p p' Hp), (cr_shadow _ _ HS). }
      destruct (shadow_parent s' p') as [sp| | |]; cbn [obind]; try done.
      rewrite <- (cr_shadow _ _ HS). destruct (sh_is_ancestor _ _ _) as [anc| | |]; cbn [obind]; try done.
      eapply orel_bind.
      { instantiate (1 := csrel). destruct anc; [|done]. destruct (oget _) as [par| | |]; cbn [obind]; try done. by apply reparent_rel. }
      intros u v HU. rewrite <- (cr_shadow _ _ HU).
      destruct (compute_path _ _) as [from| | |]; cbn [obind]; try done.
      destruct (sh_move _ _ _ _) as [[sh2 slot]| | |]; cbn [obind]; try done.
      destruct (ref_with_position _ _ _) as [to| | |]; cbn [obind orel]; try done.
      constructor; cbn; [done|by rewrite (cr_out _ _ HU)|]. apply b2s_set_rel; [done|apply HU].
    - rewrite <- (cr_shadow _ _ HS). destruct (compute_path _ _) as [q| | |]; cbn [obind]; try done. by apply emit_rel.
  Qed.

  Lemma convert_loop_rel ins ins' ops ops' : Forall2 R ins ins' -> Forall2 hoprel ops ops' ->
    forall s s', csrel s s' -> orel csrel (convert_loop tb ins s ops) (convert_loop tb' ins' s' ops').
  Proof using DB.
    intros HI HO. induction HO as [|o o' ops ops' Ho HO IH]; intros s s' HS; [done|]. cbn [convert_loop].
    eapply orel_bind; [by apply convert_op_rel|]. done.
  Qed.

  Lemma convert_ops_rel ops ops' t m m' : Forall2 hoprel ops ops' -> mrel eq R m m' ->
    convert_ops ops t tb m = convert_ops ops' t tb' m'.
  Proof using DB.
    intros HO M. unfold convert_ops. destruct (shadow_new t 0) as [sh| | |]; cbn [obind]; try done.
    assert (Forall2 R (insert_nodes ops) (insert_nodes ops')) as HI.
    { eapply rel_flat_map; [|exact HO]. intros o o' []; by repeat constructor. }
    assert (csrel (mkCS sh (b2s_of (m_pairs m)) []) (mkCS sh (b2s_of (m_pairs m')) [])) as HS.
    { constructor; cbn; [done|done|]. unfold b2s_of.
      eapply (rel_fold (prel eq R) (fun u v => forall b b', R b b' -> slot_get u b = slot_get v b')); [|apply M|done].
      intros u v [x y] [x' y'] HU [Hx Hy]. cbn in Hx, Hy |- *. subst. by apply b2s_set_rel. }
    pose proof (convert_loop_rel _ _ _ _ HI HO _ _ HS) as HL.
    destruct (convert_loop tb _ _ ops), (convert_loop tb' _ _ ops'); cbn in HL |- *; try done; [|by subst].
    by rewrite (cr_out _ _ HL).
  Qed.

  Lemma opaque_contents_rel new new' ta l l' : iso R (doc_arena new) (doc_arena new') -> wf (doc_arena new) -> wf (doc_arena new') ->
    Forall2 (prel eq R) l l' -> opaque_contents heqb new ta tb l = opaque_contents heqb new' ta tb' l'.
  Proof using DB.
    intros I W W' Hl. induction Hl as [|[x y] [x' y'] l l' [Hx Hy] Hl IH]; [done|]. cbn in Hx, Hy. subst x'. cbn [opaque_contents].
    by rewrite IH, (dr_opaque _ _ _ DB y y' Hy), (dr_hash _ _ _ DB y y' Hy), (inner_html_rel R _ _ I W W' y y' Hy).
  Qed.
End Convert.

(** ** Diff *)

Section Diff.
  Context {H : Type}.
  Variable heqb : H -> H -> bool.
  Variable hcomb : hkind -> option string -> list H -> H.
  Variable h0 : H.

  Lemma html_matching_rel Ra Rb (ta ta' tb tb' : dtree H hkind attrs string) : drel Ra ta ta' -> drel Rb tb tb' ->
    orel (mrel Ra Rb) (html_matching heqb ta tb) (html_matching heqb ta' tb').
  Proof using Type.
    intros DA DB. unfold html_matching.
    eapply orel_bind; [by apply (compute_matching_rel heqb hkind_eqb props_sim diff_config Ra Rb)|].
    intros m m' M. cbn. rewrite (dr_kind _ _ _ DA _ _ (dr_root _ _ _ DA)), (dr_kind _ _ _ DB _ _ (dr_root _ _ _ DB)),
      (contains_a_rel Ra Rb m m' _ _ M (dr_root _ _ _ DA)).
    destruct (_ && _); [|done]. eapply mrel_add; [exact DA|exact DB|done|apply DA|apply DB].
  Qed.

  Lemma diff_iso R1 R2 (old old' new new' : document) :
    iso R1 (doc_arena old) (doc_arena old') -> R1 (doc_root old) (doc_root old') -> wf (doc_arena old) -> wf (doc_arena old') ->
    iso R2 (doc_arena new) (doc_arena new') -> R2 (doc_root new) (doc_root new') -> wf (doc_arena new) -> wf (doc_arena new') ->
    diff heqb hcomb h0 old new = diff heqb hcomb h0 old' new'.
  Proof using Type.
    intros I1 Hr1 W1 W1' I2 Hr2 W2 W2'. unfold diff.
    destruct (iso_body R1 old old' I1 Hr1) as [ob ob' Hob|], (iso_body R2 new new' I2 Hr2) as [nb nb' Hnb|]; [| | |done].
    - unfold diff_bodies. rewrite (build_tree_rel R1 _ _ I1 W1 W1' ob ob' Hob).
      destruct (build_tree _ _) as [t| | |]; cbn [obind]; try done.
      destruct (mk_dtree hcomb h0 (fun d => d) t 0) as [ta| | |]; cbn [obind]; try done.
      pose proof (mk_dtree_rel R2 _ _ I2 W2 W2' hcomb h0 nb nb' Hnb) as DB.
      destruct (mk_dtree hcomb h0 tdata_of (doc_arena new) nb) as [tb| | |],
        (mk_dtree hcomb h0 tdata_of (doc_arena new') nb') as [tb'| | |]; cbn in DB |- *; try done; [|by subst].
      pose proof (html_matching_rel eq R2 ta ta tb tb' (drel_refl ta) DB) as M.
      destruct (html_matching heqb ta tb) as [m| | |], (html_matching heqb ta tb') as [m'| | |]; cbn in M |- *; try done; [|by subst].
      rewrite (opaque_contents_rel heqb R2 tb tb' DB new new' ta _ _ I2 W2 W2' (mr_pairs _ _ _ _ M)).
      destruct (opaque_contents _ _ _ _ _) as [oc| | |]; cbn [obind]; try done.
      unfold html_edit_script.
      pose proof (edit_script_rel eq R2 ta ta tb tb' (drel_refl ta) DB String.eqb props_empty props_diff any_different
        (@length prop_change) (@length attr) m m' M) as HO.
      by rewrite (convert_ops_rel R2 tb tb' DB _ _ t m m' HO M).
    - by rewrite (Forall2_length _ _ _ (is_children _ _ _ I1 ob ob' Hob)).
    - apply (insert_all_rel R2 _ _ I2 W2 W2'). by apply I2.
  Qed.
End Diff.

(** The two documents of a diff may have any history: any node ids, any number of
    nodes that are not part of the page.  The outcome is the same, patches included. *)
Theorem diff_sees_the_pages : forall {H} (heqb : H -> H -> bool) hcomb h0 (old old' new new' : document) h g,
  page_of old h -> page_of old' h -> page_of new g -> page_of new' g ->
  diff heqb hcomb h0 old new = diff heqb hcomb h0 old' new'.
Proof.
  intros H heqb hcomb h0 old old' new new' h g [W1 P1 H1] [W1' P1' H1'] [W2 P2 H2] [W2' P2' H2'].
  eapply diff_iso; try done.
  - by apply (iso_same_tree _ _ h).
  - apply same_root.
  - by apply (iso_same_tree _ _ g).
  - apply same_root.
Qed.
Print Assumptions diff_sees_the_pages.

(** Documents that show the same page, with the same patches applied to both (none
    of them a Move; a Move can destroy the tree, C19), have the same diffs. *)
Theorem diff_after_patches : forall {H} (heqb : H -> H -> bool) hcomb h0 parse (d d' other : document) h g ps,
  page_of d h -> page_of d' h -> page_of other g -> (forall p, p ∈ ps -> ~ is_move_patch p) ->
  let x := fst (apply_patches parse d ps) in let y := fst (apply_patches parse d' ps) in
  diff heqb hcomb h0 x other = diff heqb hcomb h0 y other /\
  diff heqb hcomb h0 other x = diff heqb hcomb h0 other y.
Proof.
  intros H heqb hcomb h0 parse d d' other h g ps [W P Hh] [W' P' Hh'] [Wo Po Ho] NM x y.
  destruct (patched_iso parse _ d d' ps (iso_same_tree _ _ h _ _ W W' Hh Hh' P P') (same_root _ _ _ _)) as [_ (R & _ & I & Hr)].
  fold x in I, Hr. fold y in I, Hr.
  assert (wf (doc_arena x)) as Wx.
  { destruct (apply_patches parse d ps) as [e r] eqn:E.
    by destruct (application_keeps_tree parse d e ps r NM W (holds_lt _ _ _ Hh) E). }
  assert (wf (doc_arena y)) as Wy.
  { destruct (apply_patches parse d' ps) as [e r] eqn:E.
    by destruct (application_keeps_tree parse d' e ps r NM W' (holds_lt _ _ _ Hh') E). }
  pose proof (iso_same_tree _ _ g _ _ Wo Wo Ho Ho Po Po) as Io.
  split; eapply diff_iso; try done; try apply same_root.
Qed.
Print Assumptions diff_after_patches.

(** The library: two trees under other names have the same matching and the same
    edit script, under these names. *)
Theorem script_under_names : forall {H K P T C} heqb keqb sim cfg teqb p_empty p_diff c_any c_len p_len
    (Ra Rb : nat -> nat -> Prop) (ta ta' tb tb' : dtree H K P T),
  drel Ra ta ta' -> drel Rb tb tb' ->
  orel (fun m m' => Forall2 (prel Ra Rb) (m_pairs m) (m_pairs m') /\
          Forall2 (@oprel K T Ra Rb C)
            (generate_edit_script teqb p_empty p_diff c_any c_len p_len ta tb m)
            (generate_edit_script teqb p_empty p_diff c_any c_len p_len ta' tb' m'))
    (compute_matching heqb keqb sim cfg ta tb) (compute_matching heqb keqb sim cfg ta' tb').
Proof.
  intros H K P T C heqb keqb sim cfg teqb p_empty p_diff c_any c_len p_len Ra Rb ta ta' tb tb' DA DB.
  eapply orel_mono; [|by apply (compute_matching_rel heqb keqb sim cfg Ra Rb)]. intros m m' M. split; [apply M|].
  by apply edit_script_rel.
Qed.
Print Assumptions script_under_names.

(** ** Example *)

(** The same two pages: as parsed, and as left behind by patches (other ids, nodes
    that are not part of the page). *)
Definition dp_new : htree := HElem "html" NsHtml [] [el "head" []; el "body" [el "p" [tx "x"; el "i" []]; tx "b"]].
Definition dp_loaded : document := mk_doc [] [el "p" [tx "x"; el "i" []]; tx "b"].
Definition dp_patched : document :=
  fst (apply_patches no_parser (mk_doc [] [tx "q"; tx "r"])
    [PInsertElement [0; 0] "p" [] [ICText "x"; ICElem "i" [] []] (Some 1); PRemove [1]; PSetText [0; 1] "b"]).

Lemma dp_loaded_page : page_of dp_loaded dp_new.
Proof. constructor; [apply wf_check_sound; by vm_compute|by vm_compute|by vm_compute]. Qed.
Lemma dp_patched_page : page_of dp_patched dp_new.
Proof. constructor; [apply wf_check_sound; by vm_compute|by vm_compute|by vm_compute]. Qed.

Example diff_pages_example :
  doc_arena ex_loaded <> doc_arena ex_patched /\ doc_arena dp_loaded <> doc_arena dp_patched /\
  pdiff ex_loaded dp_loaded = pdiff ex_patched dp_patched /\
  pdiff ex_patched dp_patched = Val
    [PSetText [0; 0] "b"; PInsertElement [0; 0] "p" [] [] (Some 1); PInsertElement [0; 0; 1] "i" [] [] None;
     PMove [0; 1; 0] [0; 0; 0] (Some 2); PMove [1] [0; 1] (Some 3); PRemove [3]].
Proof. split; [by vm_compute|]. split; [by vm_compute|]. vm_compute. done. Qed.
