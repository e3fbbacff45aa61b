(** What a comparison does to the body element itself: of all its patches only the
    one setting the attributes of the new body is meant for it, and the native
    applier leaves tag and attributes alone otherwise. *)
From stdpp Require Import list_numbers.
From Verif Require Import Base Arena Matching Chawathe Dom HtmlDiff ArenaProofs ArenaOps TreeProofs DomTree
  ApplyProofs FrameProofs DtreeProofs MatchProofs BuildProofs ScriptProofs ShadowProofs ConvProofs RoundProofs AssembleProofs NestProofs
  RestyleProofs PayloadProofs EmptyProofs MountProofs.
Local Open Scope string_scope.

(** ** Patches of a comparison *)

Lemma fresh_path_zero t s : fresh_shadow t s -> compute_path s 0 = Val [0].
Proof.
  intros FS. unfold compute_path, chain_fuel. cbn [path_loop].
  rewrite (fs_root_parent _ _ FS), (fs_slot_parent _ _ FS), (fs_super _ _ FS), Nat.eqb_refl.
  unfold pos_in. rewrite (fs_top _ _ FS). cbn. by rewrite Nat.eqb_refl.
Qed.

(** A patch of the first phase, with [c] the changes meant for the root. *)
Definition first_patch (c : list prop_change) (p : patch) : Prop :=
  match p with
  | PUpdateProps q c' => q = [0] -> c' = c
  | PSetText q _ => q <> [0]
  | _ => False
  end.

Section First.
  Context {H : Type}.
  Variable tb : dtree H hkind attrs string.
  Variable ins : list nat.
  Variables (t : arena tdata) (sh : shadow) (c0 : list prop_change).
  Hypothesis WT : wf t.
  Hypothesis AT : forall j, j < length t -> above t 0 j.
  Hypothesis FS : fresh_shadow t sh.

  Lemma updates_first ops : forall s s', convert_loop tb ins s ops = Val s' -> cs_shadow s = sh ->
    (forall op, op ∈ ops -> exists x y, x < length t /\
       ((exists c, op = UpdateProperties x y c /\ (x = 0 -> c = c0)) \/ (x <> 0 /\ exists c, op = SetText x y c))) ->
    exists U, cs_out s' = (cs_out s ++ U)%list /\ Forall (first_patch c0) U /\
      (forall y c, UpdateProperties 0 y c ∈ ops -> PUpdateProps [0] c ∈ U) /\
      ((forall y c, UpdateProperties 0 y c ∉ ops) -> forall c, PUpdateProps [0] c ∉ U).
  Proof using WT AT FS.
    induction ops as [|op ops IH]; intros s s' E Hsh Ho.
    { injection E as <-. exists []. rewrite app_nil_r. split; [done|]. split; [constructor|].
      split; [intros y c Hc; by apply elem_of_nil in Hc|]. intros _ c Hc. by apply elem_of_nil in Hc. }
    cbn [convert_loop] in E. bnd E s1 E1.
    destruct (Ho op ltac:(left)) as (x & y & Hx & Hop).
    assert (forall op', op' ∈ ops -> exists x y, x < length t /\
       ((exists c, op' = UpdateProperties x y c /\ (x = 0 -> c = c0)) \/ (x <> 0 /\ exists c, op' = SetText x y c))) as Ho'.
    { intros op' Hop'. apply Ho. by right. }
    assert (exists p, cs_shadow s1 = sh /\ cs_out s1 = (cs_out s ++ [p])%list /\ first_patch c0 p /\
      (forall y c, op = UpdateProperties 0 y c -> p = PUpdateProps [0] c) /\
      ((forall y c, op <> UpdateProperties 0 y c) -> forall c, p <> PUpdateProps [0] c)) as (p & H1 & H2 & H3 & H4 & H5).
    { destruct Hop as [(c & -> & Hc)|(Hx0 & c & ->)]; cbn [convert_op] in E1; rewrite Hsh in E1; bnd E1 q E2; injection E1 as <-; cbn.
      - eexists. split; [done|]. split; [done|]. cbn. split; [|split].
        + intros ->. apply Hc. by apply (fresh_path_root t sh x).
        + intros y' c' [= -> -> ->]. rewrite (fresh_path_zero t sh FS) in E2. by injection E2 as <-.
        + intros Hn c' [= -> ->]. assert (x = 0) as -> by (by apply (fresh_path_root t sh x)). by apply (Hn y c').
      - eexists. split; [done|]. split; [done|]. cbn. split; [|split]; [|done|done].
        intros ->. by apply Hx0, (fresh_path_root t sh x). }
    destruct (IH s1 s' E H1 Ho') as (U & U1 & U2 & U3 & U4). exists (p :: U).
    split; [by rewrite U1, H2, <- app_assoc|]. split; [by constructor|]. split.
    - intros y' c' Hc. apply elem_of_cons in Hc as [Hc|Hc]; [symmetry in Hc; apply H4 in Hc as ->; left|right; by eapply U3].
    - intros Hn c' Hc. apply elem_of_cons in Hc as [Hc|Hc].
      + symmetry in Hc. revert Hc. apply H5. intros y' c2 ->. apply (Hn y' c2). left.
      + revert Hc. apply U4. intros y' c2 Hc2. apply (Hn y' c2). by right.
  Qed.
End First.

(** What the other operations add is not meant for the root. *)
Section Rest.
  Context {H : Type}.
  Variable tb : dtree H hkind attrs string.
  Variable ins : list nat.
  Definition adds (s s' : cstate) : Prop :=
    exists R, cs_out s' = (cs_out s ++ R)%list /\ Forall (fun p => edits_root p = false) R.

  Lemma adds_refl s : adds s s.
  Proof using Type. exists []. by rewrite app_nil_r. Qed.
  Lemma adds_trans s s1 s2 : adds s s1 -> adds s1 s2 -> adds s s2.
  Proof using Type.
    intros (R1 & E1 & F1) (R2 & E2 & F2). exists (R1 ++ R2)%list. rewrite E2, E1, app_assoc. split; [done|]. by apply Forall_app.
  Qed.
  Lemma adds_one s sh p : edits_root p = false -> adds s (emit s sh p).
  Proof using Type. intros Hp. exists [p]. split; [done|]. by constructor. Qed.

  Lemma reparent_adds l : forall par pos s s', reparent_loop l par pos s = Val s' -> adds s s'.
  Proof using Type.
    induction l as [|[i c] l IH]; intros par pos s s' E; [injection E as <-; apply adds_refl|].
    cbn [reparent_loop] in E. bnd E from E1. bnd E sh1 E2. bnd E a2 E3. bnd E to E4.
    apply IH in E. eapply adds_trans; [|exact E]. by apply adds_one.
  Qed.

  Lemma other_adds s op s' : convert_op tb ins s op = Val s' ->
    match op with UpdateProperties _ _ _ | SetText _ _ _ => False | _ => True end -> adds s s'.
  Proof using Type.
    intros E Ho. destruct op as [| b pb pos kind|x|x b pb pos|]; try done; cbn [convert_op] in E.
    - bnd E sp E1. destruct (new_node _ _) as [a1 n]. bnd E r E2. destruct r as [sh1 slot]. bnd E at_ E3. bnd E p E4.
      injection E as <-. eexists [p]. split; [done|]. constructor; [|constructor].
      destruct kind; [bnd E4 cs E5|..]; by injection E4 as <-.
    - bnd E p E1. bnd E sh1 E2. injection E as <-. by apply adds_one.
    - bnd E sp E1. bnd E anc E2. bnd E s1 E3. bnd E from E4. bnd E r E5. destruct r as [sh2 slot]. bnd E to E6.
      injection E as <-. apply (adds_trans _ s1).
      + destruct anc; [|injection E3 as <-; apply adds_refl]. bnd E3 par E7. by apply reparent_adds in E3.
      + eexists [_]. split; [done|]. by constructor.
  Qed.

  Lemma others_add ops : forall s s', convert_loop tb ins s ops = Val s' ->
    (forall op, op ∈ ops -> match op with UpdateProperties _ _ _ | SetText _ _ _ => False | _ => True end) -> adds s s'.
  Proof using Type.
    induction ops as [|op ops IH]; intros s s' E Ho; [injection E as <-; apply adds_refl|].
    cbn [convert_loop] in E. bnd E s1 E1. apply (adds_trans _ s1).
    - eapply other_adds; [exact E1|]. apply Ho. left.
    - eapply IH; [exact E|]. intros op' Hop. apply Ho. by right.
  Qed.
End Rest.

Lemma props_diff_any l : l <> [] -> any_different (props_diff [] l) = true.
Proof. destruct l as [|[q v] l]; [done|]. intros _. unfold props_diff. cbn [props_diff_loop attr_get]. by rewrite !andb_false_r || done. Qed.

Lemma diff_first {H} (heqb : H -> H -> bool) hcomb h0 old new ob nb oats nats ts us t ta tb m ps :
  mild_doc old ob oats ts -> mild_doc new nb nats us ->
  compared heqb hcomb h0 old new t ta tb m -> no_collision heqb ta tb ->
  diff heqb hcomb h0 old new = Val ps ->
  exists U R, ps = (U ++ R)%list /\ Forall (first_patch (props_diff [] nats)) U /\
    Forall (fun p => edits_root p = false) R /\
    (nats <> [] -> PUpdateProps [0] (props_diff [] nats) ∈ U) /\
    (nats = [] -> forall c, PUpdateProps [0] c ∉ U).
Proof.
  intros PO PN CM NC E.
  destruct CM as (ob' & nb' & Eo & En & Et & Ea & Eb & Em).
  pose proof (md_body _ _ _ _ PO). pose proof (md_body _ _ _ _ PN).
  assert (ob' = ob) as -> by congruence. assert (nb' = nb) as -> by congruence.
  destruct (as_matching heqb hcomb h0 (doc_arena old) (doc_arena new) ob nb ts us "body" NsHtml oats nats
    (md_wf _ _ _ _ PO) (md_wf _ _ _ _ PN) (md_data _ _ _ _ PO) (md_data _ _ _ _ PN)
    (md_holds _ _ _ _ PO) (md_holds _ _ _ _ PN) (md_sound _ _ _ _ PO) (md_sound _ _ _ _ PN)
    (md_hollow _ _ _ _ PO) (md_hollow _ _ _ _ PN) (md_keys _ _ _ _ PN) (md_opaque _ _ _ _ PN)
    t ta tb m Et Ea Eb Em NC) as (BJ & MR & MI).
  destruct (build_tree_ok _ _ _ _ (md_wf _ _ _ _ PO) (md_data _ _ _ _ PO) (md_holds _ _ _ _ PO)) as (t' & Et' & BT).
  rewrite Et in Et'. injection Et' as <-.
  pose proof (bt_wf _ _ _ BT) as WT. assert (0 < length t) as L0 by (eapply data_lt; apply BT).
  destruct (shadow_new_full t WT L0 (bt_root_parent _ _ _ BT)) as (sh & Esh & FS).
  destruct (as_presents_a hcomb h0 (doc_arena old) ob ts "body" NsHtml oats (md_wf _ _ _ _ PO) (md_data _ _ _ _ PO)
    (md_holds _ _ _ _ PO) t ta Et Ea) as (ra & PA & _).
  destruct (as_presents_b hcomb h0 (doc_arena new) nb "body" NsHtml nats (md_wf _ _ _ _ PN) (md_data _ _ _ _ PN) tb Eb)
    as (rb & PB & Erb & _).
  pose proof (root_a_outside ta ra PA) as OA. pose proof (root_b_outside tb rb PB) as OB. rewrite Erb in OB.
  rewrite <- (pr_root _ _ PA) in OA.
  destruct (mk_dtree_fields _ _ _ _ _ _ Ea) as (FR & _ & FP & FT & _).
  destruct (mk_dtree_fields _ _ _ _ _ _ Eb) as (_ & _ & GP & GT & _). rewrite FR in OA.
  assert (t_text ta 0 = None /\ t_props ta 0 = [] /\ t_text tb nb = None /\ t_props tb nb = nats) as (Z1 & Z2 & Z3 & Z4).
  { rewrite FP, FT, GP, GT. unfold dtext, dprops. by rewrite (bt_root _ _ _ BT), (md_data _ _ _ _ PN). }
  unfold diff in E. rewrite Eo, En in E. unfold diff_bodies in E. rewrite Et in E. cbn [obind] in E.
  rewrite Ea in E. cbn [obind] in E. rewrite Eb in E. cbn [obind] in E. rewrite Em in E. cbn [obind] in E.
  bnd E oc Eoc. bnd E qs Ec. rewrite Esh in E. cbn [obind] in E.
  assert (exists U R, qs = (U ++ R)%list /\ Forall (first_patch (props_diff [] nats)) U /\
    Forall (fun p => edits_root p = false) R /\
    (nats <> [] -> PUpdateProps [0] (props_diff [] nats) ∈ U) /\
    (nats = [] -> forall c, PUpdateProps [0] c ∉ U)) as (U & R & -> & HU & HR & HI & HN).
  { unfold convert_ops in Ec. rewrite Esh in Ec. cbn [obind] in Ec. bnd Ec s Es. injection Ec as <-.
    unfold html_edit_script, generate_edit_script, edit_script_with in Es.
    rewrite RestyleProofs.convert_loop_app in Es. bnd Es s1 Es1.
    eapply (updates_first tb _ t sh (props_diff [] nats) WT (bt_all _ _ _ BT) FS) in Es1 as (U & U1 & U2 & U3 & U4); [|done|].
    - cbn [cs_out app] in U1.
      assert (adds s1 s) as (R & ER & HR).
      { eapply others_add; [exact Es|].
        intros op Hop. rewrite !elem_of_app in Hop. destruct Hop as [Hop|[Hop|Hop]];
          apply elem_of_list_In, in_flat_map in Hop as (z & _ & Hop); apply elem_of_list_In in Hop.
        + unfold phase2 in Hop. destruct (contains_b m z); [by apply elem_of_nil in Hop|].
          destruct (t_parent tb z); [|by apply elem_of_nil in Hop]. destruct (mem z _); [by apply elem_of_nil in Hop|].
          by apply elem_of_list_singleton in Hop as ->.
        + destruct z as [x y]. unfold phase4 in Hop. destruct (_ || _); [by apply elem_of_nil in Hop|].
          destruct (t_parent ta x), (t_parent tb y); try (by apply elem_of_nil in Hop).
          repeat match type of Hop with context [if ?c then _ else _] => destruct c end;
            first [by apply elem_of_nil in Hop|by apply elem_of_list_singleton in Hop as ->].
        + unfold phase5 in Hop. destruct (contains_a m z); [by apply elem_of_nil in Hop|].
          destruct (mem z _); [by apply elem_of_nil in Hop|]. by apply elem_of_list_singleton in Hop as ->. }
      exists U, R. rewrite ER, U1. split; [done|]. split; [done|]. split; [done|]. split.
      + intros Hne. apply (U3 nb). apply elem_of_list_In, in_flat_map. exists (0, nb).
        split; [by apply elem_of_list_In, (bij_fwd _ BJ)|]. apply elem_of_list_In. unfold phase1.
        rewrite (proj2 (mem_false _ _) OA), (proj2 (mem_false _ _) OB), Z1, Z2, Z3, Z4. cbn [orb otext_eqb app].
        destruct nats as [|kv nats']; [done|]. cbn [props_empty andb]. rewrite props_diff_any by done. cbn. left.
      + intros Hz. apply U4. intros y c Hin. apply elem_of_list_In, in_flat_map in Hin as ([x y'] & Hin & Hop).
        apply elem_of_list_In in Hin, Hop. apply (bij_fwd _ BJ) in Hin. unfold phase1 in Hop.
        destruct (_ || _); [by apply elem_of_nil in Hop|]. apply elem_of_app in Hop as [Hop|Hop].
        * destruct (otext_eqb _ _ _); [by apply elem_of_nil in Hop|].
          destruct (t_text tb y') as [s0|]; [|by apply elem_of_nil in Hop]. by apply elem_of_list_singleton in Hop.
        * destruct (decide (x = 0)) as [->|Hx0].
          { assert (y' = nb) as -> by congruence. rewrite Z2, Z4, Hz in Hop. cbn in Hop. by apply elem_of_nil in Hop. }
          destruct (_ && _); [by apply elem_of_nil in Hop|].
          destruct (_ || _); [|by apply elem_of_nil in Hop]. apply elem_of_list_singleton in Hop. congruence.
    - intros op Hop. apply elem_of_list_In, in_flat_map in Hop as ([x y] & Hin & Hop).
      apply elem_of_list_In in Hin, Hop. apply (bij_fwd _ BJ) in Hin. destruct (MI x y Hin) as (Hx & _ & _).
      exists x, y. split; [done|].
      unfold phase1 in Hop. destruct (_ || _); [by apply elem_of_nil in Hop|]. apply elem_of_app in Hop as [Hop|Hop].
      + destruct (decide (x = 0)) as [->|Hx0].
        { assert (y = nb) as -> by congruence. rewrite Z1, Z3 in Hop. cbn in Hop. by apply elem_of_nil in Hop. }
        right. split; [done|]. destruct (otext_eqb _ _ _); [by apply elem_of_nil in Hop|].
        destruct (t_text tb y) as [s0|]; [|by apply elem_of_nil in Hop]. apply elem_of_list_singleton in Hop as ->. by eexists.
      + left. destruct (_ && _); [by apply elem_of_nil in Hop|].
        destruct (_ || _); [|by apply elem_of_nil in Hop]. apply elem_of_list_singleton in Hop as ->. eexists. split; [done|].
        intros ->. assert (y = nb) as -> by congruence. by rewrite Z2, Z4. }
  destruct oc as [|pr oc].
  - injection E as <-. by exists U, R.
  - bnd E os Eos. injection E as <-. exists U, (R ++ os)%list. rewrite app_assoc. split; [done|]. split; [done|].
    split; [|done]. apply Forall_app. split; [done|]. by eapply opaque_spares.
Qed.

(** ** The native applier *)

Lemma dext_content c : forall a a' n, create_content a c = Val (a', n) -> dext a a'.
Proof.
  induction c as [s|s|t ats cs IH] using icontent_ind'; intros a a' n; cbn [create_content].
  1,2: intros [= <- <-]; apply dext_new.
  set (d := elem t ats NsHtml).
  change (new_node a d) with (fst (new_node a d), length a). cbv beta iota.
  pose proof (dext_new a d) as H1. revert H1. generalize (fst (new_node a d)) as a1, (length a) as m. intros a1 m H1 E.
  bnd E x E1. injection E as <- <-. eapply dext_trans; [exact H1|]. clear H1.
  revert a1 x E1. induction cs as [|c cs IHcs]; intros a1 a2 E; [by injection E as <-|].
  bnd E x E1. destruct x as [a3 i]. bnd E y E2.
  eapply dext_trans; [eapply (IH c); [by left|exact E1]|].
  eapply dext_trans; [by apply (dext_append _ _ _ _ E2)|]. apply IHcs; [|exact E]. intros h Hh. apply IH. by right.
Qed.
Lemma dext_contents cs : forall a m a', create_contents a m cs = Val a' -> dext a a'.
Proof.
  induction cs as [|c cs IH]; intros a m a' E; [by injection E as <-|]. cbn [create_contents] in E.
  bnd E x E1. destruct x as [a3 i]. bnd E y E2. eapply dext_trans; [by eapply dext_content|].
  eapply dext_trans; [by apply (dext_append _ _ _ _ E2)|by eapply IH].
Qed.
Lemma dext_clones cs : forall a m a', clone_under a m cs = Val a' -> dext a a'.
Proof.
  induction cs as [|c cs IH]; intros a m a' E; [by injection E as <-|]. cbn [clone_under] in E.
  bnd E x E1. destruct x as [a3 i]. bnd E y E2. eapply dext_trans; [by eapply dext_clone|].
  eapply dext_trans; [by apply (dext_append _ _ _ _ E2)|by eapply IH].
Qed.
Lemma dext_insert_pos a p pos n a' : insert_at_position a p pos n = Val a' -> dext a a'.
Proof.
  unfold insert_at_position. intros E. bnd E a1 E1. apply dext_fill in E1. eapply dext_trans; [exact E1|].
  destruct (children a1 p !! pos); [by eapply dext_insert_before|by eapply dext_append].
Qed.
Lemma grown_insert_at a sl q n slot : grown a (insert_at a sl q n slot).
Proof.
  unfold insert_at. destruct (get_slot_parent a sl q) as [[p pos]| | |]; try apply dext_refl.
  match goal with |- context [let '(_, _) := ?x in _] => destruct x as [a1 sl1] eqn:E1 end.
  apply grown_lift_from; [|intros a'; apply dext_insert_pos].
  destruct slot as [k|]; [|by injection E1 as <- _]. destruct (children a p !! pos); injection E1 as <- _; [apply dext_detach|done].
Qed.

Section Native.
  Variable parse : string -> list htree.
  Variable a0 : arena dnode.
  Variable Out : nat -> Prop.
  Variable b : nat.
  Hypothesis Out_lt : forall j, Out j -> j < length a0.
  Hypothesis b_in : ~ Out b.
  Hypothesis b_lt : b < length a0.
  Notation framed := (framed a0 Out b).
  Notation sl_framed := (sl_framed Out b).
  Notation same := (same b).

  Lemma native_same a sl p : framed a -> sl_framed sl -> edits_root p = false -> same a (apply_patch parse (a, sl) p).
  Proof using b_lt.
    intros Hf Hs He.
    assert (forall q f, (forall n, (n = b -> q = [0]) -> same a (f n)) -> same a (with_node (a, sl) q f)) as HW.
    { intros q f Hk. unfold with_node. cbn [fst snd].
      destruct (navigate_slot_path a sl q) as [n| | |] eqn:En; [|done..].
      apply Hk. by apply (navigate_slot_in a0 Out b a sl q n). }
    assert (forall q f, (forall n, grown a (f n)) -> grown a (with_node (a, sl) q f)) as HG.
    { intros q f Hk. unfold with_node. destruct (navigate_slot_path _ _ q); [apply Hk|apply dext_refl..]. }
    destruct p as [at_ tag ats cs slot|at_ s slot|at_ s slot|q|q s|q n v|q n|q t slot|q ch|q s]; cbn [apply_patch].
    - apply (grown_same a0 Out b b_lt a _ Hf). destruct (new_node a _) as [a1 n] eqn:En.
      assert (dext a a1) as H1. { replace a1 with (fst (new_node a (elem tag ats NsHtml))) by (by rewrite En). apply dext_new. }
      destruct (create_contents a1 n cs) as [a2| | |] eqn:E; try exact H1.
      eapply dext_trans; [exact H1|]. eapply dext_trans; [by eapply dext_contents|apply grown_insert_at].
    - apply (grown_same a0 Out b b_lt a _ Hf). eapply dext_trans; [apply (dext_new a (text_node s))|apply grown_insert_at].
    - apply (grown_same a0 Out b b_lt a _ Hf). eapply dext_trans; [apply (dext_new a (comment_node s))|apply grown_insert_at].
    - apply (grown_same a0 Out b b_lt a _ Hf). apply HG. intros n. apply grown_lift. intros a'. apply dext_replace.
    - apply HW. intros n Hn. assert (n <> b) as Hnb. { intros E. by apply (not_root_path _ q He eq_refl), Hn. }
      destruct (node_kind a n) as [[]|]; try done; apply data_set_kind_other; congruence.
    - apply HW. intros m Hm. assert (m <> b) as Hnb. { intros E. by apply (not_root_path _ q He eq_refl), Hm. }
      destruct (node_kind a m) as [[]|]; try done; apply data_set_kind_other; congruence.
    - apply HW. intros m Hm. assert (m <> b) as Hnb. { intros E. by apply (not_root_path _ q He eq_refl), Hm. }
      destruct (node_kind a m) as [[]|]; try done; apply data_set_kind_other; congruence.
    - apply (grown_same a0 Out b b_lt a _ Hf). apply HG. intros n. cbv zeta.
      assert (forall a1, (if Nat.ltb 1 (length q) then replace_by_empty a n else Val (detach a n)) = Val a1 -> dext a a1) as Ht.
      { intros a1. destruct (Nat.ltb _ _); [apply dext_replace|]. intros [= <-]. apply dext_detach. }
      destruct (if Nat.ltb 1 (length q) then _ else _) as [a1| | |]; try apply dext_refl.
      eapply dext_trans; [by apply Ht|apply grown_insert_at].
    - apply HW. intros m Hm. assert (m <> b) as Hnb. { intros E. by apply (not_root_path _ q He eq_refl), Hm. }
      cbv zeta. destruct (node_kind a m) as [[]|]; try done.
      1: apply data_set_kind_other; congruence.
      all: destruct (find _ ch) as [c|]; [destruct (pc_value c)|]; try done; apply data_set_kind_other; congruence.
    - apply (grown_same a0 Out b b_lt a _ Hf). apply HG. intros n. cbv zeta.
      apply grown_lift_from; [apply dext_detach_all|]. intros a'. apply dext_clones.
  Qed.

  Lemma native_rest R : forall a sl, framed a -> sl_framed sl ->
    (forall p, p ∈ R -> hits_body p = false) -> Forall (fun p => edits_root p = false) R ->
    same a (apply_all parse (a, sl) R).
  Proof using Out_lt b_lt b_in.
    induction R as [|p R IH]; intros a sl Hf Hs Hh HR; cbn [apply_all]; [done|].
    apply Forall_cons in HR as [H2 HR].
    pose proof (apply_patch_framed a0 Out b Out_lt b_in b_lt parse a sl p Hf Hs (Hh p ltac:(left))) as [F1 S1].
    pose proof (native_same a sl p Hf Hs H2) as D1.
    destruct (apply_patch parse (a, sl) p) as [[a1 sl1] [[]|e| |]]; try done. unfold MountProofs.same in *. cbn [fst snd] in *.
    rewrite <- D1. apply IH; try done. intros q Hq. apply Hh. by right.
  Qed.

  Variables (tag : string) (ns : nspace) (c0 : list prop_change) (l1 : attrs).
  Hypothesis SET : forall l, rebuild_attrs l c0 = l1.

  (** The first patches: no slot is filled. *)
  Lemma native_first U : forall a sl a' sl' l, framed a -> sl_framed sl -> slot_get sl 0 = Some b ->
    (forall p, p ∈ U -> hits_body p = false) -> Forall (first_patch c0) U ->
    data a b = Some (mkD (NElem tag l) ns) -> apply_all parse (a, sl) U = ((a', sl'), Val tt) ->
    sl' = sl /\ framed a' /\
    ((PUpdateProps [0] c0 ∈ U /\ data a' b = Some (mkD (NElem tag l1) ns)) \/
     (PUpdateProps [0] c0 ∉ U /\ data a' b = Some (mkD (NElem tag l) ns))).
  Proof using Out_lt b_lt b_in SET.
    induction U as [|p U IH]; intros a sl a' sl' l Hf Hs H0 Hh HU Hd E; cbn [apply_all] in E.
    { injection E as <- <-. split; [done|]. split; [done|]. right. split; [|done]. intros Hin. by apply elem_of_nil in Hin. }
    apply Forall_cons in HU as [H2 HU].
    pose proof (apply_patch_framed a0 Out b Out_lt b_in b_lt parse a sl p Hf Hs (Hh p ltac:(left))) as [F1 S1].
    destruct (apply_patch parse (a, sl) p) as [[a1 sl1] r] eqn:E1. cbn [fst snd] in F1, S1.
    destruct r as [[]|e| |]; try done.
    assert (sl1 = sl /\ ((p = PUpdateProps [0] c0 /\ data a1 b = Some (mkD (NElem tag l1) ns)) \/
      (p <> PUpdateProps [0] c0 /\ data a1 b = Some (mkD (NElem tag l) ns)))) as [-> Hp].
    { split.
      - destruct p as [| | | |q s| | | |q c|]; try done; cbn [apply_patch] in E1; unfold with_node in E1; cbn [fst snd] in E1;
          destruct (navigate_slot_path a sl q) as [n| | |]; try done; cbv zeta in E1;
          destruct (node_kind a n) as [[]|]; try done; try (by injection E1 as _ <-);
          destruct (find _ c) as [x|]; [destruct (pc_value x)|..|destruct (pc_value x)|]; by injection E1 as _ <-.
      - destruct (edits_root p) eqn:Er.
        + left. destruct p as [| | | |q s| | | |q c|]; try done; cbn [first_patch] in H2.
          { by destruct q as [|[|] [|]]. }
          assert (q = [0]) as -> by (by destruct q as [|[|] [|]]). rewrite (H2 eq_refl) in *. split; [done|].
          cbn [apply_patch] in E1. unfold with_node in E1. cbn [fst snd navigate_slot_path] in E1.
          rewrite H0 in E1. cbn [navigate] in E1. cbv zeta in E1. unfold node_kind in E1. rewrite Hd in E1. cbn [d_kind] in E1.
          rewrite SET in E1. injection E1 as <- <-. unfold set_kind. rewrite Hd.
          rewrite data_set_data by (by eapply data_lt). by rewrite Nat.eqb_refl.
        + right. split; [by intros ->|]. pose proof (native_same a sl p Hf Hs Er) as D1. unfold MountProofs.same in D1.
          rewrite E1 in D1. cbn [fst] in D1. by rewrite D1. }
    assert (exists l', data a1 b = Some (mkD (NElem tag l') ns)) as (l' & Hd') by (destruct Hp as [[_ ?]|[_ ?]]; eauto).
    assert (forall p, p ∈ U -> hits_body p = false) as Hh' by (intros q Hq; apply Hh; by right).
    destruct (IH a1 sl a' sl' l' F1 S1 H0 Hh' HU Hd' E) as (-> & F2 & HC).
    split; [done|]. split; [done|]. destruct HC as [[HC HE]|[HC HE]].
    - left. split; [by right|done].
    - destruct Hp as [[-> Hp]|[Hp Hp']].
      + left. split; [left|]. congruence.
      + right. split; [|congruence]. intros Hin. apply elem_of_cons in Hin as [Hin|Hin]; [by symmetry in Hin|done].
  Qed.
End Native.
