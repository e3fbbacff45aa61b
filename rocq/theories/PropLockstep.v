(** C80: the patches of [diff] in the native document and in the browser, step by
    step; the fuzz target apply.rs. *)
From stdpp Require Import list_numbers.
From Verif Require Import Base Arena Matching Chawathe Dom HtmlDiff Browser Fuzz Parity
  AttrProofs ArenaProofs ArenaOps TreeProofs DtreeProofs MatchProofs DomTree ApplyProofs ShadowProofs SimProofs Applier
  ConvProofs RoundProofs AssembleProofs NestProofs Instances InstanceProofs HashProofs BrowserProofs BrowserTotal
  IsoProofs StepProofs SuitProofs PropMatch PropFrame PropRoundtrip PropBrowser PropAlike PropFuzz PropParity WfCheck.
Local Open Scope string_scope.

(** ** Recorded runs *)

(** A run without an error, with something to see after each step, is recorded. *)
Section Watch.
  Variable ap : pstate -> patch -> presult.
  Variable look : pstate -> option domnode.

  (** Ask before each patch whether there is something to see. *)
  Definition watched (st : pstate) (p : patch) : presult :=
    match look st with Some _ => ap st p | None => (st, Fail EmptyPath) end.

  Lemma watched_record show ps : forall st st', run_all watched st ps = (st', Val tt) -> look st' <> None ->
    exists l, record ap look show st ps = Val l /\ forallb is_ok l = true /\ length l = length ps /\
      run_all ap st ps = (st', Val tt).
  Proof using Type.
    induction ps as [|p ps IH]; intros st st' Hr Hl; [by exists []; split_and!; try done|].
    cbn [run_all record] in *. unfold watched in Hr at 1. destruct (look st); [|done].
    destruct (ap st p) as [st1 [[]| | |]]; try done.
    destruct (IH st1 st' Hr Hl) as (l & E & Ho & Hn & Ha).
    assert (exists t, look st1 = Some t) as [t ->].
    { destruct (look st1) eqn:El; [eauto|]. destruct ps as [|p' ps]; cbn in Hr; [by injection Hr as <-|].
      unfold watched in Hr at 1. by rewrite El in Hr. }
    rewrite E. exists (StepOk t :: l). cbn. split_and!; try done. by rewrite Hn.
  Qed.

  Lemma watched_applier {OQ : opaques} va okn (shw : pstate -> pstate -> Prop) :
    (forall st a sl, shw st (a, sl) -> wf a -> look st <> None) -> applier va okn shw ap -> applier va okn shw watched.
  Proof using Type.
    intros Q A.
    assert (forall st a sl p, shw st (a, sl) -> wf a -> watched st p = ap st p) as E.
    { intros st a sl p Hs W. pose proof (Q st a sl Hs W). unfold watched. by destruct (look st). }
    split.
    - intros st a sl k Hs W. intros. setoid_rewrite (E st a sl _ Hs W). by eapply (ap_insert _ _ _ _ A).
    - intros st a sl from n q Hs W. intros. setoid_rewrite (E st a sl _ Hs W). by eapply (ap_move_inner _ _ _ _ A).
    - intros st a sl k n Hs W. intros. setoid_rewrite (E st a sl _ Hs W). by eapply (ap_move_slot _ _ _ _ A).
    - intros st a sl q n p Hs W. intros. setoid_rewrite (E st a sl _ Hs W). by eapply (ap_remove_inner _ _ _ _ A).
    - intros st a sl k n Hs W. intros. setoid_rewrite (E st a sl _ Hs W). by eapply (ap_remove_slot _ _ _ _ A).
    - intros st a sl q n tag l0 l l' Hs W. intros. setoid_rewrite (E st a sl _ Hs W). by eapply (ap_update _ _ _ _ A).
    - intros st a sl q n s s' Hs W. intros. setoid_rewrite (E st a sl _ Hs W). by eapply (ap_text _ _ _ _ A).
    - intros st a sl q n s s' Hs W. intros. setoid_rewrite (E st a sl _ Hs W). by eapply (ap_comment _ _ _ _ A).
  Qed.
End Watch.

Lemma wf_node ats (a : arena dnode) i : wf a -> dom_node_f ats (tree_fuel a) a i <> None.
Proof.
  intros W. destruct (decide (i < length a)) as [Hi|Hi].
  - destruct (tree_exists a i W) as (r & <- & Ht). destruct (rose_dom ats a r Ht (tree_fuel a)) as [s ->]; [|done].
    pose proof (rheight_lt_size r). pose proof (is_tree_size a r W Ht Hi). unfold tree_fuel. lia.
  - unfold tree_fuel. destruct (length a + 1) eqn:E; [lia|]. cbn [dom_node_f]. unfold node_kind, data.
    by rewrite lookup_ge_None_2 by lia.
Qed.

Section Lockstep.
  Context {H : Type}.
  Variables (heqb : H -> H -> bool) (hcomb : hkind -> option string -> list H -> H) (h0 : H).
  Variables valid_elem valid_attr : string -> bool.
  Variables parse_template parse_inner : string -> list htree.

  (** The patches of [diff] suit the document they were made from: whenever the
      native applier comes to one, the place it names is free or its node goes to
      a slot, the names are such as a browser keeps, and so on (Parity.v). *)
  Lemma diff_suits old new ob nb oats nats ts us :
    mild_doc old ob oats ts -> mild_doc new nb nats us ->
    (forall t ta tb m, compared heqb hcomb h0 old new t ta tb m ->
       no_collision heqb ta tb /\ swap_free m (init_parents t tb m) (html_edit_script ta tb m) /\
       opaque_silent heqb ta tb m) ->
    (forall h, h ∈ ts -> names_ok valid_elem valid_attr h) ->
    (forall h, h ∈ us -> names_ok valid_elem valid_attr h) ->
    b_okn valid_elem valid_attr "body" oats -> b_okn valid_elem valid_attr "body" nats ->
    exists ps st', diff heqb hcomb h0 old new = Val ps /\
      suits valid_elem valid_attr parse_inner (doc_arena old, [(0, ob)]) ps = true /\
      apply_all parse_inner (doc_arena old, [(0, ob)]) ps = (st', Val tt).
  Proof using Type.
    intros PO PN HC OKO OKN OKB OKB'.
    destruct (compared_total heqb hcomb h0 old new ob nb oats nats ts us PO PN) as (t & ta & tb & m & CM).
    destruct (HC t ta tb m CM) as (NC & SF & SI).
    assert (node_kind (doc_arena old) ob = Some (NElem "body" oats)) as Hk.
    { unfold node_kind. by rewrite (md_data _ _ _ _ PO). }
    destruct (diff_run_gen heqb hcomb h0 old new ob nb oats nats ts us PO PN t ta tb m CM NC SF (OQ := exact_page)
      (fun l => l) (b_okn valid_elem valid_attr) (shown valid_attr ob) (checked valid_elem valid_attr parse_inner)
      (doc_arena old) ob (doc_arena old, [(0, ob)])) as (ps & st' & D' & sl & Ed & Er & _); try done.
    - apply checked_applier.
    - intros h Hh. by apply names_ok_hall, OKO.
    - intros h Hh. by apply names_ok_hall, OKN.
    - exists "body". split; [apply OKB|]. split; [intros q Hq; by apply elem_of_nil in Hq|constructor].
    - by exists "body".
    - intros h Hh. apply hollow_impl with (op := is_opaque_props); [done|]. by apply (md_hollow _ _ _ _ PN).
    - apply PO.
    - by exists (NElem "body" oats).
    - split; [done|]. split; [done|]. exists "body", oats. split; [done|]. apply OKB.
    - apply holds_shows_list, PO.
    - intros _. apply PO.
    - exists ps, st'. split; [done|]. by apply checked_suits.
  Qed.

  Lemma browser_run_recorded show cb ps : forall st st', st_ok st -> cb < length (fst st) ->
    b_apply_all valid_elem valid_attr parse_template cb st ps = (st', Val tt) ->
    exists r, record (b_apply_patch valid_elem valid_attr parse_template cb) (fun st => browser_node (fst st) cb) show
      st ps = Val r /\ forallb is_ok r = true /\ length r = length ps.
  Proof using Type.
    induction ps as [|p ps IH]; intros [a s] st' O Hl Eb; [by exists []|].
    cbn [b_apply_all record] in *. cbn [fst] in Hl.
    assert (p <> PRemove []) as Hp by (intros ->; by cbn in Eb).
    pose proof (b_apply_any valid_elem valid_attr parse_template cb a s p O Hl Hp) as G.
    destruct (b_apply_patch valid_elem valid_attr parse_template cb (a, s) p) as [[a1 s1] [[]| | |]]; try done.
    destruct G as (G1 & G2 & _). cbn [fst snd] in *.
    destruct (IH (a1, s1) st' G1 ltac:(cbn; lia) Eb) as (r & Er & Ho & Hn). cbn [fst].
    destruct (browser_node a1 cb) as [y|] eqn:Ey; [|by destruct (wf_node (fun _ => browser_attrs) a1 cb (proj1 G1))].
    exists (StepOk y :: r). rewrite Er. cbn. split_and!; try done. by rewrite Hn.
  Qed.

  Lemma browser_recorded show old new ob nb oats nats ts us C cb tag l :
    mild_doc old ob oats ts -> mild_doc new nb nats us ->
    (forall t ta tb m, compared heqb hcomb h0 old new t ta tb m ->
       no_collision heqb ta tb /\ swap_free m (init_parents t tb m) (html_edit_script ta tb m) /\
       opaque_silent heqb ta tb m) ->
    (forall h, h ∈ ts -> names_ok valid_elem valid_attr h) ->
    (forall h, h ∈ us -> names_ok valid_elem valid_attr h) ->
    b_okn valid_elem valid_attr "body" nats ->
    wf C -> node_kind C cb = Some (NElem tag l) -> holds_list C (map btree ts) (children C cb) ->
    exists ps r, diff heqb hcomb h0 old new = Val ps /\
      record (b_apply_patch valid_elem valid_attr parse_template cb) (fun st => browser_node (fst st) cb) show
        (C, []) ps = Val r /\ forallb is_ok r = true /\ length r = length ps.
  Proof using Type.
    intros PO PN HC OKO OKN OKB W Hk Hs.
    destruct (compared_total heqb hcomb h0 old new ob nb oats nats ts us PO PN) as (t & ta & tb & m & CM).
    destruct (HC t ta tb m CM) as (NC & SF & SI).
    destruct (diff_run_with heqb hcomb h0 old new ob nb oats nats ts us PO PN t ta tb m CM NC SF SI
      battrs (b_okn valid_elem valid_attr) (b_ap valid_elem valid_attr parse_template) C cb)
      as (ps & D' & sl & Ed & Ea & W' & _).
    - apply browser_applier.
    - intros h Hi. by apply names_ok_hall, OKO.
    - intros h Hi. by apply names_ok_hall, OKN.
    - exists "body". split; [apply OKB|]. split; [intros q Hq; by apply elem_of_nil in Hq|constructor].
    - by exists "body".
    - done.
    - eauto.
    - by apply shows_list_btree, holds_shows_list.
    - destruct (b_ap_run valid_elem valid_attr parse_template cb ps C [(0, cb)] [] ((D', sl)) eq_refl) as [sl1 Eb]; [|done|].
      { intros k Hk0. destruct k; [done|reflexivity]. }
      exists ps. cbn [fst] in Eb.
      assert (cb < length C) as Hl.
      { unfold node_kind in Hk. destruct (data C cb) eqn:E; [|done]. by eapply data_lt. }
      assert (st_ok (C, [])) as O by (split; [done|]; by intros k v).
      destruct (browser_run_recorded show cb ps (C, []) _ O Hl Eb) as (r & Hr). by exists r.
  Qed.

  (** Two documents in the domain of C01 with names as a browser keeps them, and
      the old one's page in a browser.  Then the patches of [diff] apply in the
      native document and in the browser without an error, and after every single
      patch the two show the same tree below the body. *)
  Theorem diff_step_by_step : forall show_n show_j old new db h bb ob nb oats nats ts us,
    mild_doc old ob oats ts -> mild_doc new nb nats us ->
    (forall t ta tb m, compared heqb hcomb h0 old new t ta tb m ->
       no_collision heqb ta tb /\ swap_free m (init_parents t tb m) (html_edit_script ta tb m) /\
       opaque_silent heqb ta tb m) ->
    (forall h, h ∈ ts -> names_ok valid_elem valid_attr h) ->
    (forall h, h ∈ us -> names_ok valid_elem valid_attr h) ->
    b_okn valid_elem valid_attr "body" oats -> b_okn valid_elem valid_attr "body" nats ->
    page_of old h -> page_of db (btree h) -> body db = Some bb ->
    exists ps r, diff heqb hcomb h0 old new = Val ps /\
      record (b_apply_patch valid_elem valid_attr parse_template bb) (fun st => browser_node (fst st) bb) show_j
        (doc_arena db, []) ps = Val r /\
      record (apply_patch parse_inner) (fun st => dom_view (fst st) ob) show_n (doc_arena old, [(0, ob)]) ps = Val r /\
      forallb is_ok r = true /\ length r = length ps.
  Proof using Type.
    intros sn sj old new db h bb ob nb oats nats ts us PO PN HC OKO OKN OKB OKB' Hd Hdb Ebb.
    pose proof (md_body _ _ _ _ PO) as Eb.
    destruct (pages_locked old db h ob bb Hd Hdb Eb Ebb) as (R & K & _).
    assert (holds (doc_arena db) (btree (HElem "body" NsHtml oats ts)) bb) as Hbb.
    { destruct K as (slx & _ & S & HR). apply (iso_holds _ _ _ (st_iso _ _ _ S) _ _ _ HR). apply vw_holds.
      apply holds_elem. split; [apply PO|apply PO]. }
    cbn [btree] in Hbb. apply holds_elem in Hbb as [Dbb Cbb].
    destruct (browser_recorded sj old new ob nb oats nats ts us (doc_arena db) bb "body" (battrs oats) PO PN HC OKO OKN OKB')
      as (ps & r & Ed & Er & Ho & Hn); [apply Hdb| |exact Cbb|].
    { unfold node_kind. by rewrite Dbb. }
    destruct (diff_suits old new ob nb oats nats ts us PO PN HC OKO OKN OKB OKB') as (ps' & st' & Ed' & Hs & _).
    rewrite Ed in Ed'. injection Ed' as <-.
    exists ps, r. split_and!; try done.
    by apply (same_trees_step_by_step valid_elem valid_attr parse_template parse_inner sn sj old db h ob bb).
  Qed.
End Lockstep.
Print Assumptions diff_step_by_step.

(** ** The fuzz target apply.rs *)

Lemma wf_tree d : wf (doc_arena d) -> document_tree d <> None.
Proof. intros W. by apply wf_node. Qed.

(** On documents in the domain of C01 the target apply.rs passes: [diff] has
    patches, the recorded run has no error, and the body is that of the new
    document. *)
Theorem apply_target_passes : forall {H} (heqb : H -> H -> bool) hcomb h0 show parse (old new : document)
    ob nb oats nats ts us,
  mild_doc old ob oats ts -> mild_doc new nb nats us ->
  (forall t ta tb m, compared heqb hcomb h0 old new t ta tb m ->
     no_collision heqb ta tb /\ swap_free m (init_parents t tb m) (html_edit_script ta tb m) /\
     opaque_silent heqb ta tb m) ->
  apply_target heqb hcomb h0 show parse old new = Val FzPassed.
Proof.
  intros H heqb hcomb h0 show parse old new ob nb oats nats ts us PO PN HC.
  destruct (compared_total heqb hcomb h0 old new ob nb oats nats ts us PO PN) as (t & ta & tb & m & CM).
  destruct (HC t ta tb m CM) as (NC & SF & SI).
  set (look := fun st : pstate => document_tree (mkDoc (fst st) (doc_root old) (doc_doctype old))).
  assert (forall h, hall (okh (fun _ _ => True)) h) as OK.
  { intros h. induction h as [| |tg ns ats cs IH] using htree_ind'; apply hall_eq; (split; [done|]);
      intros c Hc; [by apply elem_of_nil in Hc|by apply elem_of_nil in Hc|by apply IH]. }
  destruct (diff_run_with heqb hcomb h0 old new ob nb oats nats ts us PO PN t ta tb m CM NC SF SI
    (fun l => l) (fun _ _ => True) (watched (apply_patch parse) look) (doc_arena old) ob)
    as (ps & D' & sl & Ed & Er & W' & _); auto.
  - apply watched_applier; [|apply native_applier]. intros st a sl -> W. by apply wf_tree.
  - by exists "".
  - by exists "".
  - apply PO.
  - exists "body", oats. unfold node_kind. by rewrite (md_data _ _ _ _ PO).
  - apply holds_shows_list, PO.
  - destruct (watched_record (apply_patch parse) look show ps (doc_arena old, [(0, ob)]) (D', sl) Er)
      as (l & El & Ho & _ & Ea); [by apply wf_tree|].
    rewrite run_all_native in Ea.
    assert (exists x, capture show parse old ps = Val (mkTrace x l)) as [x Ec].
    { unfold capture. destruct (document_tree old) as [x|] eqn:Ex; [|by destruct (wf_tree old (md_wf _ _ _ _ PO))].
      exists x. rewrite (init_slots old ob (md_body _ _ _ _ PO)). cbn [obind].
      exact (f_equal (fun o => let! steps := o in Val (mkTrace x steps)) El). }
    assert (captured parse old ps = Val (mkDoc D' (doc_root old) (doc_doctype old))) as Ep.
    { unfold captured. rewrite (init_slots old ob (md_body _ _ _ _ PO)). cbn [obind].
      exact (f_equal (fun r : presult => let '((a, _), _) := r in
        (Val (mkDoc a (doc_root old) (doc_doctype old)) : outcome document)) Ea). }
    unfold apply_target. rewrite Ed, Ec. cbn [obind]. unfold all_succeeded. cbn [tr_steps]. rewrite Ho. cbn [negb].
    rewrite Ep. cbn [obind].
    destruct (diff_roundtrip_opaque heqb hcomb h0 parse old new ob nb oats nats ts us PO PN HC)
      as (ps' & d' & Ed' & Ha & _ & _ & Eh & _). rewrite Ed in Ed'. injection Ed' as <-.
    assert (mkDoc D' (doc_root old) (doc_doctype old) = d') as ->.
    { unfold apply_patches in Ha. destruct ps as [|p ps].
      - injection Ha as <-. injection Ea as <- _. by destruct old.
      - rewrite (init_slots old ob (md_body _ _ _ _ PO)) in Ha. cbn [obind] in Ha.
        pose proof (f_equal (fun r : presult => let '((a, _), o) := r in
          (mkDoc a (doc_root old) (doc_doctype old), o)) Ea) as Ef. cbn beta iota in Ef.
        etransitivity; [exact (f_equal fst (eq_sym Ef))|]. exact (f_equal fst Ha). }
    rewrite Eh. unfold to_body_html. rewrite (md_body _ _ _ _ PN).
    rewrite (serialize_inner_holds _ us nb (md_wf _ _ _ _ PN) (md_holds _ _ _ _ PN)). by rewrite String.eqb_refl.
Qed.
Print Assumptions apply_target_passes.

(** ** Example *)

Definition ex_lock_old : document := mk_doc [el "title" [tx "t"]] ex_old_body.
Definition ex_lock_new : document := mk_doc [] ex_new_body.
Definition ex_lock_page : document := mk_doc [el "title" [tx "t"]] (map btree ex_old_body).
Definition ex_lock_h : htree := HElem "html" NsHtml [] [el "head" [el "title" [tx "t"]]; el "body" ex_old_body].

(** The hypotheses of both theorems. *)
Lemma ex_lock_domain :
  mild_doc ex_lock_old 2 [] ex_old_body /\ mild_doc ex_lock_new 2 [] ex_new_body /\
  forall t ta tb m, compared phash_eqb PH PH0 ex_lock_old ex_lock_new t ta tb m ->
    no_collision phash_eqb ta tb /\ swap_free m (init_parents t tb m) (html_edit_script ta tb m) /\
    opaque_silent phash_eqb ta tb m.
Proof.
  destruct diff_roundtrip_example as (PO & PN & HC & _). split; [exact (plain_mild _ _ _ _ PO)|].
  split; [exact (plain_mild _ _ _ _ PN)|]. intros t ta tb m CM. destruct (HC t ta tb m CM) as [NC SF].
  split; [done|]. split; [done|].
  exact (plain_silent phash_eqb PH PH0 _ _ _ _ _ _ _ _ t ta tb m PO PN CM NC).
Qed.

(** Elements inserted, moved into new ones and taken out of slots, attributes and
    texts: 15 patches, 15 trees, each the same in both.  (The empty texts at the
    end stand where something was taken away.) *)
Example lockstep_example :
  (forall h, h ∈ ex_old_body -> names_ok ex_name ex_name h) /\
  (forall h, h ∈ ex_new_body -> names_ok ex_name ex_name h) /\
  b_okn ex_name ex_name "body" [] /\
  page_of ex_lock_old ex_lock_h /\ page_of ex_lock_page (btree ex_lock_h) /\ body ex_lock_page = Some 2 /\
  exists ps r, pdiff ex_lock_old ex_lock_new = Val ps /\ length ps = 15 /\
    record (b_apply_patch ex_name ex_name no_parser 2) (fun st => browser_node (fst st) 2) ex_show
      (doc_arena ex_lock_page, []) ps = Val r /\
    record (apply_patch no_parser) (fun st => dom_view (fst st) 2) ex_show (doc_arena ex_lock_old, [(0, 2)]) ps = Val r /\
    forallb is_ok r = true /\ r !! 0 <> r !! 14 /\
    r !! 14 = Some (StepOk (DElem "body" []
      [DElem "div" [("class", "c"); ("id", "y")]
         [DText "three"; DElem "section" [] [DElem "b" [] [DText "two"]; DElem "p" [] [DText "one!"]]; DElem "u" [] []];
       DText ""; DText ""])).
Proof.
  do 2 (split; [apply names_okb_list; vm_compute; reflexivity|]).
  split; [split; [by split|]; split; [intros q Hq; by apply elem_of_nil in Hq|constructor]|].
  split; [constructor; [apply wf_check_sound; by vm_compute|by vm_compute|vm_compute; repeat (constructor; repeat split)]|].
  split; [constructor; [apply wf_check_sound; by vm_compute|by vm_compute|vm_compute; repeat (constructor; repeat split)]|].
  split; [by vm_compute|]. eexists _, _. vm_compute. repeat split; discriminate.
Qed.

Example apply_target_example :
  apply_target phash_eqb PH PH0 ex_show no_parser ex_lock_old ex_lock_new = Val FzPassed /\
  to_body_html ex_lock_old <> to_body_html ex_lock_new.
Proof. by vm_compute. Qed.
