(** Property theorems on what live patching preserves in the page it patches:
    C48 (content that client-side code has put into opaque elements stays) and
    C49 (matched nodes keep their DOM nodes). *)
From stdpp Require Import list_numbers relations.
From Verif Require Import Base Arena Matching Chawathe Dom HtmlDiff Browser
  ArenaProofs ArenaOps TreeProofs DtreeProofs MatchProofs DomTree FrameProofs SimProofs Applier BrowserProofs
  ConvProofs RoundProofs AssembleProofs NestProofs Instances InstanceProofs HashProofs
  PropMatch PropFrame PropRoundtrip PropClient PropBrowser PropSelf CutProofs KeepProofs.
Local Open Scope string_scope.

(** ** C49 *)

(** A document that shows the old page, for example the old page itself or one
    that was patched before; pages in the domain of C01.  Then after the
    patches, every node that the comparison has matched with a node of the new
    page is still the same DOM node, now found where its partner is in the new
    page; and for every node of the new page without partner a DOM node was
    created. *)
Theorem matched_nodes_keep_identity : forall {H} (heqb : H -> H -> bool) hcomb h0 (parse : string -> list htree)
    (old new c : document) ob nb cb oats nats ts us t ta tb m,
  mild_doc old ob oats ts -> mild_doc new nb nats us ->
  compared heqb hcomb h0 old new t ta tb m ->
  no_collision heqb ta tb -> swap_free m (init_parents t tb m) (html_edit_script ta tb m) ->
  opaque_silent heqb ta tb m ->
  wf (doc_arena c) -> body c = Some cb -> shows_list (doc_arena c) ts (children (doc_arena c) cb) ->
  exists ps c',
    diff heqb hcomb h0 old new = Val ps /\ apply_patches parse c ps = (c', Val tt) /\ body c' = Some cb /\
    (forall x y q q', get_b m x = Some y -> node_at t 0 q = Some x -> node_at (doc_arena new) nb q' = Some y ->
       exists i, node_at (doc_arena c) cb q = Some i /\ node_at (doc_arena c') cb q' = Some i) /\
    (forall y q', get_a m y = None -> node_at (doc_arena new) nb q' = Some y ->
       exists i, node_at (doc_arena c') cb q' = Some i /\ length (doc_arena c) <= i).
Proof.
  intros H heqb hcomb h0 parse old new c ob nb cb oats nats ts us t ta tb m PO PN CM NC SF SI W Hb Hs.
  destruct (diff_run_on heqb hcomb h0 old new ob nb oats nats ts us PO PN parse t ta tb m CM NC SF SI
      (doc_arena c) cb W (body_is_elem c cb Hb) Hs) as (ps & D' & sl & Ed & Ea & W' & Hs' & _ & Hh & ID1 & ID2).
  assert (Eap : exists c', apply_patches parse c ps = (c', Val tt) /\ doc_arena c' = D').
  { unfold apply_patches. destruct ps as [|p ps'].
    - cbn [apply_all] in Ea. injection Ea as <- <-. by exists c.
    - rewrite (init_slots c cb Hb). cbv beta iota.
      match goal with |- context [apply_all ?p ?s ?l] => replace (apply_all p s l) with ((D', sl), Val tt) by (symmetry; exact Ea) end.
      eauto. }
  destruct Eap as (c' & Eap & <-). exists ps, c'. split; [done|]. split; [done|].
  destruct (outside_body_untouched parse c cb ps W Hb Hh) as (_ & _ & F3 & _).
  rewrite Eap in F3. done.
Qed.
Print Assumptions matched_nodes_keep_identity.

(** ** C48 *)

Lemma compared_unique {H} (heqb : H -> H -> bool) hcomb h0 old new t ta tb m t2 ta2 tb2 m2 :
  compared heqb hcomb h0 old new t ta tb m -> compared heqb hcomb h0 old new t2 ta2 tb2 m2 -> t2 = t /\ m2 = m.
Proof.
  intros (ob1 & nb1 & A1 & A2 & A3 & A4 & A5 & A6) (ob2 & nb2 & B1 & B2 & B3 & B4 & B5 & B6).
  assert (ob2 = ob1) as -> by congruence. assert (nb2 = nb1) as -> by congruence.
  assert (t2 = t) as -> by congruence. assert (ta2 = ta) as -> by congruence. assert (tb2 = tb) as -> by congruence.
  split; [done|congruence].
Qed.

Section Opaque.
  Context {H : Type}.
  Variables (heqb : H -> H -> bool) (hcomb : hkind -> option string -> list H -> H) (h0 : H).
  Hypothesis HR : forall k, heqb k k = true.

  (** What is needed of two pages: as for C01, and matched elements are both
      opaque or both not. *)
  Definition comparable_opaque (old new : document) : Prop :=
    forall t ta tb m, compared heqb hcomb h0 old new t ta tb m ->
      no_collision heqb ta tb /\ swap_free m (init_parents t tb m) (html_edit_script ta tb m) /\
      opaque_agree ta tb m.

  (** The node [cb] is outside opaque elements, and what is below it has the
      given content, if one leaves out everything inside opaque elements. *)
  Definition shows_outside (C : arena dnode) (cb : nat) (ts : list htree) : Prop :=
    wf C /\ (exists tag l, node_kind C cb = Some (NElem tag l)) /\
    opaque_el mark C cb = false /\ ~ hidden mark C cb /\ shows_list (cut mark C) ts (children C cb).

  (** A client document that shows the old page, with whatever client-side code
      has put into its opaque elements.  Then the patches apply; the document
      shows the new page; what was inside opaque elements is there as before,
      and nothing else has got there; an opaque element that is matched with
      one of the new page is found, with its content, where that one is. *)
  Theorem opaque_content_kept : forall (parse : string -> list htree) old new c ob nb cb oats nats ts us,
    mild_doc old ob oats ts -> mild_doc new nb nats us -> comparable_opaque old new ->
    body c = Some cb -> shows_outside (doc_arena c) cb ts ->
    exists ps c',
      diff heqb hcomb h0 old new = Val ps /\ apply_patches parse c ps = (c', Val tt) /\
      body c' = Some cb /\ shows_outside (doc_arena c') cb us /\
      serialize_inner_html (cut mark (doc_arena c')) cb = to_body_html new /\
      spared mark (doc_arena c) (doc_arena c') /\
      (forall t ta tb m x y q q', compared heqb hcomb h0 old new t ta tb m ->
         get_b m x = Some y -> node_at t 0 q = Some x -> node_at (doc_arena new) nb q' = Some y ->
         exists i, node_at (doc_arena c) cb q = Some i /\ node_at (doc_arena c') cb q' = Some i).
  Proof using HR.
    intros parse old new c ob nb cb oats nats ts us PO PN HC Hb (W & CE & Ho & Hh & Hs).
    destruct (compared_total heqb hcomb h0 old new ob nb oats nats ts us PO PN) as (t & ta & tb & m & CM).
    destruct (HC t ta tb m CM) as (NC & SF & AG).
    assert (forall P : hkind -> attrs -> Prop, (forall k l, P k l) -> forall h, hall P h) as OK.
    { intros P HP h. induction h as [| |tg ns ats cs IH] using htree_ind'; apply hall_eq; (split; [apply HP|]);
        intros x Hx; [by apply elem_of_nil in Hx|by apply elem_of_nil in Hx|by apply IH]. }
    destruct (keep_gen heqb hcomb h0 old new ob nb oats nats ts us PO PN t ta tb m CM NC SF HR AG
      (fun l => l) (fun _ _ => True) (apply_patch parse) (doc_arena c) cb (native_applier _))
      as (ps & C' & sl & Ed & Ea & W' & Hs' & SP & Hp & ID & _); try done.
    { intros h _. apply OK. by intros []. }
    { intros h _. apply OK. by intros []. }
    { by exists "". } { by exists "". }
    { intros h _. apply OK. intros k l. apply op_mark. }
    { intros h _. apply OK. intros k l. apply op_mark. }
    { rewrite op_mark. apply (md_opaque _ _ _ _ PN). }
    rewrite run_all_native in Ea.
    assert (Eap : exists c', apply_patches parse c ps = (c', Val tt) /\ doc_arena c' = C').
    { unfold apply_patches. destruct ps as [|p ps'].
      - cbn [apply_all] in Ea. injection Ea as <- <-. by exists c.
      - rewrite (init_slots c cb Hb). cbv beta iota.
        match goal with |- context [apply_all ?p ?s ?l] => replace (apply_all p s l) with ((C', sl), Val tt) by (symmetry; exact Ea) end.
        eauto. }
    destruct Eap as (c' & Eap & <-). exists ps, c'. split; [done|]. split; [done|].
    destruct (outside_body_untouched parse c cb ps W Hb Hp) as (_ & _ & F3 & _).
    rewrite Eap in F3. cbn [fst] in F3. split; [done|].
    assert (cb < length (doc_arena c)) as BL.
    { destruct CE as (tg & l & CE). unfold node_kind in CE. destruct (data (doc_arena c) cb) eqn:Ed'; [|done]. by eapply data_lt. }
    pose proof (sp_mark _ _ _ SP cb BL) as Ho'. rewrite Ho in Ho'.
    split; [|split; [|split]].
    - split; [done|]. split; [by apply body_is_elem|]. split; [done|]. split; [|done].
      intros Hx. by apply Hh, (sp_out _ _ _ SP).
    - assert (children (cut mark (doc_arena c')) cb = children (doc_arena c') cb) as Ec by (by rewrite cut_children, Ho').
      rewrite <- Ec in Hs'. rewrite (shows_body_html _ us cb (cut_wf mark _ W') Hs').
      unfold to_body_html. rewrite (md_body _ _ _ _ PN).
      by rewrite (serialize_inner_holds _ us nb (md_wf _ _ _ _ PN) (md_holds _ _ _ _ PN)).
    - done.
    - intros t2 ta2 tb2 m2 x y q q' CM2.
      destruct (compared_unique heqb hcomb h0 old new _ _ _ _ _ _ _ _ CM CM2) as [-> ->]. apply ID.
  Qed.

  (** The same in the browser, on the body or any other element [cb].  The
      attribute that marks opaque elements must not be written with a prefix. *)
  Definition unprefixed (h : htree) : Prop :=
    hall (fun _ l => forall q, q ∈ keys l -> q_prefix q = None \/ q_local q <> opaque_attr) h.

  Theorem opaque_content_kept_browser : forall valid_elem valid_attr parse_template old new ob nb oats nats ts us C cb,
    mild_doc old ob oats ts -> mild_doc new nb nats us -> comparable_opaque old new ->
    (forall h, h ∈ ts -> names_ok valid_elem valid_attr h /\ unprefixed h) ->
    (forall h, h ∈ us -> names_ok valid_elem valid_attr h /\ unprefixed h) ->
    b_okn valid_elem valid_attr "body" nats ->
    shows_outside C cb (map btree ts) ->
    exists ps C' sl,
      diff heqb hcomb h0 old new = Val ps /\
      b_apply_all valid_elem valid_attr parse_template cb (C, []) ps = ((C', sl), Val tt) /\
      shows_outside C' cb (map btree us) /\
      serialize_inner_html (cut mark C') cb = to_body_html new /\
      spared mark C C' /\
      (forall t ta tb m x y q q', compared heqb hcomb h0 old new t ta tb m ->
         get_b m x = Some y -> node_at t 0 q = Some x -> node_at (doc_arena new) nb q' = Some y ->
         exists i, node_at C cb q = Some i /\ node_at C' cb q' = Some i).
  Proof using HR.
    intros ve va pt old new ob nb oats nats ts us C cb PO PN HC OKO OKN OKB (W & CE & Ho & Hh & Hs).
    destruct (compared_total heqb hcomb h0 old new ob nb oats nats ts us PO PN) as (t & ta & tb & m & CM).
    destruct (HC t ta tb m CM) as (NC & SF & AG).
    assert (forall h, unprefixed h -> hall (fun _ l => op mark (battrs l) = is_opaque_props l) h) as HU.
    { intros h. apply hall_impl. intros _ l. apply op_battrs. }
    destruct (keep_gen heqb hcomb h0 old new ob nb oats nats ts us PO PN t ta tb m CM NC SF HR AG
      battrs (b_okn ve va) (b_ap ve va pt) C cb (browser_applier ve va pt))
      as (ps & C' & sl & Ed & Ea & W' & Hs' & SP & Hp & ID & _); try done.
    { intros h Hi. by apply names_ok_hall, OKO. }
    { intros h Hi. by apply names_ok_hall, OKN. }
    { exists "body". split; [apply OKB|]. split; [intros q Hq; by apply elem_of_nil in Hq|constructor]. }
    { by exists "body". }
    { intros h Hi. by apply HU, OKO. }
    { intros h Hi. by apply HU, OKN. }
    { pose proof (md_opaque _ _ _ _ PN) as Hn. rewrite op_battrs; [done|]. intros q Hq. right.
      apply String.eqb_neq. exact (proj1 (op_false mark nats) Hn q Hq). }
    { by apply shows_list_btree. }
    destruct (b_ap_run ve va pt cb ps C [(0, cb)] [] ((C', sl)) eq_refl) as [sl1 Eb]; [|done|].
    { intros k Hk0. destruct k; [done|reflexivity]. }
    assert (cb < length C) as BL.
    { destruct CE as (tg & l & CE). unfold node_kind in CE. destruct (data C cb) eqn:Ed'; [|done]. by eapply data_lt. }
    pose proof (sp_mark _ _ _ SP cb BL) as Ho'. rewrite Ho in Ho'. apply shows_list_btree in Hs'.
    exists ps, C', sl1. split; [done|]. split; [done|]. split; [|split; [|split]].
    - split; [done|]. split; [|split; [done|split; [|done]]].
      + assert (kind_tag (node_kind C' cb) = kind_tag (node_kind C cb)) as Ht.
        { assert (C' = fst (fst (b_apply_all ve va pt cb (C, []) ps))) as EC by (exact (eq_sym (f_equal (fun r => fst (fst r)) Eb))).
          rewrite EC.
          apply browser_outside_untouched; [done|done|]. intros p Hi ->. by specialize (Hp _ Hi). }
        destruct CE as (tg & l & CE). rewrite CE in Ht.
        destruct (node_kind C' cb) as [[]|]; try done. eauto.
      + intros Hx. by apply Hh, (sp_out _ _ _ SP).
    - assert (children (cut mark C') cb = children C' cb) as Ec by (by rewrite cut_children, Ho').
      rewrite <- Ec in Hs'. rewrite (shows_body_html _ _ cb (cut_wf mark _ W') Hs').
      rewrite (ser_ts_btree ve va us) by (intros h Hi; by apply OKN).
      unfold to_body_html. rewrite (md_body _ _ _ _ PN).
      by rewrite (serialize_inner_holds _ us nb (md_wf _ _ _ _ PN) (md_holds _ _ _ _ PN)).
    - done.
    - intros t2 ta2 tb2 m2 x y q q' CM2.
      destruct (compared_unique heqb hcomb h0 old new _ _ _ _ _ _ _ _ CM CM2) as [-> ->]. apply ID.
  Qed.

  (** ** A whole session *)

  (** What happens to a client document: the server sends the patches to a new
      page, or client-side code changes the document. *)
  Inductive event := EPage (new : document) | EScript (f : document -> document).

  Fixpoint session (parse : string -> list htree) (page c : document) (evs : list event) : outcome (document * document) :=
    match evs with
    | [] => Val (page, c)
    | EPage new :: evs =>
        let! ps := diff heqb hcomb h0 page new in
        match apply_patches parse c ps with
        | (c', Val tt) => session parse new c' evs
        | (_, Fail e) => Fail e
        | (_, Panic) => Panic
        | (_, Diverge) => Diverge
        end
    | EScript f :: evs => session parse page (f c) evs
    end.

  (** Client-side code that keeps to the inside of opaque elements. *)
  Definition well_behaved (f : document -> document) : Prop :=
    forall c, wf (doc_arena c) -> inside_only (doc_arena c) (doc_arena (f c)) /\ doc_root (f c) = doc_root c.

  (** Whatever the sequence of page updates and of client-side changes inside
      opaque elements: every list of patches applies, and outside its opaque
      elements the client shows the page last sent. *)
  Theorem session_converges : forall (parse : string -> list htree) (P : document -> Prop) (page c : document) evs,
    (forall d, P d -> exists b ats ts, mild_doc d b ats ts) ->
    (forall d d', P d -> P d' -> comparable_opaque d d') ->
    (forall d, EPage d ∈ evs -> P d) -> (forall f, EScript f ∈ evs -> well_behaved f) ->
    P page ->
    forall b cb ats ts, mild_doc page b ats ts -> body c = Some cb -> shows_outside (doc_arena c) cb ts ->
    exists page' c', session parse page c evs = Val (page', c') /\ body c' = Some cb /\
      (exists b' ats' ts', mild_doc page' b' ats' ts' /\ shows_outside (doc_arena c') cb ts') /\
      serialize_inner_html (cut mark (doc_arena c')) cb = to_body_html page' /\
      (page' = page \/ EPage page' ∈ evs).
  Proof using HR.
    intros parse P page c evs HM HC. revert page c.
    induction evs as [|e evs IH]; intros page c HP HF Hpg b cb ats ts PM Hb HS.
    - exists page, c. split; [done|]. split; [done|]. split; [by exists b, ats, ts|]. split; [|by left].
      destruct HS as (W & CE & Ho & Hh & Hs).
      assert (children (cut mark (doc_arena c)) cb = children (doc_arena c) cb) as Ec by (by rewrite cut_children, Ho).
      rewrite <- Ec in Hs. rewrite (shows_body_html _ _ cb (cut_wf mark _ W) Hs).
      unfold to_body_html. rewrite (md_body _ _ _ _ PM).
      by rewrite (serialize_inner_holds _ ts b (md_wf _ _ _ _ PM) (md_holds _ _ _ _ PM)).
    - destruct e as [new|f]; cbn [session].
      + assert (P new) as Hnew by (apply HP; left). destruct (HM new Hnew) as (nb & nats & us & PN).
        destruct (opaque_content_kept parse page new c b nb cb ats nats ts us PM PN (HC _ _ Hpg Hnew) Hb HS)
          as (ps & c1 & Ed & Ea & Hb1 & HS1 & _).
        rewrite Ed. cbn [obind]. rewrite Ea.
        destruct (IH new c1) with (b := nb) (cb := cb) (ats := nats) (ts := us) as (page' & c' & E1 & E2 & E3 & E4 & E5); try done.
        { intros d Hd. apply HP. by right. } { intros f Hf. apply HF. by right. }
        exists page', c'. split; [done|]. split; [done|]. split; [done|]. split; [done|]. right.
        destruct E5 as [->|?]; [left|by right].
      + destruct HS as (W & (tg & l & CE) & Ho & Hh & Hs).
        destruct (HF f ltac:(left) c W) as [IO Er].
        assert (cb < length (doc_arena c)) as BL.
        { unfold node_kind in CE. destruct (data (doc_arena c) cb) eqn:Ed'; [|done]. by eapply data_lt. }
        destruct (IH page (f c)) with (b := b) (cb := cb) (ats := ats) (ts := ts) as (page' & c' & E1 & E2 & E3 & E4 & E5); try done.
        { intros d Hd. apply HP. by right. } { intros g Hg. apply HF. by right. }
        { by apply (inside_body c). }
        { split; [apply IO|]. split.
          { exists tg, l. unfold node_kind in *. by rewrite (io_data _ _ IO). }
          split; [by rewrite (inside_mark _ _ IO)|]. split; [by apply (inside_shown _ _ W IO)|].
          by apply (inside_shows_list (doc_arena c)). }
        exists page', c'. split; [done|]. split; [done|]. split; [done|]. split; [done|].
        destruct E5 as [->|?]; [by left|by right; right].
  Qed.
End Opaque.
Print Assumptions opaque_content_kept.
Print Assumptions opaque_content_kept_browser.
Print Assumptions session_converges.

(** A condition on the documents alone, as in [diff_roundtrip_ordered]: kinds
    of nodes are ordered such that children come later than their parents, and
    the kind of a node says whether it is opaque. *)
Definition templated (r : hkind -> nat) (isop : hkind -> bool) (d : document) : Prop :=
  exists b ats ts, mild_doc d b ats ts /\
    (forall h, h ∈ ts -> nests (fun p k => r p < r k) bodyk h) /\
    (forall h, h ∈ ts -> hall (fun k l => is_opaque_props l = isop k) h).

Lemma templated_comparable {H} (heqb : H -> H -> bool) hcomb h0 r isop old new :
  collision_free heqb hcomb -> templated r isop old -> templated r isop new -> comparable_opaque heqb hcomb h0 old new.
Proof.
  intros CF (ob & oats & ts & PO & Ro & So) (nb & nats & us & PN & Rn & Sn) t ta tb m CM.
  pose proof (compared_faithful heqb hcomb h0 old new ob nb oats nats ts us PO PN t ta tb m CF CM) as NC.
  split; [done|]. split.
  - by apply (ranked_compared heqb hcomb h0 old new ob nb oats nats ts us PO PN r t ta tb m CM NC).
  - by apply (marked_agree heqb hcomb h0 old new ob nb oats nats ts us PO PN t ta tb m CM NC isop).
Qed.

Corollary session_converges_templated : forall {H} (heqb : H -> H -> bool) hcomb h0 (parse : string -> list htree)
    r isop (page c : document) evs b cb ats ts,
  (forall k, heqb k k = true) -> collision_free heqb hcomb ->
  (forall d, EPage d ∈ evs -> templated r isop d) -> (forall f, EScript f ∈ evs -> well_behaved f) ->
  templated r isop page -> mild_doc page b ats ts -> body c = Some cb -> shows_outside (doc_arena c) cb ts ->
  exists page' c', session heqb hcomb h0 parse page c evs = Val (page', c') /\ body c' = Some cb /\
    serialize_inner_html (cut mark (doc_arena c')) cb = to_body_html page' /\
    (page' = page \/ EPage page' ∈ evs).
Proof.
  intros H heqb hcomb h0 parse r isop page c evs b cb ats ts HR CF HP HF Hp PM Hb HS.
  destruct (session_converges heqb hcomb h0 HR parse (templated r isop) page c evs) with (b := b) (cb := cb) (ats := ats) (ts := ts)
    as (page' & c' & E1 & E2 & _ & E4 & E5); try done.
  - intros d (b' & ats' & ts' & M & _). eauto.
  - intros d d'. by apply templated_comparable.
  - exists page', c'. done.
Qed.
Print Assumptions session_converges_templated.

(** *** Examples *)

Lemma mk_doc_mild h b : (forall t, t ∈ b -> hall (sound bodyk) t) -> (forall t, t ∈ b -> hollow is_opaque_props t) ->
  mild_doc (mk_doc h b) 2 [] b.
Proof.
  intros Hp Hq. destruct (mk_doc_ok h b) as (W & _ & _ & _ & _ & _ & D & _ & Hh & Hb).
  split; try done. constructor.
Qed.

Ltac solve_each tac :=
  intros ? Hin; repeat (apply elem_of_cons in Hin as [->|Hin]; [cbn; repeat split; try discriminate; tac|]);
  by apply elem_of_nil in Hin.
Ltac solve_keys :=
  first [apply NoDup_nil_2|apply NoDup_singleton|
         apply NoDup_cons; split; [intros Hk; apply elem_of_list_singleton in Hk; discriminate|apply NoDup_singleton]].

Lemma mk_doc_shows h b ts : map prune b = ts -> parent (doc_arena (mk_doc h b)) 0 = None ->
  shows_outside (doc_arena (mk_doc h b)) 2 ts.
Proof.
  intros <- Hr. destruct (mk_doc_ok h b) as (W & _ & _ & Hc & D0 & _ & D & _ & Hh & _).
  set (a := doc_arena (mk_doc h b)) in *.
  assert (forall i tg, data a i = Some (elem tg [] NsHtml) -> opaque_el mark a i = false) as Hno.
  { intros i tg Ed. unfold opaque_el, node_kind. by rewrite Ed. }
  assert (parent a 2 = Some 0) as Hp. { apply (wf_pc _ W). rewrite Hc. right. left. }
  split; [done|]. split; [exists "body", []; unfold node_kind; by rewrite D|]. split; [by eapply Hno|]. split.
  - apply (hidden_not mark a 2 0 Hp); [by eapply Hno|]. by apply hidden_root.
  - apply holds_shows_list, holds_list_cut. exact Hh.
Qed.

Definition kp_mark : list attr := [ex_attr opaque_attr ""].
Definition kp_old : list htree :=
  [el "h1" [tx "old"]; el_a "div" kp_mark []; el "p" [tx "foot"]].
Definition kp_new : list htree :=
  [el "h1" [tx "new"]; el "section" [el "p" [tx "foot"]; el_a "div" [ex_attr "class" "k"; ex_attr opaque_attr "1"] []]].
(** The old page, with what a widget has drawn into its [div]. *)
Definition kp_client : list htree :=
  [el "h1" [tx "old"]; el_a "div" kp_mark [el "canvas" []; tx "7 items"]; el "p" [tx "foot"]].

Definition kp_rank (k : hkind) : nat :=
  match k with KElem "body" _ => 0 | KElem "section" _ => 1 | KElem _ _ => 2 | _ => 3 end.
Definition kp_isop (k : hkind) : bool := match k with KElem "div" _ => true | _ => false end.

Lemma kp_old_ok : mild_doc (mk_doc [] kp_old) 2 [] kp_old /\ templated kp_rank kp_isop (mk_doc [] kp_old).
Proof.
  assert (mild_doc (mk_doc [] kp_old) 2 [] kp_old) as M by (apply mk_doc_mild; solve_each solve_keys).
  split; [done|]. exists 2, [], kp_old. split; [done|]. split; [solve_each lia|solve_each idtac].
Qed.
Lemma kp_new_ok : mild_doc (mk_doc [] kp_new) 2 [] kp_new /\ templated kp_rank kp_isop (mk_doc [] kp_new).
Proof.
  assert (mild_doc (mk_doc [] kp_new) 2 [] kp_new) as M by (apply mk_doc_mild; solve_each solve_keys).
  split; [done|]. exists 2, [], kp_new. split; [done|]. split; [solve_each lia|solve_each idtac].
Qed.

(** A client whose opaque [div] has content; the new page changes the heading,
    moves the [div] into another element and changes its attributes.  The widget
    moves along. *)
Example opaque_content_kept_example :
  let old := mk_doc [] kp_old in let new := mk_doc [] kp_new in let c := mk_doc [] kp_client in
  mild_doc old 2 [] kp_old /\ mild_doc new 2 [] kp_new /\ comparable_opaque phash_eqb PH PH0 old new /\
  body c = Some 2 /\ shows_outside (doc_arena c) 2 kp_old /\
  (exists ps, pdiff old new = Val ps /\ length ps = 10 /\
    to_body_html (fst (apply_patches no_parser c ps)) =
      Some "<h1>new</h1><section><p>foot</p><div class=""k"" data-hotmeal-opaque=""1""><canvas></canvas>7 items</div></section>") /\
  to_body_html new = Some "<h1>new</h1><section><p>foot</p><div class=""k"" data-hotmeal-opaque=""1""></div></section>".
Proof.
  intros old new c. split; [apply kp_old_ok|]. split; [apply kp_new_ok|]. split.
  { by apply (templated_comparable _ _ _ kp_rank kp_isop); [apply phash_collision_free|apply kp_old_ok|apply kp_new_ok]. }
  split; [reflexivity|]. split; [apply mk_doc_shows; reflexivity|]. split; [|vm_compute; reflexivity].
  eexists. split; [vm_compute; reflexivity|]. split; [reflexivity|vm_compute; reflexivity].
Qed.

(** The same in a browser. *)
Example opaque_content_kept_browser_example :
  let old := mk_doc [] kp_old in let new := mk_doc [] kp_new in let c := mk_doc [] (map btree kp_client) in
  (forall h, h ∈ kp_old -> names_ok ex_name ex_name h /\ unprefixed h) /\
  (forall h, h ∈ kp_new -> names_ok ex_name ex_name h /\ unprefixed h) /\
  b_okn ex_name ex_name "body" [] /\ shows_outside (doc_arena c) 2 (map btree kp_old) /\
  exists ps, pdiff old new = Val ps /\
    (let r := b_apply_all ex_name ex_name no_parser 2 (doc_arena c, []) ps in
     snd r = Val tt /\
     serialize_inner_html (fst (fst r)) 2 =
       Some "<h1>new</h1><section><p>foot</p><div class=""k"" data-hotmeal-opaque=""1""><canvas></canvas>7 items</div></section>").
Proof.
  intros old new c.
  assert (forall h, hall (fun _ l => forallb (fun kv => match q_prefix (fst kv) with None => true | _ => false end) l = true) h ->
            unprefixed h) as HU.
  { intros h. apply hall_impl. intros _ l Hl q Hq. left. apply elem_of_list_fmap in Hq as ([q' v] & -> & Hq).
    apply elem_of_list_In in Hq. apply (proj1 (forallb_forall _ _) Hl) in Hq. cbn [fst] in *. by destruct (q_prefix q'). }
  split; [|split].
  1,2: intros h Hh; split; [revert h Hh; apply names_okb_list; vm_compute; reflexivity|]; apply HU; revert h Hh; solve_each idtac.
  split; [split; [by split|]; split; [intros q Hq; by apply elem_of_nil in Hq|constructor]|].
  split; [apply mk_doc_shows; reflexivity|].
  eexists. split; [vm_compute; reflexivity|]. vm_compute. repeat split.
Qed.

(** Without agreement on opaqueness the statement fails: when the new page
    takes the mark away, what client-side code has drawn stays in the page,
    behind the new content. *)
Theorem opaque_content_kept_without_agreement_refuted : exists old new c ts us ps,
  mild_doc old 2 [] ts /\ mild_doc new 2 [] us /\
  (forall t ta tb m, compared phash_eqb PH PH0 old new t ta tb m ->
     no_collision phash_eqb ta tb /\ swap_free m (init_parents t tb m) (html_edit_script ta tb m)) /\
  body c = Some 2 /\ shows_outside (doc_arena c) 2 ts /\ pdiff old new = Val ps /\
  snd (apply_patches no_parser c ps) = Val tt /\
  to_body_html new = Some "<div><p>hi</p></div>" /\
  to_body_html (fst (apply_patches no_parser c ps)) = Some "<div><p>hi</p>widget<b>x</b>more</div>".
Proof.
  set (ts := [el_a "div" kp_mark []]). set (us := [el "div" [el "p" [tx "hi"]]]).
  assert (mild_doc (mk_doc [] ts) 2 [] ts) as MO by (apply mk_doc_mild; solve_each solve_keys).
  assert (mild_doc (mk_doc [] us) 2 [] us) as MN by (apply mk_doc_mild; solve_each solve_keys).
  exists (mk_doc [] ts), (mk_doc [] us), (mk_doc [] [el_a "div" kp_mark [tx "widget"; el "b" [tx "x"]; tx "more"]]), ts, us.
  eexists. split; [done|]. split; [done|]. split.
  { intros t ta tb m CM. split.
    - by apply (compared_faithful phash_eqb PH PH0 _ _ _ _ _ _ _ _ MO MN t ta tb m phash_collision_free).
    - eapply (swap_check_sound _ _ _ _ _ _); [|exact CM]. vm_compute. reflexivity. }
  split; [reflexivity|]. split; [apply mk_doc_shows; reflexivity|].
  split; [vm_compute; reflexivity|]. split; [vm_compute; reflexivity|]. split; vm_compute; reflexivity.
Qed.
Print Assumptions opaque_content_kept_without_agreement_refuted.

(** A script that draws into node [i], if that is an opaque element. *)
Definition draw (i : nat) (hs : list htree) (c : document) : document :=
  if opaque_el mark (doc_arena c) i then
    match clone_under (doc_arena c) i hs with
    | Val a => mkDoc a (doc_root c) (doc_doctype c)
    | _ => c
    end
  else c.

Lemma draw_well_behaved i hs : well_behaved (draw i hs).
Proof.
  intros c W. unfold draw. destruct (opaque_el mark (doc_arena c) i) eqn:Ho.
  - destruct (clone_under_all (doc_arena c) i hs W (opaque_el_lt mark _ _ Ho)) as (a' & ids & E & [W' L D C P _ _]).
    rewrite E. split; [|done]. cbn [doc_arena]. split; [done|lia| | |]; intros; [by apply D|by apply P|].
    rewrite C by done. destruct (Nat.eqb_spec j i); [congruence|done].
  - split; [|done]. by split.
Qed.

(** A session: the script draws, the page changes, the script draws more, the
    page changes back. *)
Example session_converges_example :
  let old := mk_doc [] kp_old in let new := mk_doc [] kp_new in
  let evs := [EScript (draw 5 [el "canvas" []]); EPage new; EScript (draw 5 [tx "7 items"]); EPage old;
              EScript (draw 3 [tx "not drawn"])] in
  (forall d, EPage d ∈ evs -> templated kp_rank kp_isop d) /\ (forall f, EScript f ∈ evs -> well_behaved f) /\
  templated kp_rank kp_isop old /\ shows_outside (doc_arena old) 2 kp_old /\
  exists c', session phash_eqb PH PH0 no_parser old old evs = Val (old, c') /\
    to_body_html c' =
      Some "<h1>old</h1><div data-hotmeal-opaque=""""><canvas></canvas>7 items</div><p>foot</p>".
Proof.
  intros old new evs. split; [|split; [|split; [apply kp_old_ok|split; [apply mk_doc_shows; reflexivity|]]]].
  - intros d Hd. unfold evs in Hd. repeat (apply elem_of_cons in Hd as [Hd|Hd]; [first [discriminate|injection Hd as ->; first [apply kp_old_ok|apply kp_new_ok]]|]).
    by apply elem_of_nil in Hd.
  - intros f Hf. unfold evs in Hf. repeat (apply elem_of_cons in Hf as [Hf|Hf]; [first [discriminate|injection Hf as ->; apply draw_well_behaved]|]).
    by apply elem_of_nil in Hf.
  - eexists. split; [vm_compute; reflexivity|vm_compute; reflexivity].
Qed.

(** The hypotheses of [diff_roundtrip_opaque] on the same pages. *)
Lemma kp_silent old new ts us t ta tb m : mild_doc old 2 [] ts -> mild_doc new 2 [] us ->
  templated kp_rank kp_isop old -> templated kp_rank kp_isop new -> compared phash_eqb PH PH0 old new t ta tb m ->
  no_collision phash_eqb ta tb /\ swap_free m (init_parents t tb m) (html_edit_script ta tb m) /\
  opaque_silent phash_eqb ta tb m.
Proof.
  intros MO MN TO TN CM.
  destruct (templated_comparable phash_eqb PH PH0 kp_rank kp_isop old new phash_collision_free TO TN t ta tb m CM) as (NC & SF & AG).
  split; [done|]. split; [done|].
  apply (agree_silent phash_eqb PH PH0 old new 2 2 [] [] ts us MO MN t ta tb m CM NC); [apply phash_eqb_refl|done].
Qed.

Example diff_roundtrip_opaque_example :
  let old := mk_doc [] kp_old in let new := mk_doc [] kp_new in
  mild_doc old 2 [] kp_old /\ mild_doc new 2 [] kp_new /\
  (forall t ta tb m, compared phash_eqb PH PH0 old new t ta tb m ->
     no_collision phash_eqb ta tb /\ swap_free m (init_parents t tb m) (html_edit_script ta tb m) /\
     opaque_silent phash_eqb ta tb m) /\
  exists ps, pdiff old new = Val ps /\ to_body_html (fst (apply_patches no_parser old ps)) = to_body_html new.
Proof.
  intros old new. destruct kp_old_ok as [MO TO], kp_new_ok as [MN TN]. split; [done|]. split; [done|]. split.
  - intros t ta tb m CM. by apply (kp_silent old new kp_old kp_new t).
  - eexists. split; vm_compute; reflexivity.
Qed.

(** *** Example for C49 *)

(** The [div] and the text of the paragraph move into a new section and are the
    same DOM nodes there; the section is a new node. *)
Example matched_nodes_keep_identity_example :
  let old := mk_doc [] kp_old in let new := mk_doc [] kp_new in
  mild_doc old 2 [] kp_old /\ mild_doc new 2 [] kp_new /\
  (exists t ta tb m, compared phash_eqb PH PH0 old new t ta tb m /\
     no_collision phash_eqb ta tb /\ swap_free m (init_parents t tb m) (html_edit_script ta tb m) /\
     opaque_silent phash_eqb ta tb m) /\
  exists ps, pdiff old new = Val ps /\
    (let d' := doc_arena (fst (apply_patches no_parser old ps)) in
     node_at (doc_arena old) 2 [1] = Some 5 /\ node_at d' 2 [1; 1] = Some 5 /\
     node_at (doc_arena old) 2 [2; 0] = Some 7 /\ node_at d' 2 [1; 0; 0] = Some 7 /\
     length (doc_arena old) = 8 /\ node_at d' 2 [1] = Some 9).
Proof.
  intros old new. split; [apply kp_old_ok|]. split; [apply kp_new_ok|]. split.
  - destruct (compared_total phash_eqb PH PH0 old new 2 2 [] [] kp_old kp_new (proj1 kp_old_ok) (proj1 kp_new_ok))
      as (t & ta & tb & m & CM).
    exists t, ta, tb, m. split; [done|].
    apply (kp_silent old new kp_old kp_new t); try done; [apply kp_old_ok|apply kp_new_ok|apply kp_old_ok|apply kp_new_ok].
  - eexists. split; [vm_compute; reflexivity|]. cbv zeta. repeat split; vm_compute; reflexivity.
Qed.
