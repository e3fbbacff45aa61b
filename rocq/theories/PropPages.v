(** Property theorems on live reload of pages given as text: C23, C40 with
    html5ever's contract in place of an abstract page parser: C62. *)
From Coq Require Import NArith.
From stdpp Require Import list_numbers relations.
From Verif Require Import Base Arena Matching Chawathe Dom HtmlDiff Server ServerProofs Sink Page
  ArenaProofs ArenaOps TreeProofs DtreeProofs MatchProofs DomTree FrameProofs ConvProofs RoundProofs AssembleProofs
  NestProofs SinkProofs DiffTotal ParseProofs Instances InstanceProofs HashProofs PropMatch PropFrame PropRoundtrip PropServer
  Browser BrowserProofs PropBrowser PropClient PropSink PropParse Wire LiveClient WireProofs MountProofs NumberProofs PropPayload PropMount.
Local Open Scope string_scope.

(** The server's answers depend on the values of the comparison only. *)
Section Ext.
  Variables f g : string -> string -> option (list patch).
  Hypothesis FG : forall o n, f o n = g o n.
  Lemma diff_route_ext s r h : diff_route f s r h = diff_route g s r h.
  Proof. unfold diff_route. destruct (hm_get _ _); [|done]. by rewrite FG. Qed.
  Lemma diff_route_with_head_ext s r h i : diff_route_with_head f s r h i = diff_route_with_head g s r h i.
  Proof. unfold diff_route_with_head. destruct (cache_head s r i). destruct b; [done|]. apply diff_route_ext. Qed.
  Lemma step_ext s k : step f s k = step g s k.
  Proof. destruct k; cbn [step]; rewrite ?diff_route_ext, ?diff_route_with_head_ext; done. Qed.
  Lemma run_ext l : run f l = run g l.
  Proof.
    unfold run. generalize server_new. induction l as [|k l IH]; intros s; [done|]. cbn [fold_left]. by rewrite step_ext.
  Qed.
  Lemma live_ext load apply r hist : forall st, live f load apply r st hist = live g load apply r st hist.
  Proof.
    induction hist as [|k hist IH]; intros [s c]; [done|]. cbn [live].
    assert (live_step f load apply r (s, c) k = live_step g load apply r (s, c) k) as ->.
    { destruct k; cbn [live_step]; rewrite ?diff_route_ext, ?diff_route_with_head_ext; try done. }
    destruct (live_step g load apply r (s, c) k); cbn; [apply IH|done..].
  Qed.
  Lemma event_of_ext r s k : event_of f r s k = event_of g r s k.
  Proof. destruct k; cbn [event_of]; rewrite ?diff_route_ext, ?diff_route_with_head_ext; done. Qed.
  Lemma happens_ext ve va pt qs load sel r st a :
    happens f ve va pt qs load sel r st a = happens g ve va pt qs load sel r st a.
  Proof. destruct a; cbn [happens]; [|done..]. by rewrite step_ext, event_of_ext. Qed.
  Lemma happen_ext ve va pt qs load sel r hist : forall st,
    happen f ve va pt qs load sel r st hist = happen g ve va pt qs load sel r st hist.
  Proof.
    unfold happen. induction hist as [|a hist IH]; intros st; [done|]. cbn [fold_left]. by rewrite happens_ext.
  Qed.
End Ext.

Section Texts.
  Context {H : Type}.
  Variables (heqb : H -> H -> bool) (hcomb : hkind -> option string -> list H -> H) (h0 : H).
  Variable html5ever : string -> list sink_call.
  Hypothesis contract : forall s, all_well_behaved sink_new (html5ever (parser_input s)).

  (** The document of a text. *)
  Definition text_doc (s : string) : document := doc_of (parse html5ever s).
  (** [hotmeal::diff_html] as the server calls it (hotmeal-server/src/lib.rs:171). *)
  Definition diff_texts (old new : string) : option (list patch) :=
    match diff_html heqb hcomb h0 html5ever old new with Val ps => Some ps | _ => None end.

  Lemma text_doc_proper s : parse html5ever s = Val (text_doc s) /\ proper (text_doc s) /\
    (forall i tag ns l, data (doc_arena (text_doc s)) i = Some (mkD (NElem tag l) ns) -> NoDup (map fst l)).
  Proof.
    destruct (parse_proper html5ever s (contract s)) as (d & E & P & N).
    assert (text_doc s = d) as -> by (unfold text_doc; by rewrite E). done.
  Qed.

  (** The server's comparison never fails: every call on the server, with any texts,
      returns. *)
  Theorem diff_texts_total : forall s t, exists ps, diff_texts s t = Some ps.
  Proof.
    intros s t. destruct (diff_html_total heqb hcomb h0 html5ever s t) as (ps & E); [by intros|].
    exists ps. unfold diff_texts. by rewrite E.
  Qed.

  Lemma diff_texts_docs s t : diff_texts s t =
    match diff heqb hcomb h0 (text_doc s) (text_doc t) with Val ps => Some ps | _ => None end.
  Proof.
    unfold diff_texts, diff_html. destruct (text_doc_proper s) as (-> & _). by destruct (text_doc_proper t) as (-> & _).
  Qed.

  (** The texts given for the route. *)
  Variable page : string -> Prop.
  Hypothesis PP : forall h, page h -> exists b, plain_page (text_doc h) b.
  Hypothesis PC : forall h h', page h -> page h' -> comparable heqb hcomb h0 (text_doc h) (text_doc h').

  Lemma page_plain h : page h -> exists b ats ts, plain_doc (text_doc h) b ats ts.
  Proof.
    intros Hh. destruct (PP h Hh) as (b & P). destruct (text_doc_proper h) as (_ & Q & N).
    destruct (plain_page_doc _ b Q N P) as (ats & ts & D). eauto.
  Qed.

  (** A program that has parsed the text of the page and applies what it receives. *)
  Theorem text_client_converges : forall parse_inner (r html : string) (pre hist : list call),
    last_html r (rev pre) = Some html -> page html ->
    (forall k, k ∈ hist -> overwrites r k = false /\ forall h, page_of r k = Some h -> page h) ->
    exists s' c',
      live diff_texts text_doc (apply_patches parse_inner) r (run diff_texts pre, text_doc html) hist
        = Val (s', c') /\
      forall h, last_html r (rev (pre ++ hist)%list) = Some h -> to_body_html c' = to_body_html (text_doc h).
  Proof.
    intros pi r html pre hist Hl Hp Hk.
    destruct (live_converges diff_texts text_doc (apply_patches pi) page (in_sync text_doc)) with (r := r) (html := html)
      (pre := pre) (hist := hist) as (s' & c' & E & Hs); try done.
    - intros c c' E. by injection E as <-.
    - intros h Hh. destruct (page_plain h Hh) as (b & ats & ts & P). exists b, ats, ts.
      split; [done|]. by eapply plain_client_shows.
    - intros o h c Ho Hh (ob & oats & ts & PO & CS). destruct (page_plain h Hh) as (nb & nats & us & PN).
      destruct (patched_client heqb hcomb h0 pi _ _ _ _ _ _ _ _ c PO PN (PC o h Ho Hh) CS) as (ps & c' & Ed & Ea & CS' & _).
      exists ps, c'. rewrite diff_texts_docs, Ed. split; [done|]. split; [done|]. by exists nb, nats, us.
    - exists s', c'. split; [done|]. intros h Hh. destruct (Hs h Hh) as (b & ats & ts & P & C).
      by eapply client_shows_html.
  Qed.

  (** A browser whose parser builds the same body (as in C40). *)
  Theorem text_browser_converges : forall valid_elem valid_attr parse_template (load : string -> document)
      (r html : string) (pre hist : list call),
    (forall h b ats ts, page h -> plain_doc (text_doc h) b ats ts ->
       (exists cb, wf (doc_arena (load h)) /\ body (load h) = Some cb /\
          holds_list (doc_arena (load h)) (map btree ts) (children (doc_arena (load h)) cb)) /\
       (forall t, t ∈ ts -> names_ok valid_elem valid_attr t) /\ b_okn valid_elem valid_attr "body" ats) ->
    last_html r (rev pre) = Some html -> page html ->
    (forall k, k ∈ hist -> overwrites r k = false /\ forall h, page_of r k = Some h -> page h) ->
    exists s' c',
      live diff_texts load (browser_apply valid_elem valid_attr parse_template) r
        (run diff_texts pre, load html) hist = Val (s', c') /\
      forall h, last_html r (rev (pre ++ hist)%list) = Some h -> to_body_html c' = to_body_html (text_doc h).
  Proof.
    intros ve va pt load r html pre hist HB Hl Hp Hk.
    destruct (browser_converges heqb hcomb h0 text_doc page page_plain PC ve va pt load r html pre hist HB Hl Hp Hk)
      as (s' & c' & E & Hs).
    exists s', c'. split; [|done].
    rewrite (run_ext _ _ diff_texts_docs), (live_ext _ _ diff_texts_docs). exact E.
  Qed.

  (** A browser in a session as in C54: whatever it shows at first, after the page was
      loaded again, and as long as pages are given while it is connected, the mount point
      shows the body of the text the server has, and no event failed. *)
  Theorem text_session_converges : forall valid_elem valid_attr parse_template query_selector (load : string -> document)
      (sel r : string) (st : session) (a : happening) (hist : list happening),
    (forall h, page h -> postable (text_doc h) /\ (N.of_nat (length (doc_arena (text_doc h))) < 2 ^ 26)%N) ->
    (forall o h ps, page o -> page h -> diff_texts o h = Some ps -> short (to_blob ps)) ->
    (forall h b ats ts, page h -> plain_doc (text_doc h) b ats ts ->
      (exists m, wf (doc_arena (load h)) /\ resolve_mount_point query_selector (load h) sel = Val m /\
         holds_list (doc_arena (load h)) (map btree ts) (children (doc_arena (load h)) m)) /\
      (forall t, t ∈ ts -> names_ok valid_elem valid_attr t) /\ b_okn valid_elem valid_attr "body" ats /\
      mountable query_selector sel ats) ->
    short r ->
    (forall h, hm_get (html_cache (ss_server st)) r = Some h -> page h) ->
    reloads diff_texts r st a -> orderly r page (a :: hist) ->
    in_touch diff_texts valid_elem valid_attr parse_template query_selector load sel r
      (happens diff_texts valid_elem valid_attr parse_template query_selector load sel r st a) hist ->
    let st' := happen diff_texts valid_elem valid_attr parse_template query_selector load sel r st (a :: hist) in
    (forall h, hm_get (html_cache (ss_server st')) r = Some h ->
       exists m, resolve_mount_point query_selector (ss_doc st') sel = Val m /\
         serialize_inner_html (doc_arena (ss_doc st')) m = to_body_html (text_doc h)) /\
    logged st st'.
  Proof.
    intros ve va pt qs load sel r st a hist PS PB HL SR HP HR HO HT. cbv zeta.
    rewrite (happen_ext _ _ diff_texts_docs). apply (mounted_session_converges heqb hcomb h0 text_doc page page_plain PC PS); try done.
    - intros o h ps Ho Hh E. apply (PB o h ps Ho Hh). by rewrite diff_texts_docs.
    - destruct a; try done. destruct HR as (Hc & h & e & Ee & He). split; [done|]. exists h, e. split; [|done].
      by rewrite <- (event_of_ext _ _ diff_texts_docs).
    - intros h1 k h2 h E Eh. specialize (HT h1 k h2 h E Eh).
      rewrite (happens_ext _ _ diff_texts_docs), (happen_ext _ _ diff_texts_docs) in HT. exact HT.
  Qed.
End Texts.
Print Assumptions diff_texts_total.
Print Assumptions text_client_converges.
Print Assumptions text_browser_converges.
Print Assumptions text_session_converges.

(** ** Example *)

(** The parser of [PropParse.v] keeps the contract on every text, and two pages with a
    foster-parented text, a body with attributes and a comment are comparable. *)
Definition two_pages (h : string) : Prop := h = page_1 \/ h = page_2.

Lemma toy_contract s : all_well_behaved sink_new (toy_parser (parser_input s)).
Proof.
  apply all_well_behaved_b_sound; [apply sink_new_wf|]. unfold toy_parser.
  destruct (String.eqb _ _); [vm_compute; reflexivity|]. destruct (String.eqb _ _); vm_compute; reflexivity.
Qed.

Lemma two_pages_comparable h h' : two_pages h -> two_pages h' ->
  comparable phash_eqb PH PH0 (text_doc toy_parser h) (text_doc toy_parser h').
Proof.
  intros Hh Hh' t ta tb m CM.
  assert (forall x, two_pages x -> exists b ats ts, plain_doc (text_doc toy_parser x) b ats ts) as HP.
  { apply page_plain; [apply toy_contract|].
    intros x [->| ->]; exists 3; apply plain_page_b_sound; vm_compute; reflexivity. }
  destruct (HP h Hh) as (b & ats & ts & P). destruct (HP h' Hh') as (b' & ats' & ts' & P').
  split.
  - exact (compared_faithful phash_eqb PH PH0 _ _ b b' ats ats' ts ts' P P' t ta tb m phash_collision_free CM).
  - apply (swap_check_sound (text_doc toy_parser h) (text_doc toy_parser h')); [|exact CM].
    destruct Hh as [->| ->], Hh' as [->| ->]; vm_compute; reflexivity.
Qed.

Definition ex_text_load (h : string) : document :=
  mk_doc [] (if String.eqb h page_1 then [el "p" [tx "one"]; tx "two"; el "table" []]
             else [el "div" [el "p" [tx "one"]; tx "!"]; HComment "x"]).

Example text_client_example :
  (forall s, all_well_behaved sink_new (toy_parser (parser_input s))) /\
  (forall h, two_pages h -> exists b, plain_page (text_doc toy_parser h) b) /\
  (forall h h', two_pages h -> two_pages h' -> comparable phash_eqb PH PH0 (text_doc toy_parser h) (text_doc toy_parser h')) /\
  (forall h b ats ts, two_pages h -> plain_doc (text_doc toy_parser h) b ats ts ->
     (exists cb, wf (doc_arena (ex_text_load h)) /\ body (ex_text_load h) = Some cb /\
        holds_list (doc_arena (ex_text_load h)) (map btree ts) (children (doc_arena (ex_text_load h)) cb)) /\
     (forall t, t ∈ ts -> names_ok ex_name ex_name t) /\ b_okn ex_name ex_name "body" ats) /\
  let dt := diff_texts phash_eqb PH PH0 toy_parser in
  let hist := [CDiff "/" page_2; CDiff "/x" page_1; CDiff "/" page_1; CDiffHead "/" page_2 "<style>"; CDiff "/" page_1] in
  match live dt (text_doc toy_parser) (apply_patches no_parser) "/"
          (run dt [CCacheHtml "/" page_1], text_doc toy_parser page_1) hist,
        live dt ex_text_load (browser_apply ex_name ex_name no_parser) "/"
          (run dt [CCacheHtml "/" page_1], ex_text_load page_1) hist with
  | Val (_, c), Val (_, c') =>
      to_body_html c = Some "<p>one</p>two<table></table>" /\ to_body_html c' = Some "<p>one</p>two<table></table>" /\
      doc_arena c <> doc_arena (text_doc toy_parser page_1)
  | _, _ => False
  end.
Proof.
  split; [exact toy_contract|].
  split; [intros h [->| ->]; exists 3; apply plain_page_b_sound; vm_compute; reflexivity|].
  split; [exact two_pages_comparable|]. split.
  - intros h b ats ts Hh P.
    assert (b = 3) as ->. { pose proof (pd_body _ _ _ _ P) as E. destruct Hh as [->| ->]; vm_compute in E; congruence. }
    assert (ats = if String.eqb h page_1 then [] else [ex_attr "class" "c"]) as ->.
    { pose proof (pd_data _ _ _ _ P) as E. destruct Hh as [->| ->]; vm_compute in E; injection E as <-; reflexivity. }
    assert (ts = if String.eqb h page_1 then [el "p" [tx "one"]; tx "two"; el "table" []]
                 else [el "div" [el "p" [tx "one"]; tx "!"]; HComment "x"]) as ->.
    { eapply holds_list_inj; [apply P|]. destruct Hh as [->| ->]; vm_compute; repeat (constructor; repeat split). }
    split; [|split].
    + exists 2. unfold ex_text_load.
      split; [apply mk_doc_ok|]. destruct Hh as [->| ->]; (split; [reflexivity|]); vm_compute; repeat (constructor; repeat split).
    + destruct Hh as [->| ->]; apply names_okb_list; vm_compute; reflexivity.
    + destruct Hh as [->| ->]; (split; [by split|]); apply okab_sound; vm_compute; reflexivity.
  - vm_compute. split; [reflexivity|]. split; [reflexivity|]. discriminate.
Qed.
