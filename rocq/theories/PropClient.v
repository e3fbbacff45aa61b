(** Property theorems on live clients: C23, C40. *)
From stdpp Require Import list_numbers relations.
From Verif Require Import Base Arena Matching Chawathe Dom HtmlDiff Server ServerProofs
  ArenaProofs ArenaOps TreeProofs DtreeProofs MatchProofs DomTree FrameProofs ConvProofs RoundProofs AssembleProofs
  NestProofs Instances InstanceProofs HashProofs PropMatch PropFrame PropRoundtrip PropServer
  Browser BrowserProofs PropBrowser.
Local Open Scope string_scope.

(** ** Documents that show given content *)

(** The body of [c] has the content [ts], apart from empty text nodes at the end
    of elements (left there by earlier patches) and namespaces. *)
Record client_shows (c : document) (ts : list htree) : Prop := {
  cl_wf : wf (doc_arena c);
  cl_body : exists b, body c = Some b /\ shows_list (doc_arena c) ts (children (doc_arena c) b)
}.

Lemma plain_client_shows d b ats ts : plain_doc d b ats ts -> client_shows d ts.
Proof.
  intros P. split; [apply P|]. exists b. split; [apply P|]. apply holds_shows_list, P.
Qed.

Lemma client_shows_html c d ts b ats : client_shows c ts -> plain_doc d b ats ts -> to_body_html c = to_body_html d.
Proof.
  intros [W (cb & Hb & Hs)] P. unfold to_body_html. rewrite Hb, (pd_body _ _ _ _ P).
  by rewrite (shows_body_html _ ts cb W Hs), (serialize_inner_holds _ ts b (pd_wf _ _ _ _ P) (pd_holds _ _ _ _ P)).
Qed.

Lemma body_is_elem d b : body d = Some b -> exists tag ats, node_kind (doc_arena d) b = Some (NElem tag ats).
Proof.
  intros Hb. unfold body, body_in in Hb. apply find_some in Hb as [_ Ht]. unfold has_tag in Ht.
  destruct (node_kind (doc_arena d) b) as [[]|]; try done. eauto.
Qed.

(** ** The server and a client *)

Section Live.
  (** [hotmeal::diff_html] on pages; how a client loads a page and how it
      applies patches. *)
  Variable diff_pages : string -> string -> option (list patch).
  Variable load : string -> document.
  Variable apply : document -> list patch -> document * outcome unit.

  (** What the client does with an event (hotmeal-wasm/src/lib.rs:208-235
      [handle_live_reload_event]): reload the page, now [html], or apply the
      patches to the document it has. *)
  Definition client_step (html : string) (c : document) (e : option event) : outcome document :=
    match e with
    | None => Val c
    | Some EvReload | Some (EvHeadChanged _) => Val (load html)
    | Some (EvPatches _ ps) => let '(c', r) := apply c ps in let! _ := r in Val c'
    end.

  (** One call on the server, with the client of route [r] receiving the events
      of its route. *)
  Definition live_step (r : string) (st : server * document) (k : call) : outcome (server * document) :=
    let '(s, c) := st in
    match k with
    | CDiff r' h =>
        let '(s', e) := diff_route diff_pages s r' h in
        if String.eqb r' r then let! c' := client_step h c e in Val (s', c') else Val (s', c)
    | CDiffHead r' h i =>
        let '(s', e) := diff_route_with_head diff_pages s r' h i in
        if String.eqb r' r then let! c' := client_step h c e in Val (s', c') else Val (s', c)
    | _ => Val (step diff_pages s k, c)
    end.
  Fixpoint live (r : string) (st : server * document) (hist : list call) : outcome (server * document) :=
    match hist with
    | [] => Val st
    | k :: hist' => let! st' := live_step r st k in live r st' hist'
    end.

  Definition overwrites (r : string) (k : call) : bool :=
    match k with CCacheHtml r' _ => String.eqb r' r | _ => false end.
  (** The page a call gives to route [r]. *)
  Definition page_of (r : string) (k : call) : option string :=
    match k with
    | CDiff r' h | CDiffHead r' h _ => if String.eqb r' r then Some h else None
    | _ => None
    end.

  Section Sync.
    Variable page : string -> Prop.
    (** A client has a page. *)
    Variable sync : document -> string -> Prop.
    Hypothesis AN : forall c c', apply c [] = (c', Val tt) -> c' = c.
    Hypothesis SL : forall h, page h -> sync (load h) h.
    Hypothesis SP : forall o h c, page o -> page h -> sync c o ->
      exists ps c', diff_pages o h = Some ps /\ apply c ps = (c', Val tt) /\ sync c' h.

    Lemma client_step_sync s c r h :
      page h -> (forall o, hm_get (html_cache s) r = Some o -> page o /\ sync c o) ->
      exists c', client_step h c (snd (diff_route diff_pages s r h)) = Val c' /\ sync c' h.
    Proof.
      intros Hp Hs. unfold diff_route. destruct (hm_get (html_cache s) r) as [o|] eqn:Eo.
      2:{ exists (load h). split; [done|]. by apply SL. }
      destruct (Hs o eq_refl) as [Ho Hc].
      destruct (String.eqb_spec o h) as [->|Hne]; [by exists c|].
      destruct (SP o h c Ho Hp Hc) as (ps & c' & Ed & Ea & CS').
      rewrite Ed. destruct ps as [|p ps].
      - exists c. split; [done|]. apply AN in Ea. by subst c'.
      - exists c'. cbn [snd client_step]. rewrite Ea. by cbn [obind].
    Qed.

    Lemma live_step_sync r s c k :
      overwrites r k = false -> (forall h, page_of r k = Some h -> page h) ->
      (forall o, hm_get (html_cache s) r = Some o -> page o /\ sync c o) ->
      exists c', live_step r (s, c) k = Val (step diff_pages s k, c') /\
        forall o, hm_get (html_cache (step diff_pages s k)) r = Some o -> page o /\ sync c' o.
    Proof.
      intros Ho Hp Hs. pose proof (fun r' => proj1 (step_spec diff_pages s k r')) as ES.
      destruct k as [r' x|r' x|r' x|r' x i|r'|]; cbn [live_step overwrites page_of] in *.
      - exists c. split; [done|]. intros o Eo. rewrite ES, Ho in Eo. by apply Hs.
      - exists c. split; [done|]. intros o Eo. rewrite ES in Eo. by apply Hs.
      - cbn [step] in *. destruct (String.eqb_spec r' r) as [->|Hne].
        + destruct (client_step_sync s c r x (Hp x eq_refl) Hs) as (c' & Ec & Hc).
          destruct (diff_route diff_pages s r x) as [s' e]. cbn [fst snd] in *. rewrite Ec. cbn [obind].
          exists c'. split; [done|]. intros o Eo. rewrite ES, String.eqb_refl in Eo. injection Eo as <-.
          split; [by apply Hp|done].
        + destruct (diff_route diff_pages s r' x) as [s' e]. cbn [fst] in *.
          exists c. split; [done|]. intros o Eo. rewrite ES in Eo.
          destruct (String.eqb_spec r' r); [done|]. by apply Hs.
      - cbn [step] in *. destruct (String.eqb_spec r' r) as [->|Hne].
        + assert (exists c', client_step x c (snd (diff_route_with_head diff_pages s r x i)) = Val c' /\ sync c' x)
            as (c' & Ec & Hc).
          { unfold diff_route_with_head, cache_head.
            match goal with |- context [if ?c then _ else _] => destruct c end.
            - exists (load x). split; [done|]. apply SL. by apply Hp.
            - apply client_step_sync; [by apply Hp|done]. }
          destruct (diff_route_with_head diff_pages s r x i) as [s' e]. cbn [fst snd] in *. rewrite Ec. cbn [obind].
          exists c'. split; [done|]. intros o Eo. rewrite ES, String.eqb_refl in Eo. injection Eo as <-.
          split; [by apply Hp|done].
        + destruct (diff_route_with_head diff_pages s r' x i) as [s' e]. cbn [fst] in *.
          exists c. split; [done|]. intros o Eo. rewrite ES in Eo.
          destruct (String.eqb_spec r' r); [done|]. by apply Hs.
      - exists c. split; [done|]. intros o Eo. rewrite ES in Eo.
        destruct (String.eqb r' r); [done|]. by apply Hs.
      - exists c. split; [done|]. intros o Eo. by rewrite ES in Eo.
    Qed.

    Lemma live_sync r hist : forall s c,
      (forall k, k ∈ hist -> overwrites r k = false /\ forall h, page_of r k = Some h -> page h) ->
      (forall o, hm_get (html_cache s) r = Some o -> page o /\ sync c o) ->
      exists c', live r (s, c) hist = Val (fold_left (step diff_pages) hist s, c') /\
        forall o, hm_get (html_cache (fold_left (step diff_pages) hist s)) r = Some o -> page o /\ sync c' o.
    Proof.
      induction hist as [|k hist IH]; intros s c Hk Hs; [by exists c|].
      destruct (Hk k ltac:(left)) as [H1 H2].
      destruct (live_step_sync r s c k H1 H2 Hs) as (c1 & E1 & Hs1).
      cbn [live fold_left]. rewrite E1. cbn [obind]. apply IH; [|done]. intros k' Hk'. apply Hk. by right.
    Qed.

    Lemma live_converges : forall (r html : string) (pre hist : list call),
      last_html r (rev pre) = Some html -> page html ->
      (forall k, k ∈ hist -> overwrites r k = false /\ forall h, page_of r k = Some h -> page h) ->
      exists s' c',
        live r (run diff_pages pre, load html) hist = Val (s', c') /\
        forall h, last_html r (rev (pre ++ hist)%list) = Some h -> sync c' h.
    Proof.
      intros r html pre hist Hl Hp Hk.
      destruct (live_sync r hist (run diff_pages pre) (load html) Hk) as (c' & E & Hs).
      { intros o Ho. rewrite (proj1 (run_spec diff_pages pre r)), Hl in Ho. injection Ho as <-.
        split; [done|]. by apply SL. }
      eexists _, c'. split; [exact E|]. intros h Hh. apply Hs.
      pose proof (proj1 (run_spec diff_pages (pre ++ hist)%list r)) as ER.
      unfold run in ER |- *. rewrite fold_left_app in ER. by rewrite ER.
    Qed.
  End Sync.
End Live.

Section Client.
  Context {H : Type}.
  Variables (heqb : H -> H -> bool) (hcomb : hkind -> option string -> list H -> H) (h0 : H).
  (** The server's HTML parser; its only role is to give the document of a page. *)
  Variable parse_page : string -> document.

  (** [hotmeal::diff_html] on pages. *)
  Definition diff_pages (old new : string) : option (list patch) :=
    match diff heqb hcomb h0 (parse_page old) (parse_page new) with Val ps => Some ps | _ => None end.

  (** What the round trip of C01 needs of two documents. *)
  Definition comparable (old new : document) : Prop :=
    forall t ta tb m, compared heqb hcomb h0 old new t ta tb m ->
      no_collision heqb ta tb /\ swap_free m (init_parents t tb m) (html_edit_script ta tb m).

  Section Native.
  Variable parse_inner : string -> list htree.

  (** Patches computed from the page as parsed apply to every document that
      shows this page, in particular to one that was patched before. *)
  Theorem patched_client old new ob nb oats nats ts us c :
    plain_doc old ob oats ts -> plain_doc new nb nats us -> comparable old new -> client_shows c ts ->
    exists ps c', diff heqb hcomb h0 old new = Val ps /\ apply_patches parse_inner c ps = (c', Val tt) /\
      client_shows c' us /\ to_body_html c' = to_body_html new.
  Proof.
    intros PO PN HC [W (cb & Hb & Hs)].
    destruct (compared_total heqb hcomb h0 old new ob nb oats nats ts us PO PN) as (t & ta & tb & m & CM).
    destruct (HC t ta tb m CM) as [NC SF].
    destruct (diff_run_on heqb hcomb h0 old new ob nb oats nats ts us PO PN parse_inner t ta tb m CM NC SF
      (plain_silent heqb hcomb h0 old new ob nb oats nats ts us t ta tb m PO PN CM NC)
      (doc_arena c) cb W (body_is_elem c cb Hb) Hs) as (ps & D' & sl & Ed & Ea & W' & Hs' & _ & Hh & _).
    assert (Eap : exists c', apply_patches parse_inner c ps = (c', Val tt) /\ doc_arena c' = D').
    { unfold apply_patches. destruct ps as [|p ps'].
      - cbn [apply_all] in Ea. injection Ea as <- <-. by exists c.
      - rewrite (init_slots c cb Hb). cbv beta iota.
        match goal with |- context [apply_all ?p ?s ?l] => replace (apply_all p s l) with ((D', sl), Val tt) by (symmetry; exact Ea) end.
        eauto. }
    destruct Eap as (c' & Eap & <-). exists ps, c'. split; [done|]. split; [done|].
    destruct (outside_body_untouched parse_inner c cb ps W Hb Hh) as (_ & _ & F3 & _).
    rewrite Eap in F3. cbn [fst] in F3.
    assert (client_shows c' us) as CS by (split; [done|by exists cb]).
    split; [done|]. by eapply client_shows_html.
  Qed.

  End Native.

  Section Pages.
    (** The pages of the route: their documents are in the domain of C01, and
        any two of them are comparable. *)
    Variable page : string -> Prop.
    Hypothesis PP : forall h, page h -> exists b ats ts, plain_doc (parse_page h) b ats ts.
    Hypothesis PC : forall h h', page h -> page h' -> comparable (parse_page h) (parse_page h').

    Definition in_sync (c : document) (h : string) : Prop :=
      exists b ats ts, plain_doc (parse_page h) b ats ts /\ client_shows c ts.

    (** ** C23 *)

    (** A client loads page [html] of route [r] while the server has it cached,
        after any history [pre].  Then, whatever is called on the server, as
        long as [cache_html] is not used to replace the page of [r] behind the
        client's back: every list of patches the client receives applies
        without error, and the client shows the body of the page last given
        for [r].  This holds after every call, since [hist] is arbitrary. *)
    Theorem client_converges : forall parse_inner (r html : string) (pre hist : list call),
      last_html r (rev pre) = Some html -> page html ->
      (forall k, k ∈ hist -> overwrites r k = false /\ forall h, page_of r k = Some h -> page h) ->
      exists s' c',
        live diff_pages parse_page (apply_patches parse_inner) r (run diff_pages pre, parse_page html) hist
          = Val (s', c') /\
        forall h, last_html r (rev (pre ++ hist)%list) = Some h -> to_body_html c' = to_body_html (parse_page h).
    Proof.
      intros pi r html pre hist Hl Hp Hk.
      destruct (live_converges diff_pages parse_page (apply_patches pi) page in_sync) with (r := r) (html := html)
        (pre := pre) (hist := hist) as (s' & c' & E & Hs); try done.
      - intros c c' E. by injection E as <-.
      - intros h Hh. destruct (PP h Hh) as (b & ats & ts & P). exists b, ats, ts.
        split; [done|]. by eapply plain_client_shows.
      - intros o h c Ho Hh (ob & oats & ts & PO & CS). destruct (PP h Hh) as (nb & nats & us & PN).
        destruct (patched_client pi _ _ _ _ _ _ _ _ c PO PN (PC o h Ho Hh) CS) as (ps & c' & Ed & Ea & CS' & _).
        exists ps, c'. unfold diff_pages. rewrite Ed. split; [done|]. split; [done|]. by exists nb, nats, us.
      - exists s', c'. split; [done|]. intros h Hh. destruct (Hs h Hh) as (b & ats & ts & P & C).
        by eapply client_shows_html.
    Qed.

    (** ** C40 *)

    (** The same for browsers.  [load] is the browser's parser: for every page
        the body it builds has the nodes that the server's parser gives, with
        attributes under their qualified names; and the names in the pages are
        unproblematic. *)
    Theorem browser_converges : forall valid_elem valid_attr parse_template (load : string -> document)
        (r html : string) (pre hist : list call),
      (forall h b ats ts, page h -> plain_doc (parse_page h) b ats ts ->
         (exists cb, wf (doc_arena (load h)) /\ body (load h) = Some cb /\
            holds_list (doc_arena (load h)) (map btree ts) (children (doc_arena (load h)) cb)) /\
         (forall t, t ∈ ts -> names_ok valid_elem valid_attr t) /\ b_okn valid_elem valid_attr "body" ats) ->
      last_html r (rev pre) = Some html -> page html ->
      (forall k, k ∈ hist -> overwrites r k = false /\ forall h, page_of r k = Some h -> page h) ->
      exists s' c',
        live diff_pages load (browser_apply valid_elem valid_attr parse_template) r
          (run diff_pages pre, load html) hist = Val (s', c') /\
        forall h, last_html r (rev (pre ++ hist)%list) = Some h -> to_body_html c' = to_body_html (parse_page h).
    Proof.
      intros ve va pt load r html pre hist HB Hl Hp Hk.
      set (sync := fun c h => exists b ats ts, page h /\ plain_doc (parse_page h) b ats ts /\
        client_shows c (map btree ts)).
      destruct (live_converges diff_pages load (browser_apply ve va pt) page sync) with (r := r) (html := html)
        (pre := pre) (hist := hist) as (s' & c' & E & Hs); try done.
      - intros [a rt dt] c' E. unfold browser_apply in E. destruct (body _); [|done]. by injection E as <-.
      - intros h Hh. destruct (PP h Hh) as (b & ats & ts & P). exists b, ats, ts. split; [done|]. split; [done|].
        destruct (HB h b ats ts Hh P) as ((cb & W & Eb & Hc) & _). split; [done|]. exists cb. split; [done|].
        by apply holds_shows_list.
      - intros o h c Ho Hh (ob & oats & ts & _ & PO & [W (cb & Eb & CS)]). destruct (PP h Hh) as (nb & nats & us & PN).
        destruct (HB o ob oats ts Ho PO) as (_ & OKO & _). destruct (HB h nb nats us Hh PN) as (_ & OKN & OKB).
        destruct (body_is_elem c cb Eb) as (tag & l & Ek).
        destruct (browser_step heqb hcomb h0 ve va pt _ _ _ _ _ _ _ _ (doc_arena c) cb tag l PO PN (PC o h Ho Hh)
          OKO OKN OKB W Ek CS) as (ps & C' & sl & Ed & Ea & W' & CS' & Hb).
        exists ps, (mkDoc C' (doc_root c) (doc_doctype c)). unfold diff_pages. rewrite Ed. split; [done|].
        assert (browser_apply ve va pt c ps = (mkDoc C' (doc_root c) (doc_doctype c), Val tt)) as Eap.
        { unfold browser_apply. rewrite Eb.
          match goal with |- context [b_apply_all ?a ?b ?p ?r ?s ?l] =>
            replace (b_apply_all a b p r s l) with ((C', sl), Val tt) by (symmetry; exact Ea) end. done. }
        split; [done|]. exists nb, nats, us. split; [done|]. split; [done|]. split; [done|]. exists cb.
        split; [|done].
        pose proof (browser_body_kept ve va pt c cb ps W Eb) as HK. rewrite Eap in HK. apply HK.
        intros p Hp' ->. by specialize (Hb _ Hp').
      - exists s', c'. split; [done|]. intros h Hh. destruct (Hs h Hh) as (b & ats & ts & Ph & P & [W (cb & Eb & CS)]).
        unfold to_body_html. rewrite Eb, (pd_body _ _ _ _ P). destruct (HB h b ats ts Ph P) as (_ & OK & _).
        rewrite (shows_body_html _ _ cb W CS), (ser_ts_btree _ _ ts OK).
        by rewrite (serialize_inner_holds _ ts b (pd_wf _ _ _ _ P) (pd_holds _ _ _ _ P)).
    Qed.
  End Pages.
End Client.
Print Assumptions patched_client.
Print Assumptions client_converges.
Print Assumptions browser_converges.

(** Pages whose elements nest in one order, with a hash without collisions,
    satisfy the hypotheses. *)
Corollary client_converges_ordered : forall {H} (heqb : H -> H -> bool) hcomb h0 parse_page parse_inner
    (rank : hkind -> nat) (page : string -> Prop) (r html : string) (pre hist : list call),
  collision_free heqb hcomb ->
  (forall h, page h -> exists b ats ts, plain_doc (parse_page h) b ats ts /\
     forall t, t ∈ ts -> nests (fun p k => rank p < rank k) bodyk t) ->
  last_html r (rev pre) = Some html -> page html ->
  (forall k, k ∈ hist -> overwrites r k = false /\ forall h, page_of r k = Some h -> page h) ->
  exists s' c',
    live (diff_pages heqb hcomb h0 parse_page) parse_page (apply_patches parse_inner) r
      (run (diff_pages heqb hcomb h0 parse_page) pre, parse_page html) hist = Val (s', c') /\
    forall h, last_html r (rev (pre ++ hist)%list) = Some h -> to_body_html c' = to_body_html (parse_page h).
Proof.
  intros H heqb hcomb h0 pp pi rank page r html pre hist CF HP.
  apply client_converges.
  - intros h Hh. destruct (HP h Hh) as (b & ats & ts & P & _). eauto.
  - intros h h' Hh Hh' t ta tb m CM. destruct (HP h Hh) as (b & ats & ts & P & R).
    destruct (HP h' Hh') as (b' & ats' & ts' & P' & R').
    pose proof (compared_faithful heqb hcomb h0 _ _ b b' ats ats' ts ts' P P' t ta tb m CF CM) as NC.
    split; [done|]. by apply (ranked_compared heqb hcomb h0 _ _ b b' ats ats' ts ts' P P' rank t ta tb m CM NC).
Qed.
Print Assumptions client_converges_ordered.

(** ** Examples *)

(** Three versions of a page. *)
Definition ex_content (s : string) : list htree :=
  if String.eqb s "1" then [el "p" [tx "one"]; el_a "p" [(mkQ (Some "xml") "x" "lang", "en")] [tx "two"]; tx "end"]
  else if String.eqb s "2" then [el "div" [el_a "p" [ex_attr "id" "x"] [tx "two"]]]
  else if String.eqb s "3" then [el "div" [HComment "c"; el "p" [tx "two"; el "b" [tx "x"]]]; el "p" [tx "one"]]
  else [].
Definition ex_page (s : string) : document := mk_doc [] (ex_content s).
Definition ex_live :=
  live (diff_pages phash_eqb PH PH0 ex_page) ex_page (apply_patches no_parser).

Example client_example :
  (forall h, h = "1" \/ h = "2" \/ h = "3" -> exists b ats ts, plain_doc (ex_page h) b ats ts /\
     forall t, t ∈ ts -> nests (fun p k => ex_rank p < ex_rank k) bodyk t) /\
  match ex_live "/" (run (diff_pages phash_eqb PH PH0 ex_page) [CCacheHtml "/" "1"], ex_page "1")
      [CDiff "/" "2"; CDiffHead "/" "3" ""; CDiff "/x" "1"; CDiff "/" "2"; CDiff "/" "2"; CDiff "/" "1"] with
  | Val (_, c) => to_body_html c = Some "<p>one</p><p xml:lang=""en"">two</p>end" /\
      (** the patched document is not the parsed one *)
      length (children (doc_arena c) 2) > length (children (doc_arena (ex_page "1")) 2)
  | _ => False
  end.
Proof.
  split.
  - intros h Hh. eexists 2, [], _. split.
    + apply mk_doc_plain. destruct Hh as [->|[->| ->]]; solve_plain.
    + destruct Hh as [->|[->| ->]]; intros t Hin; cbn in Hin;
        repeat (apply elem_of_cons in Hin as [->|Hin]; [cbn; repeat split; lia|]); by apply elem_of_nil in Hin.
  - vm_compute. split; [reflexivity|]. lia.
Qed.

(** A node holds one tree only. *)
Lemma holds_inj a t : forall i t', holds a t i -> holds a t' i -> t = t'.
Proof.
  induction t as [s|s|tag ns ats cs IH] using htree_ind'; intros i t' H1 H2.
  1,2: destruct H1 as [H1 _]; destruct t' as [tag' ns' ats' cs'|s'|s']; [apply holds_elem in H2 as [H2 _]|destruct H2 as [H2 _]..];
    unfold node_kind in *; try rewrite H2 in H1; cbn in *; congruence.
  apply holds_elem in H1 as [H1 H3]. destruct t' as [tag' ns' ats' cs'|s'|s'].
  - apply holds_elem in H2 as [H2 H4]. rewrite H1 in H2. injection H2 as <- <- <-. f_equal.
    clear H1. revert cs' H4. induction H3 as [|t j ts l Ht _ IHl]; intros cs' H4; inversion H4; subst; [done|].
    f_equal; [eapply IH; [left|done|done]|]. apply IHl; [|done]. intros z Hz. apply IH. by right.
  - destruct H2 as [H2 _]. unfold node_kind in H2. rewrite H1 in H2. by cbn in H2.
  - destruct H2 as [H2 _]. unfold node_kind in H2. rewrite H1 in H2. by cbn in H2.
Qed.
Lemma holds_list_inj a l : forall ts ts', holds_list a ts l -> holds_list a ts' l -> ts = ts'.
Proof.
  induction l as [|i l IH]; intros ts ts' H1 H2; inversion H1; inversion H2; subst; [done|].
  f_equal; [by eapply holds_inj|by apply IH].
Qed.

(** The same history in a browser. *)
Definition ex_load (s : string) : document := mk_doc [] (map btree (ex_content s)).
Example browser_converges_example :
  (forall h b ats ts, h = "1" \/ h = "2" \/ h = "3" -> plain_doc (ex_page h) b ats ts ->
     (exists cb, wf (doc_arena (ex_load h)) /\ body (ex_load h) = Some cb /\
        holds_list (doc_arena (ex_load h)) (map btree ts) (children (doc_arena (ex_load h)) cb)) /\
     (forall t, t ∈ ts -> names_ok ex_name ex_name t) /\ b_okn ex_name ex_name "body" ats) /\
  match live (diff_pages phash_eqb PH PH0 ex_page) ex_load (browser_apply ex_name ex_name no_parser) "/"
      (run (diff_pages phash_eqb PH PH0 ex_page) [CCacheHtml "/" "1"], ex_load "1")
      [CDiff "/" "2"; CDiffHead "/" "3" ""; CDiff "/x" "1"; CDiff "/" "2"; CDiff "/" "2"; CDiff "/" "1"] with
  | Val (_, c) => to_body_html c = Some "<p>one</p><p xml:lang=""en"">two</p>end" /\
      children (doc_arena c) 2 <> children (doc_arena (ex_load "1")) 2
  | _ => False
  end.
Proof.
  split.
  - intros h b ats ts Hh P.
    assert (b = 2) as ->. { pose proof (pd_body _ _ _ _ P) as E. destruct Hh as [->|[->| ->]]; vm_compute in E; congruence. }
    assert (ats = []) as ->. { pose proof (pd_data _ _ _ _ P) as E. destruct Hh as [->|[->| ->]]; vm_compute in E; congruence. }
    destruct (mk_doc_ok [] (ex_content h)) as (_ & _ & _ & _ & _ & _ & _ & _ & Hc & _).
    assert (ts = ex_content h) as ->. { eapply holds_list_inj; [apply P|exact Hc]. }
    split.
    + exists 2. destruct (mk_doc_ok [] (map btree (ex_content h))) as (W & _ & _ & _ & _ & _ & _ & _ & Hc' & Hb').
      split; [done|]. split; [done|]. done.
    + split; [destruct Hh as [->|[->| ->]]; apply names_okb_list; vm_compute; reflexivity|].
      split; [by split|]. by apply okab_sound.
  - vm_compute. split; [reflexivity|]. discriminate.
Qed.

(** Finding: [cache_html] between two diffs desynchronises clients.  The client
    has page 1, the server caches page 2 without telling it, and the patches
    from 2 to 3 are applied to page 1: without any error the client ends up with
    a body that no page ever had. *)
Definition ex_page' (s : string) : document :=
  mk_doc []
    (if String.eqb s "1" then [el "p" [tx "one"]; el "p" [tx "two"]]
     else if String.eqb s "2" then [el "p" [tx "two"]]
     else [el "p" [tx "three"]]).
Theorem cache_html_desync_refuted : exists r pre hist s' c' h,
  last_html r (rev pre) = Some "1" /\
  live (diff_pages phash_eqb PH PH0 ex_page') ex_page' (apply_patches no_parser) r
    (run (diff_pages phash_eqb PH PH0 ex_page') pre, ex_page' "1") hist = Val (s', c') /\
  last_html r (rev (pre ++ hist)%list) = Some h /\
  to_body_html c' = Some "<p>three</p><p>two</p>" /\
  to_body_html (ex_page' h) = Some "<p>three</p>".
Proof.
  exists "/", [CCacheHtml "/" "1"], [CCacheHtml "/" "2"; CDiff "/" "3"].
  eexists _, _, "3". split; [done|]. split; [vm_compute; reflexivity|]. split; [done|].
  split; vm_compute; reflexivity.
Qed.
Print Assumptions cache_html_desync_refuted.

(** Or the patches do not apply. *)
Example cache_html_desync_error :
  ex_live "/" (run (diff_pages phash_eqb PH PH0 ex_page) [CCacheHtml "/" "1"], ex_page "1")
    [CCacheHtml "/" "2"; CDiff "/" "3"] = Fail (PathOutOfBounds 0).
Proof. vm_compute. reflexivity. Qed.

(** Finding: a page that changes in its head only gives no event at all from
    [diff_route]; the client keeps the old title. *)
Definition ex_titled (s : string) : document := mk_doc [el "title" [tx s]] [el "p" [tx "x"]].
Theorem head_change_unnoticed_refuted : exists old new s,
  let dp := diff_pages phash_eqb PH PH0 ex_titled in
  to_html (ex_titled old) <> to_html (ex_titled new) /\
  s = run dp [CCacheHtml "/" old] /\
  snd (diff_route dp s "/" new) = None.
Proof.
  exists "a", "b". eexists. cbv zeta. split; [vm_compute; discriminate|]. split; [reflexivity|].
  vm_compute. reflexivity.
Qed.
Print Assumptions head_change_unnoticed_refuted.
