(** Property theorems on the browser client: C33, C39. *)
From stdpp Require Import list_numbers relations.
From Verif Require Import Base Arena Matching Chawathe Dom Browser HtmlDiff
  ArenaProofs ArenaOps TreeProofs DtreeProofs MatchProofs DomTree ApplyProofs FrameProofs Applier BrowserProofs BrowserFrame
  ConvProofs RoundProofs AssembleProofs
  NestProofs Instances InstanceProofs HashProofs PropMatch PropFrame PropRoundtrip.
Local Open Scope string_scope.

(** ** What a browser has for a parsed page *)

(** The same nodes, with the attributes under their qualified names. *)
Fixpoint btree (h : htree) : htree :=
  match h with
  | HElem tag ns ats cs => HElem tag ns (battrs ats) (map btree cs)
  | _ => h
  end.

(** Names that [createElement] and [setAttribute] accept and keep as they are:
    no upper case letters, no empty prefixes; distinct in one element. *)
Fixpoint names_ok (ve va : string -> bool) (h : htree) : Prop :=
  match h with
  | HElem tag _ ats cs =>
      b_okn ve va tag ats /\
      (fix all (l : list htree) : Prop := match l with [] => True | c :: l' => names_ok ve va c /\ all l' end) cs
  | _ => True
  end.

Lemma names_ok_hall ve va h : names_ok ve va h -> hall (okh (b_okn ve va)) h.
Proof.
  induction h as [s|s|tag ns ats cs IH] using htree_ind'; cbn [names_ok hall okh]; [done|done|].
  intros [H1 H2]. split; [done|]. revert H2. induction cs as [|c cs IHcs]; [done|].
  intros [H2 H3]. split; [apply IH; [left|done]|]. apply IHcs; [|done]. intros x Hx. apply IH. by right.
Qed.

Lemma shows_btree a h : forall i, shows_v battrs a h i <-> shows a (btree h) i.
Proof.
  induction h as [s|s|tag ns ats cs IH] using htree_ind'; intros i; [done|done|].
  cbn [btree]. rewrite !shows_elem. unfold shows_list_v.
  assert (forall l, Forall2 (shows_v battrs a) cs l <-> Forall2 (shows a) (map btree cs) l) as HF.
  { clear -IH. induction cs as [|c cs IHcs]; intros [|j l]; split; intros HH; inversion HH; subst; cbn; constructor.
    - apply IH; [left|done].
    - apply IHcs; [|done]. intros x Hx. apply IH. by right.
    - apply IH; [left|done].
    - apply IHcs; [|done]. intros x Hx. apply IH. by right. }
  split; intros [Hk (l & E & H1 & H2 & H3)]; (split; [done|]); exists l, E; (split; [done|]); (split; [done|]); by apply HF.
Qed.

Lemma shows_list_btree a ts l : shows_list_v battrs a ts l <-> shows_list a (map btree ts) l.
Proof.
  unfold shows_list_v.
  assert (forall ts l, Forall2 (shows_v battrs a) ts l <-> Forall2 (shows a) (map btree ts) l) as HF.
  { clear. induction ts as [|c cs IHcs]; intros [|j l]; split; intros HH; inversion HH; subst; cbn; constructor.
    1,3: by apply shows_btree. all: by apply IHcs. }
  split; intros (l1 & E & H1 & H2 & H3); exists l1, E; (split; [done|]); (split; [done|]); by apply HF.
Qed.

Lemma ser_attr_flat q v : q_prefix q <> Some "" -> ser_attr (flat (bname q), v) = ser_attr (q, v).
Proof.
  intros Hp. unfold ser_attr, flat, bname. cbn [q_prefix q_local].
  destruct (q_prefix q) as [p|]; [|done]. destruct (String.eqb_spec p "") as [->|_]; [done|].
  cbn [append]. rewrite ?sapp_assoc'. done.
Qed.

Lemma ser_t_btree ve va h : names_ok ve va h -> forall raw, ser_t raw (btree h) = ser_t raw h.
Proof.
  induction h as [s|s|tag ns ats cs IH] using htree_ind'; intros Ho raw; [done|done|].
  destruct Ho as [[_ [Ha _]] Ho].
  assert (ser_attrs (battrs ats) = ser_attrs ats) as E1.
  { clear -Ha. unfold ser_attrs, battrs. rewrite map_map. f_equal. apply map_ext_in. intros [q v] Hin.
    cbn [fst snd]. apply ser_attr_flat. destruct (Ha q) as (_ & _ & Hq); [|done].
    apply elem_of_list_In, in_map_iff. by exists (q, v). }
  assert (forall r, ser_ts r (map btree cs) = ser_ts r cs) as E2.
  { clear -IH Ho. intros r. induction cs as [|c cs IHcs]; [done|]. destruct Ho as [H1 H2]. cbn [map ser_ts].
    rewrite (IH c ltac:(left) H1 r). f_equal. apply IHcs; [|done]. intros x Hx. apply IH. by right. }
  cbn [btree]. rewrite !ser_t_elem, E1. destruct (is_void_element tag); [done|]. by rewrite E2.
Qed.

Lemma ser_ts_btree ve va ts : (forall h, h ∈ ts -> names_ok ve va h) -> forall r, ser_ts r (map btree ts) = ser_ts r ts.
Proof.
  intros Ho r. induction ts as [|c cs IHcs]; [done|]. cbn [map ser_ts].
  rewrite (ser_t_btree ve va c) by (apply Ho; left). f_equal. apply IHcs. intros x Hx. apply Ho. by right.
Qed.

(** ** C39: the browser client only touches the element it was given *)

(** All patches except [Remove [0]], whether they come from [diff] or not. *)
Theorem browser_outside_untouched : forall valid_elem valid_attr parse_template (C : arena dnode) (cb : nat)
    (ps : list patch),
  wf C -> cb < length C -> (forall p, p ∈ ps -> p <> PRemove [0]) ->
  let C' := fst (fst (b_apply_all valid_elem valid_attr parse_template cb (C, []) ps)) in
  parent C' cb = parent C cb /\ kind_tag (node_kind C' cb) = kind_tag (node_kind C cb) /\
  (forall j, j < length C -> ~ above C cb j ->
     data C' j = data C j /\ children C' j = children C j /\ parent C' j = parent C j).
Proof.
  intros ve va pt C cb ps W Hl Hp C'.
  pose proof (bok_all ve va pt C (fun j => j < length C /\ ~ above C cb j) cb) as HF.
  specialize (HF (fun j Hj => proj1 Hj)). destruct HF with (ps := ps) (a := C) (sl := @nil (nat * nat)) as [F _].
  - intros [_ Hn]. apply Hn. by apply above_refl.
  - done.
  - by apply framed_start.
  - intros k v. done.
  - done.
  - split; [apply (fr_bparent _ _ _ _ F)|]. split; [apply (fr_btag _ _ _ _ F)|]. intros j Hj Hn.
    split_and!; [apply (fr_data _ _ _ _ F)|apply (fr_children _ _ _ _ F)|apply (fr_parent _ _ _ _ F)]; done.
Qed.
Print Assumptions browser_outside_untouched.

(** For [apply_patches], which works on the body: body and head stay. *)
Corollary browser_body_kept : forall valid_elem valid_attr parse_template (c : document) (b : nat) (ps : list patch),
  wf (doc_arena c) -> body c = Some b -> (forall p, p ∈ ps -> p <> PRemove [0]) ->
  let c' := fst (browser_apply valid_elem valid_attr parse_template c ps) in
  body c' = Some b /\ head c' = head c.
Proof.
  intros ve va pt c b ps W Hb Hp c'.
  assert (b ∈ children (doc_arena c) (doc_root c)) as Hbc.
  { unfold body, body_in in Hb. apply find_some in Hb as [H1 H2]. by apply elem_of_list_In. }
  assert (b < length (doc_arena c)) as Hl by by eapply wf_child_lt.
  destruct (bok_all ve va pt (doc_arena c) (fun j => j < length (doc_arena c) /\ ~ above (doc_arena c) b j) b
    (fun j Hj => proj1 Hj)) with (ps := ps) (a := doc_arena c) (sl := @nil (nat * nat)) as [F _]; try done.
  - intros [_ Hn]. apply Hn. by apply above_refl.
  - by apply framed_start.
  - assert (c' = mkDoc (fst (fst (b_apply_all ve va pt b (doc_arena c, []) ps))) (doc_root c) (doc_doctype c)) as ->.
    { unfold c', browser_apply. rewrite Hb. by destruct (b_apply_all _ _ _ _ _ _) as [[? ?] ?]. }
    pose proof (framed_finds _ _ _ _ W Hbc F) as Hf.
    unfold body, body_in, head in *. cbn [doc_arena doc_root]. rewrite <- Hb. split; apply Hf.
Qed.
Print Assumptions browser_body_kept.

(** The names a browser keeps as they are ([lower] in C33): those without a
    capital letter. *)
Lemma lower_fixed : forall s,
  lower s = s <-> forall c, In c (list_ascii_of_string s) -> ~ (65 <= Ascii.nat_of_ascii c <= 90).
Proof.
  induction s as [|c s IH]; cbn [lower list_ascii_of_string In].
  - split; [intros _ c []|done].
  - unfold lower_char. destruct (Nat.leb_spec 65 (Ascii.nat_of_ascii c)), (Nat.leb_spec (Ascii.nat_of_ascii c) 90); cbn [andb].
    + split; [|intros H1; exfalso; apply (H1 c); [by left|lia]]. intros [= H1 _]. exfalso.
      apply (f_equal Ascii.nat_of_ascii) in H1. rewrite Ascii.nat_ascii_embedding in H1; lia.
    + split; [intros [= H1] x [<-|Hx]; [lia|by apply IH]|]. intros H1. f_equal. apply IH. auto.
    + split; [intros [= H1] x [<-|Hx]; [lia|by apply IH]|]. intros H1. f_equal. apply IH. auto.
    + split; [intros [= H1] x [<-|Hx]; [lia|by apply IH]|]. intros H1. f_equal. apply IH. auto.
Qed.

(** ** C33 *)

Section Agree.
  Context {H : Type}.
  Variables (heqb : H -> H -> bool) (hcomb : hkind -> option string -> list H -> H) (h0 : H).
  Variables valid_elem valid_attr : string -> bool.
  Variable parse_template : string -> list htree.

  (** One step on an element that shows the old page. *)
  Lemma browser_step old new ob nb oats nats ts us C cb tag l :
    plain_doc old ob oats ts -> plain_doc new nb nats us ->
    (forall t ta tb m, compared heqb hcomb h0 old new t ta tb m ->
       no_collision heqb ta tb /\ swap_free m (init_parents t tb m) (html_edit_script ta tb m)) ->
    (forall h, h ∈ ts -> names_ok valid_elem valid_attr h) ->
    (forall h, h ∈ us -> names_ok valid_elem valid_attr h) -> b_okn valid_elem valid_attr "body" nats ->
    wf C -> node_kind C cb = Some (NElem tag l) -> shows_list C (map btree ts) (children C cb) ->
    exists ps C' sl,
      diff heqb hcomb h0 old new = Val ps /\
      b_apply_all valid_elem valid_attr parse_template cb (C, []) ps = ((C', sl), Val tt) /\
      wf C' /\ shows_list C' (map btree us) (children C' cb) /\
      (forall p, p ∈ ps -> hits_body p = false).
  Proof.
    intros PO PN HC OKO OKN OKB W Hk Hs.
    destruct (compared_total heqb hcomb h0 old new ob nb oats nats ts us PO PN) as (t & ta & tb & m & CM).
    destruct (HC t ta tb m CM) as [NC SF].
    destruct (diff_run_with heqb hcomb h0 old new ob nb oats nats ts us PO PN t ta tb m CM NC SF
      (plain_silent heqb hcomb h0 old new ob nb oats nats ts us t ta tb m PO PN CM NC)
      battrs (b_okn valid_elem valid_attr) (b_ap valid_elem valid_attr parse_template) C cb)
      as (ps & D' & sl & Ed & Ea & W' & Hs' & _ & Hh & _).
    - apply browser_applier.
    - intros h Hi. by apply names_ok_hall, OKO.
    - intros h Hi. by apply names_ok_hall, OKN.
    - exists "body". split; [apply OKB|]. split; [intros q Hq; by apply elem_of_nil in Hq|constructor].
    - by exists "body".
    - done.
    - eauto.
    - by apply shows_list_btree.
    - destruct (b_ap_run valid_elem valid_attr parse_template cb ps C [(0, cb)] [] ((D', sl)) eq_refl) as [sl1 Eb]; [|done|].
      { intros k Hk0. destruct k; [done|reflexivity]. }
      exists ps, D', sl1. split; [done|]. split; [done|]. split; [done|]. split; [by apply shows_list_btree|done].
  Qed.

  (** Two documents in the domain of C01, whose names are unproblematic in a
      browser; a browser whose element [cb] (its body, or a mount point) has the
      content of the old one.  Then the patches of [diff] apply in the native
      document and in the browser, without error in both, and give the same
      HTML: that of the new document.  The browser's nodes are those of the new
      document, except for empty text nodes and namespaces, and everything
      outside [cb] is as it was. *)
  Theorem browser_agrees : forall (parse : string -> list htree) old new ob nb oats nats ts us C cb tag l,
    plain_doc old ob oats ts -> plain_doc new nb nats us ->
    (forall t ta tb m, compared heqb hcomb h0 old new t ta tb m ->
       no_collision heqb ta tb /\ swap_free m (init_parents t tb m) (html_edit_script ta tb m)) ->
    (forall h, h ∈ ts -> names_ok valid_elem valid_attr h) ->
    (forall h, h ∈ us -> names_ok valid_elem valid_attr h) -> b_okn valid_elem valid_attr "body" nats ->
    wf C -> node_kind C cb = Some (NElem tag l) -> holds_list C (map btree ts) (children C cb) ->
    exists ps d' C' sl,
      diff heqb hcomb h0 old new = Val ps /\
      apply_patches parse old ps = (d', Val tt) /\
      b_apply_all valid_elem valid_attr parse_template cb (C, []) ps = ((C', sl), Val tt) /\
      serialize_inner_html C' cb = to_body_html d' /\ to_body_html d' = to_body_html new /\
      wf C' /\ (exists us', holds_list C' us' (children C' cb) /\ norms us' = norms (map btree us)) /\
      (forall j, j < length C -> ~ above C cb j ->
         data C' j = data C j /\ children C' j = children C j /\ parent C' j = parent C j).
  Proof.
    intros parse old new ob nb oats nats ts us C cb tag l PO PN HC OKO OKN OKB W Hk Hh.
    destruct (diff_roundtrip heqb hcomb h0 parse old new ob nb oats nats ts us PO PN HC)
      as (ps & d' & Ed & Ea & _ & _ & Eh & _).
    destruct (browser_step old new ob nb oats nats ts us C cb tag l PO PN HC OKO OKN OKB W Hk)
      as (ps' & C' & sl & Ed' & Eb & W' & Hs' & Hb); [by apply holds_shows_list|].
    rewrite Ed in Ed'. injection Ed' as <-.
    exists ps, d', C', sl. split; [done|]. split; [done|]. split; [done|]. split; [|split; [done|]].
    { rewrite Eh. unfold to_body_html. rewrite (pd_body _ _ _ _ PN).
      rewrite (shows_body_html _ _ cb W' Hs'), (ser_ts_btree _ _ us OKN).
      by rewrite (serialize_inner_holds _ us nb (pd_wf _ _ _ _ PN) (pd_holds _ _ _ _ PN)). }
    split; [done|]. split; [by apply shows_list_holds|].
    assert (cb < length C) as Hl.
    { unfold node_kind, data in Hk. destruct (C !! cb) eqn:E; [|done]. by eapply lookup_lt_Some. }
    destruct (browser_outside_untouched valid_elem valid_attr parse_template C cb ps W Hl) as (_ & _ & F).
    { intros p Hp ->. by specialize (Hb _ Hp). }
    rewrite Eb in F. exact F.
  Qed.
End Agree.
Print Assumptions browser_agrees.


(** ** Examples *)

(** Names as XML has them, for ASCII: a letter, then letters, digits and marks. *)
Definition ex_letter (c : ascii) : bool :=
  let n := Ascii.nat_of_ascii c in
  (Nat.leb 65 n && Nat.leb n 90) || (Nat.leb 97 n && Nat.leb n 122) || Nat.eqb n 58 || Nat.eqb n 95.
Definition ex_name_char (c : ascii) : bool :=
  let n := Ascii.nat_of_ascii c in
  ex_letter c || (Nat.leb 48 n && Nat.leb n 57) || Nat.eqb n 45 || Nat.eqb n 46.
Fixpoint ex_name_rest (s : string) : bool :=
  match s with EmptyString => true | String c s' => ex_name_char c && ex_name_rest s' end.
Definition ex_name (s : string) : bool :=
  match s with EmptyString => false | String c s' => ex_letter c && ex_name_rest s' end.

Definition ex_bapply := browser_apply ex_name ex_name no_parser.

#[local] Instance ex_string_dec : EqDecision string := string_dec.
(** A decision procedure for [names_ok]. *)
Definition okab (va : string -> bool) (l : attrs) : bool :=
  forallb (fun kv => va (bname (fst kv)) && String.eqb (lower (bname (fst kv))) (bname (fst kv)) &&
                     match q_prefix (fst kv) with Some p => negb (String.eqb p "") | None => true end) l &&
  bool_decide (NoDup (map bname (keys l))).
Fixpoint names_okb (ve va : string -> bool) (h : htree) : bool :=
  match h with
  | HElem tag _ ats cs => ve tag && String.eqb (lower tag) tag && okab va ats && forallb (names_okb ve va) cs
  | _ => true
  end.

Lemma okab_sound va l : okab va l = true -> ok_attrs va l.
Proof.
  unfold okab. intros [H1 H2]%andb_prop. split; [|by apply bool_decide_eq_true in H2].
  intros q Hq. apply elem_of_list_In, in_map_iff in Hq as ([q' v] & <- & Hin). cbn [fst].
  apply (proj1 (forallb_forall _ _) H1) in Hin. cbn [fst] in Hin.
  apply andb_prop in Hin as [Hin H5]. apply andb_prop in Hin as [H3 H4].
  split; [done|]. split; [by apply String.eqb_eq|]. intros E. by rewrite E in H5.
Qed.
Lemma names_okb_sound ve va h : names_okb ve va h = true -> names_ok ve va h.
Proof.
  induction h as [s|s|tag ns ats cs IH] using htree_ind'; cbn [names_ok names_okb]; [done|done|].
  intros H1. apply andb_prop in H1 as [H1 H4]. apply andb_prop in H1 as [H1 H3]. apply andb_prop in H1 as [H1 H2].
  split; [split; [split; [done|by apply String.eqb_eq]|by apply okab_sound]|].
  clear -IH H4. induction cs as [|c cs IHcs]; [done|]. cbn [forallb] in H4. apply andb_prop in H4 as [H4 H5].
  split; [apply IH; [left|done]|]. apply IHcs; [|done]. intros x Hx. apply IH. by right.
Qed.
Lemma names_okb_list ve va l : forallb (names_okb ve va) l = true -> forall h, h ∈ l -> names_ok ve va h.
Proof. intros H1 h Hh. apply names_okb_sound. by apply (proj1 (forallb_forall _ _) H1), elem_of_list_In. Qed.

(** The documents of [diff_roundtrip_example]; the browser has a title and a
    footer around the mount point, an article (node 6). *)
Definition ex_bdoc : document :=
  mk_doc [el "title" [tx "T"]] [el "article" (map btree ex_old_body); el "footer" [tx "f"]].
Definition ex_mount : nat := 5.
Example browser_agrees_example :
  let old := mk_doc [el "title" [tx "t"]] ex_old_body in
  let new := mk_doc [] ex_new_body in
  (forall h, h ∈ ex_old_body -> names_ok ex_name ex_name h) /\
  (forall h, h ∈ ex_new_body -> names_ok ex_name ex_name h) /\
  b_okn ex_name ex_name "body" [] /\
  node_kind (doc_arena ex_bdoc) ex_mount = Some (NElem "article" []) /\
  holds_list (doc_arena ex_bdoc) (map btree ex_old_body) (children (doc_arena ex_bdoc) ex_mount) /\
  match pdiff old new with
  | Val ps =>
      let r := b_apply_all ex_name ex_name no_parser ex_mount (doc_arena ex_bdoc, []) ps in
      snd r = Val tt /\
      serialize_inner_html (fst (fst r)) ex_mount = to_body_html new /\
      to_html (mkDoc (fst (fst r)) (doc_root ex_bdoc) None) =
        Some "<html><head><title>T</title></head><body><article><div id=""y"" class=""c"">three<section><b>two</b><p>one!</p></section><u></u></div></article><footer>f</footer></body></html>"
  | _ => False
  end.
Proof.
  intros old new.
  do 2 (split; [apply names_okb_list; vm_compute; reflexivity|]).
  split; [split; [by split|]; split; [intros q Hq; by apply elem_of_nil in Hq|constructor]|].
  split; [vm_compute; reflexivity|].
  split; [vm_compute; repeat (constructor; repeat split)|].
  vm_compute. repeat split.
Qed.

(** [browser_apply] works on the body, and patches can fail there too. *)
Example browser_outside_example :
  (forall p, p ∈ ex_frame_patches -> p <> PRemove [0]) /\
  let w := ex_bapply ex_frame_doc ex_frame_patches in
  snd w = Fail NotAnElement /\ body (fst w) = Some 2 /\
  serialize_node (doc_arena (fst w)) 1 = Some "<head><title>T</title></head>" /\
  to_body_html (fst w) <> to_body_html ex_frame_doc.
Proof.
  split; [|vm_compute; repeat split; discriminate].
  intros p Hp ->. repeat (apply elem_of_cons in Hp as [[=]|Hp]). inversion Hp.
Qed.

(** [Remove [0]] is the exception: it takes the mount point away. *)
Theorem browser_remove_root_refuted : exists C cb,
  wf C /\ cb < length C /\
  parent (fst (fst (b_apply_all ex_name ex_name no_parser cb (C, []) [PRemove [0]]))) cb <> parent C cb.
Proof.
  exists (doc_arena ex_frame_doc), 2. split; [apply mk_doc_ok|]. split; [vm_compute; lia|]. vm_compute. discriminate.
Qed.
Print Assumptions browser_remove_root_refuted.

(** Findings: without [names_ok] the two appliers disagree on patches of [diff]
    for documents in the domain of C01. *)

Definition disagree (old new : document) (ob : nat) (ts : list htree) (r : outcome unit) (html : string) : Prop :=
  plain_doc old ob [] ts /\
  exists C ps d', wf C /\ holds_list C (map btree ts) (children C 2) /\
    pdiff old new = Val ps /\
    apply_patches no_parser old ps = (d', Val tt) /\ to_body_html d' = to_body_html new /\
    snd (b_apply_all ex_name ex_name no_parser 2 (C, []) ps) = r /\
    serialize_inner_html (fst (fst (b_apply_all ex_name ex_name no_parser 2 (C, []) ps))) 2 = Some html /\
    to_body_html new <> Some html.

Ltac solve_disagree :=
  (split; [apply mk_doc_plain; solve_plain|]);
  match goal with |- exists C ps d', wf C /\ holds_list C (map btree ?ts) _ /\ _ =>
    exists (doc_arena (mk_doc [] (map btree ts))) end;
  eexists _, _; (split; [apply mk_doc_ok|]);
  (split; [vm_compute; repeat (constructor; repeat split)|]);
  (split; [vm_compute; reflexivity|]); (split; [vm_compute; reflexivity|]);
  (split; [vm_compute; reflexivity|]); (split; [vm_compute; reflexivity|]);
  (split; [vm_compute; reflexivity|]); vm_compute; discriminate.

(** A name that [setAttribute] rejects, such as [@click].  Insertion falls back
    to the HTML parser; [UpdateProps] does not: it has removed all attributes by
    then and stops with an error, the other patches are not applied. *)
Definition ex_at_old : list htree := [el_a "p" [ex_attr "id" "x"; ex_attr "@click" "a"] [tx "t"]].
Definition ex_at_new : list htree := [el_a "p" [ex_attr "@click" "b"; ex_attr "id" "x"] [tx "t"]].
Theorem browser_update_rejected_refuted : exists old new ob ts,
  disagree old new ob ts (Fail DomException) "<p>t</p>".
Proof. exists (mk_doc [] ex_at_old), (mk_doc [] ex_at_new), 2, ex_at_old. solve_disagree. Qed.
Print Assumptions browser_update_rejected_refuted.

(** Names in mixed case (SVG): [createElement] and [setAttribute] turn them to
    lower case. *)
Definition ex_svg (cs : list htree) : list htree := [HElem "svg" NsSvg [] cs].
Definition ex_case_old : list htree := ex_svg [HElem "g" NsSvg [] []].
Definition ex_case_new : list htree :=
  ex_svg [HElem "g" NsSvg [] []; HElem "linearGradient" NsSvg [ex_attr "spreadMethod" "pad"] []].
Theorem browser_lower_case_refuted : exists old new ob ts,
  disagree old new ob ts (Val tt) "<svg><g></g><lineargradient spreadmethod=""pad""></lineargradient></svg>".
Proof. exists (mk_doc [] ex_case_old), (mk_doc [] ex_case_new), 2, ex_case_old. solve_disagree. Qed.
Print Assumptions browser_lower_case_refuted.

(** An empty prefix: [UpdateProps] does not drop it, so it neither finds the old
    value nor sets the right name. *)
Definition ex_pre (v : string) : list htree :=
  [el_a "p" [(mkQ (Some "") "" "lang", "en"); ex_attr "id" v] [tx "t"]].
Theorem browser_empty_prefix_refuted : exists old new ob ts,
  disagree old new ob ts (Val tt) "<p :lang="""" id=""2"">t</p>".
Proof. exists (mk_doc [] (ex_pre "1")), (mk_doc [] (ex_pre "2")), 2, (ex_pre "1"). solve_disagree. Qed.
Print Assumptions browser_empty_prefix_refuted.

(** A hand-made patch list: inserting at an occupied position without a slot.
    The native applier shifts the node there, the browser drops it.  ([diff]
    always gives a slot in this case, in the domain of C33.) *)
Theorem browser_insert_replaces_refuted : exists ts ps,
  to_body_html (fst (apply_patches no_parser (mk_doc [] ts) ps)) = Some "<b></b><p></p>" /\
  snd (apply_patches no_parser (mk_doc [] ts) ps) = Val tt /\
  let r := b_apply_all ex_name ex_name no_parser 2 (doc_arena (mk_doc [] (map btree ts)), []) ps in
  snd r = Val tt /\ serialize_inner_html (fst (fst r)) 2 = Some "<b></b>".
Proof.
  exists [el "p" []], [PInsertElement [0; 0] "b" [] [] None]. vm_compute. repeat split.
Qed.
Print Assumptions browser_insert_replaces_refuted.
