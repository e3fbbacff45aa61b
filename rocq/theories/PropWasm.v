(** Property theorems on the functions of hotmeal-wasm that work on the body: C72. *)
From Coq Require Import NArith.
From stdpp Require Import list_numbers relations.
From Verif Require Import Base Arena Matching Chawathe Dom HtmlDiff Sink Page ArenaProofs ArenaOps TreeProofs DtreeProofs
  MatchProofs DomTree ApplyProofs FrameProofs ConvProofs RoundProofs AssembleProofs NestProofs OpaqueProofs DiffTotal ParseProofs
  Instances InstanceProofs HashProofs PropMatch PropFrame PropRoundtrip Browser BrowserProofs BrowserFrame PropBrowser
  PropTotal PropParse Wire WireProofs LiveClient WasmApi PropServer PropClient PropWire.
Local Open Scope string_scope.

Section Batches.
  Variables valid_elem valid_attr : string -> bool.
  Variable parse_template : string -> list htree.
  Notation ball := (b_apply_all valid_elem valid_attr parse_template).
  Notation with_slots := (apply_patches_with_slots valid_elem valid_attr parse_template).
  Notation batches := (in_batches valid_elem valid_attr parse_template).

  Lemma ball_app rt ps : forall st qs, ball rt st (ps ++ qs)%list =
    match ball rt st ps with (st', Val _) => ball rt st' qs | r => r end.
  Proof.
    induction ps as [|p ps IH]; intros st qs; cbn [app b_apply_all]; [done|].
    destruct (b_apply_patch _ _ _ _ st p) as [st' [[]| | |]]; [apply IH|done..].
  Qed.

  Section From.
    Variables (d0 : document) (b : nat).
    Hypothesis W0 : wf (doc_arena d0).
    Hypothesis B0 : body d0 = Some b.
    Let Out := fun j => j < length (doc_arena d0) /\ ~ above (doc_arena d0) b j.

    Lemma body_child : b ∈ children (doc_arena d0) (doc_root d0).
    Proof using B0. unfold body, body_in in B0. apply find_some in B0 as [H1 _]. by apply elem_of_list_In. Qed.

    Lemma body_framed d : doc_root d = doc_root d0 -> framed (doc_arena d0) Out b (doc_arena d) -> body d = Some b.
    Proof using B0 W0.
      intros Er F. pose proof (framed_finds _ _ _ _ W0 body_child F) as Hf. rewrite <- B0.
      unfold body, body_in. rewrite Er. apply Hf.
    Qed.

    Lemma batches_from bs : forall d sl, doc_root d = doc_root d0 ->
      framed (doc_arena d0) Out b (doc_arena d) -> bsl Out b sl ->
      (forall ps p, ps ∈ bs -> p ∈ ps -> p <> PRemove [0]) ->
      batches (d, sl) bs = with_slots (d, sl) (concat bs).
    Proof using B0 W0.
      induction bs as [|ps bs IH]; intros d sl Er F S Hp; pose proof (body_framed d Er F) as Eb.
      - cbn [in_batches concat]. unfold apply_patches_with_slots. cbn [fst snd]. rewrite Eb. cbn [b_apply_all]. by destruct d.
      - cbn [in_batches concat]. unfold apply_patches_with_slots at 1 2. cbn [fst snd]. rewrite Eb, ball_app.
        pose proof (bok_all valid_elem valid_attr parse_template (doc_arena d0) Out b (fun j Hj => proj1 Hj)) as HF.
        destruct HF with (ps := ps) (a := doc_arena d) (sl := sl) as [F1 S1]; try done.
        { intros [_ Hn]. apply Hn. by apply above_refl. }
        { eapply wf_child_lt; [done|apply body_child]. }
        { intros p Hin. by apply (Hp ps p); [left|]. }
        destruct (ball b (doc_arena d, sl) ps) as [[a1 sl1] [[]| | |]] eqn:E; cbn [fst snd obind] in *; [|done..].
        rewrite IH; [|done..|intros qs p Hq; apply Hp; by right].
        unfold apply_patches_with_slots. cbn [fst snd doc_arena doc_root doc_doctype].
        rewrite (body_framed (mkDoc a1 (doc_root d) (doc_doctype d)) Er F1).
        destruct (ball b (a1, sl1) (concat bs)) as [[a2 sl2] [[]| | |]]; cbn [obind]; [|done..].
        by rewrite app_length.
    Qed.
  End From.

  (** Any division of a list of patches into calls of [apply_patches_with_slots] with
      the same slots has the effect of one call: same document, slots and result, and
      the counts add up; also if a patch fails.  The patches need not come from
      [diff]. *)
  Theorem browser_incremental : forall (d : document) (b : nat) (bs : list (list patch)),
    wf (doc_arena d) -> body d = Some b -> (forall ps p, ps ∈ bs -> p ∈ ps -> p <> PRemove [0]) ->
    batches (d, []) bs = with_slots (d, []) (concat bs).
  Proof.
    intros d b bs W B Hp. apply (batches_from d b W B); try done.
    apply framed_start; [done|]. eapply wf_child_lt; [done|by eapply body_child].
  Qed.

  (** One patch at a time, as the fuzzer does. *)
  Corollary browser_one_by_one : forall (d : document) (b : nat) (ps : list patch),
    wf (doc_arena d) -> body d = Some b -> (forall p, p ∈ ps -> p <> PRemove [0]) ->
    batches (d, []) (map (fun p => [p]) ps) = with_slots (d, []) ps.
  Proof.
    intros d b ps W B Hp. rewrite (browser_incremental d b); [|done..|].
    - f_equal. clear. induction ps as [|p ps IH]; [done|]. cbn [map concat app]. by rewrite IH.
    - intros qs p Hq Hin. apply elem_of_list_In, in_map_iff in Hq as (x & <- & Hx). apply elem_of_list_singleton in Hin as ->.
      apply Hp. by apply elem_of_list_In.
  Qed.

  (** Success means that all patches were applied, and the number returned says how
      many there were.  [apply_patches_on] with the selector [body] is [apply_patches]. *)
  Theorem applied_count : forall query_selector (d : document) (ps : list patch) n,
    snd (apply_patches_body valid_elem valid_attr parse_template d ps) = Val n ->
    n = length ps /\
    apply_patches_on valid_elem valid_attr parse_template query_selector d ps "body" =
      apply_patches_body valid_elem valid_attr parse_template d ps /\
    browser_apply valid_elem valid_attr parse_template d ps =
      (fst (apply_patches_body valid_elem valid_attr parse_template d ps), Val tt).
  Proof.
    intros qs d ps n. unfold apply_patches_body, apply_patches_with_slots, browser_apply, apply_patches_on, resolve_mount_point.
    cbn [fst snd String.eqb Ascii.eqb Bool.eqb]. destruct (body d) as [b|]; [|done].
    unfold slots.
    match goal with |- context [ball b ?st ps] => destruct (ball b st ps) as [[a sl] [[]| | |]] end; cbn; try done.
    intros [= <-]. done.
  Qed.
End Batches.
Print Assumptions browser_incremental.
Print Assumptions browser_one_by_one.
Print Assumptions applied_count.

(** [apply_patches_postcard] on the bytes of a list does what [apply_patches] does with
    the list. *)
Theorem postcard_same : forall valid_elem valid_attr parse_template (d : document) (ps : list patch),
  seq fits_patch ps -> (forall p, p ∈ ps -> plain_update p) ->
  apply_patches_postcard valid_elem valid_attr parse_template d (to_blob ps) =
  apply_patches_body valid_elem valid_attr parse_template d ps.
Proof.
  intros ve va pt d ps F U. unfold apply_patches_postcard. rewrite blob_roundtrip by done.
  unfold apply_patches_body, apply_patches_with_slots. cbn [fst snd]. destruct (body d) as [b|]; [|done].
  pose proof (blob_effect ve va pt b (doc_arena d) ps F U) as E. unfold b_apply_blob in E.
  rewrite blob_roundtrip in E by done. rewrite map_length. unfold slots in *.
  match goal with |- context [b_apply_all ve va pt b ?st (map npatch ps)] =>
    replace (b_apply_all ve va pt b st (map npatch ps)) with (b_apply_all ve va pt b st ps) by (symmetry; exact E) end.
  done.
Qed.
Print Assumptions postcard_same.

(** Bytes of which the end is missing change nothing and give an error. *)
Theorem postcard_truncated : forall valid_elem valid_attr parse_template (d : document) (ps : list patch) (s t : string),
  seq fits_patch ps -> to_blob ps = s ++ t -> t <> "" ->
  apply_patches_postcard valid_elem valid_attr parse_template d s = (d, Fail DomException).
Proof.
  intros ve va pt d ps s t F E Ht. unfold apply_patches_postcard. by rewrite (blob_truncated ps s t F E Ht).
Qed.
Print Assumptions postcard_truncated.

(** [body.innerHTML = s]: the body has the nodes of the text, nothing else changed. *)
Theorem set_body_content : forall parse_fragment (d : document) (b : nat) (s : string),
  wf (doc_arena d) -> body d = Some b ->
  exists d', set_body_inner_html parse_fragment d s = (d', Val tt) /\ wf (doc_arena d') /\
    body d' = Some b /\ head d' = head d /\ data (doc_arena d') b = data (doc_arena d) b /\
    holds_list (doc_arena d') (parse_fragment s) (children (doc_arena d') b) /\
    (forall j, j < length (doc_arena d) -> j <> b ->
       data (doc_arena d') j = data (doc_arena d) j /\ children (doc_arena d') j = children (doc_arena d) j).
Proof.
  intros pf [a rt dt] b s W B. cbn [doc_arena] in *. unfold set_body_inner_html. rewrite B. cbn [doc_arena doc_root doc_doctype].
  assert (b ∈ children a rt) as Hb.
  { unfold body, body_in in B. apply find_some in B as [H1 _]. by apply elem_of_list_In. }
  assert (b < length a) as Hl by by eapply wf_child_lt.
  destruct (detach_all_full (children a b) a W) as (W1 & L1 & D1 & C1 & K1).
  set (a1 := detach_all a (children a b)) in *.
  destruct (clone_under_all a1 b (pf s) W1 ltac:(lia)) as (a2 & ids & E & [W2 L2 D2 C2 P2 I2 H2]). rewrite E.
  assert (children a1 b = []) as Eb.
  { destruct (children a1 b) as [|x l] eqn:Ex; [done|]. assert (x ∈ children a1 b) as Hx by (rewrite Ex; by left).
    by apply C1 in Hx as []. }
  assert (forall j, j < length a -> j <> b -> data a2 j = data a j /\ children a2 j = children a j) as Ho.
  { intros j Hj Hn. rewrite D2, D1, C2 by lia. destruct (Nat.eqb_spec j b); [done|]. split; [done|].
    apply K1. intros x Hx Hx'. apply (wf_pc a W) in Hx, Hx'. congruence. }
  assert (rt <> b) as Hrt.
  { intros ->. apply (wf_pc a W) in Hb. destruct (wf_chain a W b) as [l Hc]. pose proof (chain_not_self _ _ _ Hc) as Hs.
    inversion Hc; subst; [congruence|]. assert (p = b) as -> by congruence. apply Hs. by left. }
  assert (rt < length a) as Hrl by by eapply children_lt.
  assert (forall t, find (has_tag a2 t) (children a2 rt) = find (has_tag a t) (children a rt)) as Hf.
  { intros t. destruct (Ho rt Hrl Hrt) as [_ ->].
    assert (forall c, c ∈ children a rt -> has_tag a2 t c = has_tag a t c) as Ht.
    { intros c Hc. unfold has_tag, node_kind. pose proof (wf_child_lt a rt c W Hc). rewrite D2, D1 by lia. done. }
    revert Ht. generalize (children a rt). intros l. induction l as [|c l IH]; intros Ht; [done|]. cbn [find].
    rewrite (Ht c) by left. destruct (has_tag a t c); [done|]. apply IH. intros x Hx. apply Ht. by right. }
  exists (mkDoc a2 rt dt). cbn [doc_arena]. split; [done|]. split; [done|].
  split; [rewrite <- B; unfold body, body_in; cbn [doc_arena doc_root]; apply Hf|].
  split; [unfold head; cbn [doc_arena doc_root]; apply Hf|].
  split; [rewrite D2, D1 by lia; done|]. split; [|done].
  rewrite C2, Nat.eqb_refl, Eb by lia. done.
Qed.
Print Assumptions set_body_content.

(** The cycle of the browser tests (hotmeal/fuzz/browser-wasm/src/lib.rs:211-309,
    hotmeal-wasm/index.html:53-64): set the body's text, compute the patches from two
    texts, apply them one at a time or at once, and read the body's text. *)
Section Cycle.
  Context {H : Type}.
  Variables (heqb : H -> H -> bool) (hcomb : hkind -> option string -> list H -> H) (h0 : H).
  Variable html5ever : string -> list sink_call.
  Variables valid_elem valid_attr : string -> bool.
  Variable parse_template : string -> list htree.
  Variable parse_fragment : string -> list htree.

  Theorem browser_test_cycle : forall (o n : string) old new ob nb oats nats ts us (s : string) (d : document) (b : nat) tag l,
    parse html5ever o = Val old -> parse html5ever n = Val new ->
    plain_doc old ob oats ts -> plain_doc new nb nats us ->
    (forall t ta tb m, compared heqb hcomb h0 old new t ta tb m ->
       no_collision heqb ta tb /\ swap_free m (init_parents t tb m) (html_edit_script ta tb m)) ->
    (forall h, h ∈ ts -> names_ok valid_elem valid_attr h) ->
    (forall h, h ∈ us -> names_ok valid_elem valid_attr h) -> b_okn valid_elem valid_attr "body" nats ->
    wf (doc_arena d) -> body d = Some b -> node_kind (doc_arena d) b = Some (NElem tag l) ->
    parse_fragment s = map btree ts ->
    exists ps d0 d1 sl,
      diff_html_patches heqb hcomb h0 html5ever o n = Val ps /\
      set_body_inner_html parse_fragment d s = (d0, Val tt) /\
      in_batches valid_elem valid_attr parse_template (d0, []) (map (fun p => [p]) ps) = ((d1, sl), Val (length ps)) /\
      apply_patches_body valid_elem valid_attr parse_template d0 ps = (d1, Val (length ps)) /\
      wf (doc_arena d1) /\ body d1 = Some b /\ head d1 = head d /\
      match to_body_html new with Some t => get_body_inner_html d1 = Val t | None => False end.
  Proof.
    intros o n old new ob nb oats nats ts us s d b tag l Eo En PO PN HC OKO OKN OKB W B Hk Hs.
    destruct (set_body_content parse_fragment d b s W B) as (d0 & E0 & W0 & B0 & Hh0 & D0 & Hd0 & _).
    assert (node_kind (doc_arena d0) b = Some (NElem tag l)) as Hk0 by (unfold node_kind in *; by rewrite D0).
    rewrite Hs in Hd0.
    destruct (browser_step heqb hcomb h0 valid_elem valid_attr parse_template old new ob nb oats nats ts us
      (doc_arena d0) b tag l PO PN HC OKO OKN OKB W0 Hk0) as (ps & C' & sl & Ed & Eb & W' & Hs' & Hb);
      [by apply holds_shows_list|].
    assert (forall p, p ∈ ps -> p <> PRemove [0]) as Hnb by (intros p Hp ->; by specialize (Hb _ Hp)).
    assert (apply_patches_with_slots valid_elem valid_attr parse_template (d0, []) ps =
      ((mkDoc C' (doc_root d0) (doc_doctype d0), sl), Val (length ps))) as Ew.
    { unfold apply_patches_with_slots. cbn [fst snd]. rewrite B0.
      match goal with |- context [b_apply_all ?x ?y ?z ?r ?st ?l] => replace (b_apply_all x y z r st l) with ((C', sl), @Val unit tt) by (symmetry; exact Eb) end. done. }
    exists ps, d0, (mkDoc C' (doc_root d0) (doc_doctype d0)), sl.
    split; [unfold diff_html_patches, diff_html; rewrite Eo, En; exact Ed|]. split; [done|].
    split; [rewrite (browser_one_by_one _ _ _ d0 b); done|].
    split; [unfold apply_patches_body; rewrite Ew; done|]. split; [done|].
    destruct (browser_body_kept valid_elem valid_attr parse_template d0 b ps W0 B0 Hnb) as [K1 K2].
    assert (fst (browser_apply valid_elem valid_attr parse_template d0 ps) = mkDoc C' (doc_root d0) (doc_doctype d0)) as Ef.
    { unfold browser_apply. rewrite B0.
      match goal with |- context [b_apply_all ?x ?y ?z ?r ?st ?l] => replace (b_apply_all x y z r st l) with ((C', sl), @Val unit tt) by (symmetry; exact Eb) end. done. }
    rewrite Ef in K1, K2.
    split; [done|]. split; [by rewrite K2|].
    unfold to_body_html, get_body_inner_html. rewrite (pd_body _ _ _ _ PN), K1. cbn [doc_arena].
    rewrite (serialize_inner_holds _ us nb (pd_wf _ _ _ _ PN) (pd_holds _ _ _ _ PN)).
    rewrite (shows_body_html _ _ b W' Hs'), (ser_ts_btree _ _ us OKN). done.
  Qed.

  (** With the patches sent as JSON, for a codec that reads what it wrote. *)
  Corollary browser_json_cycle : forall json_write json_read (o n : string) old new ob nb oats nats ts us (s : string)
      (d : document) (b : nat) tag l,
    (forall ps t, json_write ps = Some t -> json_read t = Some ps) ->
    (forall ps, is_Some (json_write ps)) ->
    parse html5ever o = Val old -> parse html5ever n = Val new ->
    plain_doc old ob oats ts -> plain_doc new nb nats us ->
    (forall t ta tb m, compared heqb hcomb h0 old new t ta tb m ->
       no_collision heqb ta tb /\ swap_free m (init_parents t tb m) (html_edit_script ta tb m)) ->
    (forall h, h ∈ ts -> names_ok valid_elem valid_attr h) ->
    (forall h, h ∈ us -> names_ok valid_elem valid_attr h) -> b_okn valid_elem valid_attr "body" nats ->
    wf (doc_arena d) -> body d = Some b -> node_kind (doc_arena d) b = Some (NElem tag l) ->
    parse_fragment s = map btree ts ->
    exists j d0 d1 k,
      diff_html_json json_write heqb hcomb h0 html5ever o n = Val j /\
      set_body_inner_html parse_fragment d s = (d0, Val tt) /\
      apply_patches_json valid_elem valid_attr parse_template json_read d0 j = (d1, Val k) /\
      match to_body_html new with Some t => get_body_inner_html d1 = Val t | None => False end.
  Proof.
    intros jw jr o n old new ob nb oats nats ts us s d b tag l JR JW Eo En PO PN HC OKO OKN OKB W B Hk Hs.
    destruct (browser_test_cycle o n old new ob nb oats nats ts us s d b tag l Eo En PO PN HC OKO OKN OKB W B Hk Hs)
      as (ps & d0 & d1 & sl & Ed & E0 & _ & Ea & _ & _ & _ & Eh).
    destruct (JW ps) as [j Ej]. exists j, d0, d1, (length ps).
    split; [unfold diff_html_json; unfold diff_html_patches in Ed; rewrite Ed; cbn [obind]; by rewrite Ej|].
    split; [done|]. split; [|done]. unfold apply_patches_json. by rewrite (JR ps j Ej).
  Qed.
End Cycle.
Print Assumptions browser_test_cycle.
Print Assumptions browser_json_cycle.

(** ** Examples *)

(** The pages of [diff_html_example]; a browser that shows something else. *)
Definition cyc_old : list htree := [el "p" [tx "one"]; tx "two"; el "table" []].
Definition cyc_new : list htree := [el "div" [el "p" [tx "one"]; tx "!"]; HComment "x"].
Definition cyc_parser (s : string) : list htree :=
  if String.eqb s "<p>one</p>two<table></table>" then map btree cyc_old else [].
Definition cyc_doc : document := mk_doc [el "title" [tx "T"]] [el "h1" [tx "before"]; tx "x"].
Definition cyc_ats : attrs := [ex_attr "class" "c"].

Lemma cyc_plain_1 : plain_doc parsed_1 3 [] cyc_old.
Proof.
  destruct (parsed_plain _ _ _ (toy_well_behaved _ (or_introl eq_refl)) toy_1 toy_plain_1) as (l & ts & D).
  assert (ts = cyc_old) as ->.
  { eapply holds_list_inj; [exact (pd_holds _ _ _ _ D)|]. vm_compute. repeat (constructor; repeat split). }
  assert (l = []) as -> by (pose proof (pd_data _ _ _ _ D) as E; vm_compute in E; congruence). done.
Qed.
Lemma cyc_plain_2 : plain_doc parsed_2 3 cyc_ats cyc_new.
Proof.
  destruct (parsed_plain _ _ _ (toy_well_behaved _ (or_intror eq_refl)) toy_2 toy_plain_2) as (l & ts & D).
  assert (ts = cyc_new) as ->.
  { eapply holds_list_inj; [exact (pd_holds _ _ _ _ D)|]. vm_compute. repeat (constructor; repeat split). }
  assert (l = cyc_ats) as -> by (pose proof (pd_data _ _ _ _ D) as E; vm_compute in E; by injection E as <-). done.
Qed.

Example browser_test_cycle_example :
  parse toy_parser page_1 = Val parsed_1 /\ parse toy_parser page_2 = Val parsed_2 /\
  plain_doc parsed_1 3 [] cyc_old /\ plain_doc parsed_2 3 cyc_ats cyc_new /\
  (forall t ta tb m, compared phash_eqb PH PH0 parsed_1 parsed_2 t ta tb m ->
     no_collision phash_eqb ta tb /\ swap_free m (init_parents t tb m) (html_edit_script ta tb m)) /\
  (forall h, h ∈ cyc_old -> names_ok ex_name ex_name h) /\ (forall h, h ∈ cyc_new -> names_ok ex_name ex_name h) /\
  b_okn ex_name ex_name "body" cyc_ats /\
  wf (doc_arena cyc_doc) /\ body cyc_doc = Some 2 /\
  cyc_parser "<p>one</p>two<table></table>" = map btree cyc_old /\
  (let d0 := fst (set_body_inner_html cyc_parser cyc_doc "<p>one</p>two<table></table>") in
   match diff_html_patches phash_eqb PH PH0 toy_parser page_1 page_2 with
   | Val ps =>
       length ps = 9 /\
       get_body_inner_html cyc_doc = Val "<h1>before</h1>x" /\
       get_body_inner_html d0 = Val "<p>one</p>two<table></table>" /\
       (* after the first three calls, and after all *)
       get_body_inner_html (fst (fst (in_batches ex_name ex_name no_parser (d0, []) (map (fun p => [p]) (take 3 ps))))) <>
         get_body_inner_html d0 /\
       snd (in_batches ex_name ex_name no_parser (d0, []) (map (fun p => [p]) ps)) = Val 9 /\
       get_body_inner_html (fst (fst (in_batches ex_name ex_name no_parser (d0, []) (map (fun p => [p]) ps)))) =
         Val "<div><p>one</p>!</div><!--x-->"
   | _ => False
   end).
Proof.
  split; [exact toy_1|]. split; [exact toy_2|]. split; [exact cyc_plain_1|]. split; [exact cyc_plain_2|].
  split; [exact toy_compared|].
  do 2 (split; [apply names_okb_list; vm_compute; reflexivity|]).
  split; [split; [by split|apply okab_sound; vm_compute; reflexivity]|].
  split; [apply mk_doc_ok|]. split; [vm_compute; reflexivity|]. split; [vm_compute; reflexivity|].
  vm_compute. repeat split. discriminate.
Qed.

(** Two calls with the same slots; the second uses the slot the first filled. *)
Definition slot_doc : document := mk_doc [] [el "p" [tx "a"]; el "b" []].
Definition slot_first : list patch := [PInsertText [0; 0] "new" (Some 1)].
Definition slot_second : list patch := [PMove [1] [0; 2] None; PSetText [0; 2; 0] "A"].
Example browser_incremental_example :
  (forall ps p, ps ∈ [slot_first; slot_second] -> p ∈ ps -> p <> PRemove [0]) /\
  let r := in_batches ex_name ex_name no_parser (slot_doc, []) [slot_first; slot_second] in
  snd r = Val 3 /\ get_body_inner_html (fst (fst r)) = Val "new<b></b><p>A</p>".
Proof.
  split; [|vm_compute; done]. intros ps p Hps Hp ->.
  repeat (apply elem_of_cons in Hps as [->|Hps]; [repeat (apply elem_of_cons in Hp as [[=]|Hp]); by apply elem_of_nil in Hp|]).
  by apply elem_of_nil in Hps.
Qed.

(** With slots of its own ([apply_patches]), the second call fails. *)
Theorem browser_incremental_own_slots_refuted : exists d ps qs,
  wf (doc_arena d) /\
  snd (apply_patches_body ex_name ex_name no_parser d (ps ++ qs)%list) = Val 3 /\
  (let '(d1, r) := apply_patches_body ex_name ex_name no_parser d ps in
   r = Val 1 /\ snd (apply_patches_body ex_name ex_name no_parser d1 qs) = Fail (SlotNotFound 1)).
Proof.
  exists slot_doc, slot_first, slot_second. split; [apply mk_doc_ok|]. vm_compute. repeat split.
Qed.
Print Assumptions browser_incremental_own_slots_refuted.

(** [Remove [0]] takes the body away: the next call does not find one, while in one
    call patches still reach the removed element. *)
Theorem browser_incremental_body_refuted : exists d ps qs,
  wf (doc_arena d) /\ body d = Some 2 /\
  snd (in_batches ex_name ex_name no_parser (d, []) [(ps ++ qs)%list]) = Val 2 /\
  snd (in_batches ex_name ex_name no_parser (d, []) [ps; qs]) = Fail NoBody.
Proof.
  exists slot_doc, [PRemove [0]], [PSetText [0; 0; 0] "x"]. split; [apply mk_doc_ok|]. vm_compute. repeat split.
Qed.
Print Assumptions browser_incremental_body_refuted.
