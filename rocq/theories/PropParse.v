(** C43: pages given as text.  What the parser's callbacks build is a document on
    which [diff] returns, and the theorems on documents hold of [diff_html]. *)
From Verif Require Import Base Arena Matching Chawathe Dom HtmlDiff Server Sink Page
  ArenaProofs ArenaOps ServerProofs FrameProofs AttrProofs SinkProofs TreeProofs DomTree MatchProofs
  AssembleProofs DtreeProofs ConvProofs RoundProofs NestProofs HashProofs ConvTotal DiffTotal ParseProofs Instances InstanceProofs
  PropMatch PropSink PropRoundtrip PropSelf.
Local Open Scope string_scope.

(** The contract of html5ever, for one callback: besides [sensible] (C37) only
    elements and the document get children, the document node is never handed
    over, and the attributes of a new element have distinct names. *)
Definition well_behaved (s : sink) (c : sink_call) : Prop :=
  let a := sk_arena s in
  sensible s c /\
  match c with
  | SCreateElement _ _ l => NoDup (map fst l)
  | SAppend p x => container a p /\ x <> AppendNode 0
  | SBefore _ x => x <> AppendNode 0
  | SFoster el prev x => (parent a el = None -> container a prev) /\ x <> AppendNode 0
  | SReparent _ p => container a p
  | _ => True
  end.
Fixpoint all_well_behaved (s : sink) (cs : list sink_call) : Prop :=
  match cs with
  | [] => True
  | c :: cs' => well_behaved s c /\ forall s', sink_step s c = Val s' -> all_well_behaved s' cs'
  end.

Lemma sink_step_parsed s c : parsed (sk_arena s) -> sk_arena s <> [] -> well_behaved s c ->
  exists s', sink_step s c = Val s' /\ parsed (sk_arena s') /\ sk_arena s' <> [].
Proof.
  intros P Hne [Hs Hc].
  assert (Hl : length (sk_arena s) <> 0) by (by destruct (sk_arena s)).
  assert (exists s', sink_step s c = Val s' /\ parsed (sk_arena s')) as (s' & E & P').
  { destruct c as [t ns l|x|  |p x|sib x|e prev x|n|n l|n|n p]; cbn [sink_step sensible] in *.
    - eexists. split; [reflexivity|]. apply parsed_new; [done|done|done|]. by intros ? ? [= <- <-].
    - eexists. split; [reflexivity|]. by apply parsed_new.
    - eexists. split; [reflexivity|]. by apply parsed_new.
    - destruct (parsed_append _ p x P (proj1 Hc) (proj2 Hs) (proj2 Hc)) as (a' & -> & P'). by eexists.
    - destruct Hs as (q & Hq & Hf). destruct (parsed_before _ sib q x P Hq Hf Hc) as (a' & -> & P'). by eexists.
    - unfold sink_foster. destruct (parent (sk_arena s) e) as [q|] eqn:Eq.
      + destruct (parsed_before _ e q x P Eq Hs (proj2 Hc)) as (a' & -> & P'). by eexists.
      + destruct (parsed_append _ prev x P (proj1 Hc eq_refl) (proj2 Hs) (proj2 Hc)) as (a' & -> & P'). by eexists.
    - by eexists.
    - eexists. split; [reflexivity|]. by apply parsed_add_attrs.
    - eexists. split; [reflexivity|]. by apply parsed_detach.
    - destruct Hs as (Hp & Hn & Hab). destruct (parsed_reparent _ n p P Hc Hn Hab) as (a' & -> & P'). by eexists. }
  exists s'. split; [done|]. split; [done|].
  (* The number of nodes never shrinks. *)
  destruct (sink_step_wf s c (ps_wf _ P) Hs) as (s1 & E1 & _). rewrite E in E1. injection E1 as <-.
  intros Hnil. apply Hl. clear -E Hnil Hs P Hl.
  destruct c as [t ns l|x|  |p x|sib x|e prev x|n|n l|n|n p]; cbn [sink_step] in E.
  1,2,3: injection E as <-; cbn in Hnil; by destruct (sk_arena s).
  - destruct (sink_append_ok _ p x (ps_wf _ P) (proj1 Hs) (proj2 Hs)) as (a' & E' & _ & L & _).
    rewrite E' in E. injection E as <-. cbn in Hnil. subst a'. cbn in L. lia.
  - destruct Hs as (q & Hq & Hf). destruct (sink_before_ok _ sib q x (ps_wf _ P) Hq Hf) as (a' & E' & _ & L & _).
    rewrite E' in E. injection E as <-. cbn in Hnil. subst a'. cbn in L. lia.
  - unfold sink_foster in E. cbn [sensible] in Hs. destruct (parent (sk_arena s) e) as [q|] eqn:Eq.
    + destruct (sink_before_ok _ e q x (ps_wf _ P) Eq Hs) as (a' & E' & _ & L & _).
      rewrite E' in E. injection E as <-. cbn in Hnil. subst a'. cbn in L. lia.
    + destruct (sink_append_ok _ prev x (ps_wf _ P) (proj1 Hs) (proj2 Hs)) as (a' & E' & _ & L & _).
      rewrite E' in E. injection E as <-. cbn in Hnil. subst a'. cbn in L. lia.
  - injection E as <-. cbn in Hnil. by rewrite Hnil.
  - injection E as <-. cbn in Hnil. unfold sink_add_attrs in Hnil.
    destruct (node_kind (sk_arena s) n) as [[|? ?| |]|]; try (by rewrite Hnil).
    apply (f_equal length) in Hnil. by rewrite len_set_kind in Hnil.
  - injection E as <-. cbn in Hnil. destruct (detach_full (sk_arena s) n (ps_wf _ P)) as [_ L _ _ _].
    rewrite Hnil in L. by rewrite <- L.
  - destruct Hs as (Hp & Hn & Hab).
    destruct (reparent_ok p n Hn _ (sk_arena s) (ps_wf _ P) Hp eq_refl Hab) as (a' & E' & _ & L & _).
    unfold sink_reparent in E. rewrite E' in E. injection E as <-. cbn in Hnil. subst a'. by rewrite <- L.
Qed.

Lemma sink_run_parsed cs : forall s, parsed (sk_arena s) -> sk_arena s <> [] -> all_well_behaved s cs ->
  exists s', sink_run s cs = Val s' /\ parsed (sk_arena s').
Proof.
  induction cs as [|c cs IH]; intros s P Hn H; cbn [sink_run]; [by exists s|].
  destruct H as [Hc Hcs]. destruct (sink_step_parsed s c P Hn Hc) as (s1 & E & P1 & Hn1). rewrite E. cbn [obind].
  apply IH; [done..|]. by apply Hcs.
Qed.

(** Parsing returns a document that [diff] accepts (C31), whose elements have
    distinct attribute names. *)
Theorem parse_proper : forall (html5ever : string -> list sink_call) (s : string),
  all_well_behaved sink_new (html5ever (parser_input s)) ->
  exists d, parse html5ever s = Val d /\ proper d /\
    (forall i tag ns l, data (doc_arena d) i = Some (mkD (NElem tag l) ns) -> NoDup (map fst l)).
Proof.
  intros h s W. assert (Hn : sk_arena sink_new <> []) by done.
  destruct (sink_run_parsed _ sink_new parsed_new_sink Hn W) as (k & E & P).
  unfold parse. rewrite E. cbn [obind]. eexists. split; [reflexivity|].
  destruct (has_doctype_prefix s); cbn; (split; [by apply parsed_proper|apply P]).
Qed.
Print Assumptions parse_proper.

(** [diff_html] returns patches for any two texts, whatever the hash function. *)
Theorem diff_html_total : forall {H} (heqb : H -> H -> bool) hcomb h0 (html5ever : string -> list sink_call) (s t : string),
  (forall x, x = s \/ x = t -> all_well_behaved sink_new (html5ever (parser_input x))) ->
  exists ps, diff_html heqb hcomb h0 html5ever s t = Val ps.
Proof.
  intros H heqb hcomb h0 h s t W. unfold diff_html.
  destruct (parse_proper h s (W s (or_introl eq_refl))) as (d & -> & Pd & _).
  destruct (parse_proper h t (W t (or_intror eq_refl))) as (e & -> & Pe & _). cbn [obind].
  by apply diff_total_all.
Qed.
Print Assumptions diff_html_total.

(** [diff_html] of a text with itself is empty if its body has no attributes. *)
Theorem diff_html_self : forall {H} (heqb : H -> H -> bool) hcomb h0 (html5ever : string -> list sink_call) (s : string),
  (forall h, heqb h h = true) ->
  all_well_behaved sink_new (html5ever (parser_input s)) ->
  (forall d b tag ns l, parse html5ever s = Val d -> body d = Some b ->
     data (doc_arena d) b = Some (mkD (NElem tag l) ns) -> l = []) ->
  diff_html heqb hcomb h0 html5ever s s = Val [].
Proof.
  intros H heqb hcomb h0 h s R W Hb. unfold diff_html.
  destruct (parse_proper h s W) as (d & E & Pd & Nd). rewrite E. cbn [obind].
  apply diff_self_empty; [done|done| |done]. intros b tag ns l. by apply Hb.
Qed.
Print Assumptions diff_html_self.

(** ** The round trip *)

(** A page in the domain of C01: it has an ordinary body, and below the body
    there is no opaque element and no further body element. *)
Record plain_page (d : document) (b : nat) : Prop := {
  pg_body : body d = Some b;
  pg_kind : exists l, data (doc_arena d) b = Some (mkD (NElem "body" l) NsHtml);
  pg_opaque : forall i tag ns l q v, above (doc_arena d) b i -> data (doc_arena d) i = Some (mkD (NElem tag l) ns) ->
    (q, v) ∈ l -> q_local q <> "data-hotmeal-opaque";
  pg_bodies : forall i l, above (doc_arena d) b i -> data (doc_arena d) i = Some (mkD (NElem "body" l) NsHtml) -> i = b
}.

Lemma opaque_free (l : attrs) : (forall q v, (q, v) ∈ l -> q_local q <> "data-hotmeal-opaque") -> is_opaque_props l = false.
Proof.
  intros H. destruct (is_opaque_props l) eqn:E; [|done]. unfold is_opaque_props in E.
  apply existsb_exists in E as ([q v] & Hin & Eq). apply String.eqb_eq in Eq. by destruct (H q v); [apply elem_of_list_In|].
Qed.

Section Content.
  Variables (a : arena dnode) (W : wf a).
  (** What holds of all nodes holds of the content. *)
  Lemma holds_hall (P : hkind -> attrs -> Prop) h : forall i, holds a h i ->
    (forall j d, above a i j -> data a j = Some d -> P (td_kind (tdata_of d)) (td_props (tdata_of d))) ->
    hall P h.
  Proof using W.
    induction h as [s|s|tag ns ats cs IH] using htree_ind'; intros i Hh HP; apply hall_eq.
    - destruct Hh as [Hk _]. apply node_kind_data in Hk as (d & Hd & Kd). split; [|intros c Hc; inversion Hc].
      specialize (HP i d (above_refl a i W) Hd). unfold tdata_of in HP. by rewrite Kd in HP.
    - destruct Hh as [Hk _]. apply node_kind_data in Hk as (d & Hd & Kd). split; [|intros c Hc; inversion Hc].
      specialize (HP i d (above_refl a i W) Hd). unfold tdata_of in HP. by rewrite Kd in HP.
    - apply holds_elem in Hh as [Hd Hcs]. split; [exact (HP i _ (above_refl a i W) Hd)|].
      intros c Hc. cbn in Hc. destruct (Forall2_in_l _ _ _ c Hcs Hc) as (j & Hj & Hhc).
      apply (IH c Hc j Hhc). intros j' d Hj' Hd'. apply (HP j' d); [|done].
      eapply above_trans; [done| |exact Hj']. eapply above_parent; [by apply above_refl|]. by apply (wf_pc a W).
  Qed.
End Content.

Lemma plain_page_doc d b : proper d ->
  (forall i tag ns l, data (doc_arena d) i = Some (mkD (NElem tag l) ns) -> NoDup (map fst l)) ->
  plain_page d b -> exists ats ts, plain_doc d b ats ts.
Proof.
  intros PD ND [E [l Hl] Ho Hb]. pose proof (pp_wf d PD) as W. destruct (proper_children d b PD) as (ts & Hts).
  assert (Hself : above (doc_arena d) b b) by (by apply above_refl).
  exists l, ts. split; try done.
  - intros h Hin. destruct (Forall2_in_l _ _ _ h Hts Hin) as (j & Hj & Hh).
    apply (wf_pc _ W) in Hj as Hp.
    eapply holds_hall; [done|exact Hh|]. intros i x Hi Hx.
    assert (Hbi : above (doc_arena d) b i).
    { eapply above_trans; [done| |exact Hi]. by eapply above_parent. }
    destruct x as [k ns]. unfold tdata_of. cbn. destruct k as [|tag ats|s|s]; cbn.
    + by split_and!; [|constructor|].
    + split_and!; [|by eapply ND|apply opaque_free; intros q v Hq; by apply (Ho i tag ns ats q v)].
      intros [= -> ->]. assert (i = b) as -> by (by eapply Hb).
      by apply (above_not_parent _ j b W Hp).
    + by split_and!; [|constructor|].
    + by split_and!; [|constructor|].
  - by eapply ND.
  - apply opaque_free. intros q v. by apply (Ho b "body" NsHtml l).
Qed.

(** The patches [diff_html] computes from two texts turn the parsed old page into
    one with the body HTML of the new page, if no node is moved below itself. *)
Theorem diff_html_roundtrip : forall {H} (heqb : H -> H -> bool) hcomb h0 (html5ever : string -> list sink_call)
    (fragment : string -> list htree) (s t : string) (o n : document) (ob nb : nat),
  (forall x, x = s \/ x = t -> all_well_behaved sink_new (html5ever (parser_input x))) ->
  parse html5ever s = Val o -> parse html5ever t = Val n ->
  plain_page o ob -> plain_page n nb ->
  (forall w ta tb m, compared heqb hcomb h0 o n w ta tb m ->
     no_collision heqb ta tb /\ swap_free m (init_parents w tb m) (html_edit_script ta tb m)) ->
  exists ps d',
    diff_html heqb hcomb h0 html5ever s t = Val ps /\
    apply_patches fragment o ps = (d', Val tt) /\
    wf (doc_arena d') /\ body d' = Some ob /\ to_body_html d' = to_body_html n /\
    doc_doctype d' = doc_doctype o /\ head d' = head o.
Proof.
  intros H heqb hcomb h0 h f s t o n ob nb W Eo En Po Pn C.
  destruct (parse_proper h s (W s (or_introl eq_refl))) as (o' & Eo' & Qo & No). rewrite Eo in Eo'. injection Eo' as <-.
  destruct (parse_proper h t (W t (or_intror eq_refl))) as (n' & En' & Qn & Nn). rewrite En in En'. injection En' as <-.
  destruct (plain_page_doc o ob Qo No Po) as (oats & ts & Do). destruct (plain_page_doc n nb Qn Nn Pn) as (nats & us & Dn).
  destruct (diff_roundtrip heqb hcomb h0 f o n ob nb oats nats ts us Do Dn C)
    as (ps & d' & H1 & H2 & H3 & H4 & H5 & H6 & H7 & H8 & H9 & H10).
  exists ps, d'. unfold diff_html. rewrite Eo, En. cbn [obind]. done.
Qed.
Print Assumptions diff_html_roundtrip.

(** ** A concrete parser for two pages *)

(** Decision procedure for the contract. *)
Definition loose_b (a : arena dnode) (p n : nat) : bool :=
  Nat.ltb n (length a) && match parent a n with None => true | Some _ => false end &&
  negb (Nat.eqb n p) && match is_ancestor a n p with Some false => true | _ => false end.
Definition fits_b (a : arena dnode) (p : nat) (c : node_or_text) : bool :=
  match c with AppendText _ => true | AppendNode n => loose_b a p n && negb (Nat.eqb n 0) end.
Definition container_b (a : arena dnode) (p : nat) : bool :=
  match node_kind a p with Some (NElem _ _) | Some NDocument => true | _ => false end.
Definition well_behaved_b (s : sink) (c : sink_call) : bool :=
  let a := sk_arena s in
  match c with
  | SCreateElement _ _ l => qlist_eqb (qdedup (keys l)) (keys l)
  | SAppend p x => container_b a p && fits_b a p x
  | SBefore sib x => match parent a sib with Some q => fits_b a q x | None => false end
  | SFoster el prev x =>
      match parent a el with Some q => fits_b a q x | None => container_b a prev && fits_b a prev x end
  | SReparent n p =>
      container_b a p && negb (Nat.eqb p n) &&
      forallb (fun c => negb (Nat.eqb c p) && match is_ancestor a c p with Some false => true | _ => false end) (children a n)
  | _ => true
  end.
Fixpoint all_well_behaved_b (s : sink) (cs : list sink_call) : bool :=
  match cs with
  | [] => true
  | c :: cs' => well_behaved_b s c && match sink_step s c with Val s' => all_well_behaved_b s' cs' | _ => true end
  end.

Lemma container_b_sound a p : container_b a p = true -> container a p /\ p < length a.
Proof.
  unfold container_b, container, node_kind. destruct (data a p) as [d|] eqn:E; [|done].
  intros H. split; [by destruct (d_kind d)|by eapply data_lt].
Qed.
Lemma ancestor_b_sound (a : arena dnode) n p : wf a -> negb (Nat.eqb n p) = true ->
  (match is_ancestor a n p with Some false => true | _ => false end) = true -> ~ above a n p.
Proof.
  intros W Hn Hb. apply negb_true_iff, Nat.eqb_neq in Hn.
  destruct (is_ancestor_not_above a n p W Hn) as [[_ ?]|[E _]]; [done|]. by rewrite E in Hb.
Qed.
Lemma fits_b_sound a p c : wf a -> fits_b a p c = true -> fits a p c /\ c <> AppendNode 0.
Proof.
  intros W. destruct c as [n|s]; [|done]. cbn. unfold loose_b. rewrite !andb_true_iff.
  intros [[[[H1 H2] H3] H4] H5]. split.
  - split; [by apply Nat.ltb_lt|]. split; [by destruct (parent a n)|by apply ancestor_b_sound].
  - intros [= ->]. done.
Qed.
Lemma well_behaved_b_sound s c : wf (sk_arena s) -> well_behaved_b s c = true -> well_behaved s c.
Proof.
  intros W. unfold well_behaved. destruct c as [t ns l|x|  |p x|sib x|e prev x|n|n l|n|n p]; cbn; try done.
  - intros H. split; [done|]. apply qlist_eqb_eq in H. change (map fst l) with (keys l). rewrite <- H. apply qdedup_nodup.
  - rewrite andb_true_iff. intros [H1 H2]. apply container_b_sound in H1 as [H1 H3]. by apply fits_b_sound in H2 as [? ?].
  - destruct (parent (sk_arena s) sib) as [q|]; [|done]. intros H. apply fits_b_sound in H as [? ?]; [|done].
    split; [by exists q|done].
  - destruct (parent (sk_arena s) e) as [q|].
    + intros H. apply fits_b_sound in H as [? ?]; [|done]. done.
    + rewrite andb_true_iff. intros [H1 H2]. apply container_b_sound in H1 as [H1 H3]. by apply fits_b_sound in H2 as [? ?].
  - rewrite !andb_true_iff. intros [[H1 H2] H3]. apply container_b_sound in H1 as [H1 H4]. split; [|done].
    split; [done|]. apply negb_true_iff, Nat.eqb_neq in H2. split; [done|]. intros c Hc.
    rewrite forallb_forall in H3. specialize (H3 c). rewrite <- elem_of_list_In, andb_true_iff in H3.
    destruct (H3 Hc). by apply ancestor_b_sound.
Qed.
Lemma all_well_behaved_b_sound cs : forall s, wf (sk_arena s) -> all_well_behaved_b s cs = true -> all_well_behaved s cs.
Proof.
  induction cs as [|c cs IH]; intros s W; cbn; [done|]. rewrite andb_true_iff. intros [H1 H2].
  apply well_behaved_b_sound in H1; [|done]. split; [done|]. intros s' E. rewrite E in H2.
  destruct (sink_step_wf s c W (proj1 H1)) as (s1 & E1 & W1). rewrite E in E1. injection E1 as <-. by apply IH.
Qed.

(** The callbacks for [<html><head></head><body>...]: nodes 1, 2 and 3. *)
Definition frame_calls : list sink_call :=
  [SDoctype "html"; SCreateElement "html" NsHtml []; SAppend 0 (AppendNode 1);
   SCreateElement "head" NsHtml []; SAppend 1 (AppendNode 2);
   SCreateElement "body" NsHtml []; SAppend 1 (AppendNode 3)].
Definition page_1 : string := "<p>one</p><table>two".
Definition page_2 : string := "<!doctype html><body class=c><div><p>one</p>!</div><!--x-->".
Definition toy_parser (s : string) : list sink_call :=
  if String.eqb s (parser_input page_1) then
    frame_calls ++ [SCreateElement "p" NsHtml []; SAppend 3 (AppendNode 4); SAppend 4 (AppendText "one");
      SCreateElement "table" NsHtml []; SAppend 3 (AppendNode 6); SFoster 6 3 (AppendText "tw");
      SFoster 6 3 (AppendText "o")]
  else if String.eqb s page_2 then
    frame_calls ++ [SAddAttrs 3 [ex_attr "class" "c"]; SCreateElement "div" NsHtml []; SAppend 3 (AppendNode 4);
      SCreateElement "p" NsHtml []; SAppend 4 (AppendNode 5); SAppend 5 (AppendText "one"); SAppend 4 (AppendText "!");
      SCreateComment "x"; SAppend 3 (AppendNode 8)]
  else frame_calls.

Definition doc_of (o : outcome document) : document := match o with Val d => d | _ => mkDoc [] 0 None end.
Definition below_b (a : arena dnode) (b i : nat) : bool :=
  Nat.eqb b i || match is_ancestor a b i with Some false => false | _ => true end.
Definition plain_page_b (d : document) (b : nat) : bool :=
  match body d with Some x => Nat.eqb x b | None => false end &&
  match data (doc_arena d) b with Some (mkD (NElem t _) NsHtml) => String.eqb t "body" | _ => false end &&
  forallb (fun i => match data (doc_arena d) i with
                    | Some (mkD (NElem t l) _) =>
                        negb (is_opaque_props l) && (Nat.eqb i b || negb (String.eqb t "body"))
                    | _ => true
                    end) (seq 0 (length (doc_arena d))).
Lemma plain_page_b_sound d b : plain_page_b d b = true -> plain_page d b.
Proof.
  unfold plain_page_b. rewrite !andb_true_iff, forallb_forall. intros [[H1 H2] H3].
  assert (HA : forall i t l ns, data (doc_arena d) i = Some (mkD (NElem t l) ns) ->
    is_opaque_props l = false /\ (i = b \/ t <> "body")).
  { intros i t l ns E. specialize (H3 i). rewrite E in H3. rewrite andb_true_iff, orb_true_iff, !negb_true_iff in H3.
    destruct H3 as [H4 H5]; [apply in_seq; split; [lia|by eapply data_lt]|]. split; [done|].
    destruct H5 as [H5|H5]; [left; by apply Nat.eqb_eq|right; by apply String.eqb_neq]. }
  split.
  - destruct (body d) as [x|]; [|done]. apply Nat.eqb_eq in H1. by subst.
  - destruct (data (doc_arena d) b) as [[[|t l| |] [| |]]|]; try done. apply String.eqb_eq in H2 as ->. by exists l.
  - intros i tag ns l q v _ E Hin Hq. destruct (HA _ _ _ _ E) as [Ho _].
    assert (is_opaque_props l = true); [|congruence]. unfold is_opaque_props.
    apply existsb_exists. exists (q, v). split; [by apply elem_of_list_In|]. cbn. rewrite Hq. done.
  - intros i l _ E. destruct (HA _ _ _ _ E) as [_ [?|?]]; done.
Qed.

Definition parsed_1 : document := Eval vm_compute in doc_of (parse toy_parser page_1).
Definition parsed_2 : document := Eval vm_compute in doc_of (parse toy_parser page_2).
Lemma toy_well_behaved x : x = page_1 \/ x = page_2 -> all_well_behaved sink_new (toy_parser (parser_input x)).
Proof. intros [-> | ->]; (apply all_well_behaved_b_sound; [apply sink_new_wf|vm_compute; reflexivity]). Qed.
Lemma toy_1 : parse toy_parser page_1 = Val parsed_1. Proof. vm_compute. reflexivity. Qed.
Lemma toy_2 : parse toy_parser page_2 = Val parsed_2. Proof. vm_compute. reflexivity. Qed.
Lemma toy_plain_1 : plain_page parsed_1 3. Proof. apply plain_page_b_sound. vm_compute. reflexivity. Qed.
Lemma toy_plain_2 : plain_page parsed_2 3. Proof. apply plain_page_b_sound. vm_compute. reflexivity. Qed.
Lemma parsed_plain x d b : all_well_behaved sink_new (toy_parser (parser_input x)) -> parse toy_parser x = Val d ->
  plain_page d b -> exists ats ts, plain_doc d b ats ts.
Proof.
  intros W E P. destruct (parse_proper toy_parser x W) as (d' & E' & Q & N). rewrite E in E'. injection E' as <-.
  by apply plain_page_doc.
Qed.
Lemma toy_compared w ta tb m : compared phash_eqb PH PH0 parsed_1 parsed_2 w ta tb m ->
  no_collision phash_eqb ta tb /\ swap_free m (init_parents w tb m) (html_edit_script ta tb m).
Proof.
  intros C. split.
  - destruct (parsed_plain _ _ _ (toy_well_behaved _ (or_introl eq_refl)) toy_1 toy_plain_1) as (oats & ts & Do).
    destruct (parsed_plain _ _ _ (toy_well_behaved _ (or_intror eq_refl)) toy_2 toy_plain_2) as (nats & us & Dn).
    exact (compared_faithful phash_eqb PH PH0 parsed_1 parsed_2 3 3 oats nats ts us Do Dn w ta tb m phash_collision_free C).
  - apply (swap_check_sound parsed_1 parsed_2); [vm_compute; reflexivity|exact C].
Qed.

Example diff_html_example :
  (forall x, x = page_1 \/ x = page_2 -> all_well_behaved sink_new (toy_parser (parser_input x))) /\
  parse toy_parser page_1 = Val parsed_1 /\ parse toy_parser page_2 = Val parsed_2 /\
  plain_page parsed_1 3 /\ plain_page parsed_2 3 /\
  (forall w ta tb m, compared phash_eqb PH PH0 parsed_1 parsed_2 w ta tb m ->
     no_collision phash_eqb ta tb /\ swap_free m (init_parents w tb m) (html_edit_script ta tb m)) /\
  to_body_html parsed_1 = Some "<p>one</p>two<table></table>" /\ doc_doctype parsed_1 = None /\
  to_body_html parsed_2 = Some "<div><p>one</p>!</div><!--x-->" /\ doc_doctype parsed_2 = Some "html" /\
  (exists ps, diff_html phash_eqb PH PH0 toy_parser page_1 page_2 = Val ps /\ length ps = 9) /\
  diff_html phash_eqb PH PH0 toy_parser page_1 page_1 = Val [].
Proof.
  split; [exact toy_well_behaved|]. split; [exact toy_1|]. split; [exact toy_2|].
  split; [exact toy_plain_1|]. split; [exact toy_plain_2|]. split; [exact toy_compared|].
  split; [vm_compute; reflexivity|]. split; [vm_compute; reflexivity|]. split; [vm_compute; reflexivity|].
  split; [vm_compute; reflexivity|]. split; [|vm_compute; reflexivity].
  eexists. split; [vm_compute; reflexivity|vm_compute; reflexivity].
Qed.
