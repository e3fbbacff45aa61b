(** Property theorems on what patches carry: C51. *)
From stdpp Require Import list_numbers.
From Coq Require Import NArith.
From Verif Require Import Base Arena ArenaProofs Dom Matching Chawathe HtmlDiff MatchProofs DomTree TreeProofs DtreeProofs BuildProofs ConvProofs
  RoundProofs AssembleProofs NestProofs DiffTotal PayloadProofs NumberProofs Instances InstanceProofs HashProofs PropSelf PropRoundtrip
  Server ServerProofs PropServer Browser BrowserProofs PropBrowser PropClient Wire WireProofs PropWire.
Local Open Scope string_scope.

(** ** Origin *)

(** [drawn_from a b p] ([PayloadProofs.v]): inserted elements are nodes of the
    subtree of [b], with tag and attributes, their content consists of nodes
    below them; inserted and replaced texts are texts of nodes there; updated
    attributes are all attributes of a node there; replaced opaque content is
    the inner HTML of a marked node there.  So nothing is sent that is not in
    the body of the new page, in particular nothing of the old page. *)
Theorem patches_from_new_page : forall {H} (heqb : H -> H -> bool) hcomb h0 old new nb ps,
  html_body new -> body new = Some nb -> diff heqb hcomb h0 old new = Val ps ->
  Forall (drawn_from (doc_arena new) nb) ps.
Proof. intros. eapply diff_drawn; [|done|done]. by apply html_inside. Qed.
Print Assumptions patches_from_new_page.

Theorem patches_without_body : forall {H} (heqb : H -> H -> bool) hcomb h0 old new ps,
  body new = None -> diff heqb hcomb h0 old new = Val ps -> Forall (fun p => exists k, p = PRemove [0; k]) ps.
Proof.
  intros H heqb hcomb h0 old new ps En E. unfold diff in E. rewrite En in E.
  destruct (body old) as [ob|]; [|by injection E as <-]. injection E as <-. apply Forall_forall.
  intros p Hp. apply elem_of_list_fmap in Hp as (k & -> & _). by exists k.
Qed.
Print Assumptions patches_without_body.

(** ** Numbers *)

(** The numbers in a patch: path steps and slot. *)
Definition onum (o : option nat) : list nat := match o with Some k => [k] | None => [] end.
Definition patch_numbers (p : patch) : list nat :=
  match p with
  | PInsertElement q _ _ _ o | PInsertText q _ o | PInsertComment q _ o => (q ++ onum o)%list
  | PMove q q' o => (q ++ q' ++ onum o)%list
  | PRemove q | PSetText q _ | PSetAttribute q _ _ | PRemoveAttribute q _ | PUpdateProps q _ | POpaqueChanged q _ => q
  end.

(** The Rust code keeps these numbers in [u32] (some by [as u32]); with fewer
    than 2^29 nodes and patches nothing is truncated.  No assumption on the two
    documents beyond being trees. *)
Theorem patch_numbers_bounded : forall {H} (heqb : H -> H -> bool) hcomb h0 old new ps,
  wf (doc_arena old) -> html_body old -> wf (doc_arena new) -> diff heqb hcomb h0 old new = Val ps ->
  forall p n, p ∈ ps -> n ∈ patch_numbers p ->
  n <= length (doc_arena old) + length (doc_arena new) + 2 + 4 * length ps.
Proof.
  intros H heqb hcomb h0 old new ps WO HO WN E p n Hp Hn.
  pose proof (diff_numbers heqb hcomb h0 old new ps WO HO WN E) as HF. rewrite Forall_forall in HF. specialize (HF p Hp).
  assert (forall N L q, spath N L q -> n ∈ q -> n <= N) as HS.
  { intros N L q [HS _] Hq. unfold small in HS. rewrite Forall_forall in HS. by apply HS. }
  assert (forall N o, osmall N o -> n ∈ onum o -> n <= N) as HO'.
  { intros N [k|] Ho Hk; cbn in *; [by apply elem_of_list_singleton in Hk as ->|by apply elem_of_nil in Hk]. }
  destruct p; cbn [numbers patch_numbers] in *; rewrite ?elem_of_app in Hn;
    repeat match goal with H : _ /\ _ |- _ => destruct H | H : _ \/ _ |- _ => destruct H end;
    first [eapply HO'; eassumption|eapply HS; [|eassumption]; eassumption].
Qed.
Print Assumptions patch_numbers_bounded.

(** ** Over the wire *)

(** A page whose strings are at most as long as memory and whose attribute names
    have no empty prefix. *)
Record postable (d : document) : Prop := {
  po_elem : forall i t l, node_kind (doc_arena d) i = Some (NElem t l) ->
    short t /\ seq fits_attr l /\ Forall prefixed (keys l);
  po_text : forall i s, node_kind (doc_arena d) i = Some (NText s) \/ node_kind (doc_arena d) i = Some (NComment s) -> short s;
  po_inner : forall i s, serialize_inner_html (doc_arena d) i = Some s -> short s
}.

Lemma piece_fits d i c : wf (doc_arena d) -> usize (length (doc_arena d)) -> postable d -> piece (doc_arena d) i c ->
  fits_content c /\ Forall prefixed (content_names c).
Proof.
  intros W HL PO. revert i. induction c as [s|s|tag ats cs IH] using content_ind'; intros i HP.
  - inversion HP; subst. split; [by eapply po_text; eauto|constructor].
  - inversion HP; subst. split; [by eapply po_text; eauto|constructor].
  - inversion HP as [| |? ? ? js ? Ek Hs HF]; subst. destruct (po_elem d PO _ _ _ Ek) as (H1 & H2 & H3).
    assert (Forall (fun c => fits_content c /\ Forall prefixed (content_names c)) cs) as HC.
    { apply Forall_forall. intros c Hc. apply elem_of_list_lookup in Hc as (k & Hk).
      destruct (Forall2_lookup_r _ _ _ _ _ HF Hk) as (j & _ & Hj). eapply IH; [|exact Hj]. by eapply elem_of_list_lookup_2. }
    split.
    + apply fits_elem. split; [done|]. split; [done|]. split.
      * pose proof (Forall2_length _ _ _ HF) as E. pose proof (sublist_length _ _ Hs). pose proof (wf_fan _ W i).
        unfold usize in *. lia.
      * eapply Forall_impl; [exact HC|]. naive_solver.
    + cbn. apply Forall_app. split; [done|]. clear -HC. induction HC as [|c cs [_ H1] _ IH]; [constructor|].
      cbn. by apply Forall_app.
Qed.

Lemma change_fits ch l : Forall2 (fun c kv => pc_name c = PAttr (fst kv) /\ (pc_value c = None \/ pc_value c = Some (snd kv))) ch l ->
  seq fits_attr l -> Forall prefixed (keys l) ->
  seq fits_change ch /\ Forall prefixed (flat_map (fun c => match pc_name c with PAttr q => [q] | PText => [] end) ch).
Proof.
  intros HF [Hn Hl] Hp. split; [split|].
  - by rewrite (Forall2_length _ _ _ HF).
  - clear Hn Hp. induction HF as [|c [q v] ch l [H1 H2] HF IH]; [constructor|]. inversion Hl as [|? ? [H3 H4] H5]; subst.
    constructor; [|by apply IH]. cbn in *. split; [by rewrite H1|]. destruct H2 as [->| ->]; [done|]. exact H4.
  - clear Hn Hl. induction HF as [|c [q v] ch l [H1 H2] HF IH]; [constructor|]. cbn in *. inversion Hp; subst.
    rewrite H1. cbn. constructor; [done|by apply IH].
Qed.

(** Patches computed by [diff] are read in the browser exactly as they were
    written. *)
Theorem diff_survives_wire : forall {H} (heqb : H -> H -> bool) hcomb h0 old new ps,
  wf (doc_arena old) -> html_body old -> wf (doc_arena new) -> html_body new -> postable new ->
  (N.of_nat (length (doc_arena old)) < 2 ^ 29)%N -> (N.of_nat (length (doc_arena new)) < 2 ^ 29)%N ->
  (N.of_nat (length ps) < 2 ^ 29)%N ->
  diff heqb hcomb h0 old new = Val ps -> seq fits_patch ps /\ from_blob (to_blob ps) = Some ps.
Proof.
  intros H heqb hcomb h0 old new ps WO HO WN HN PO LO LN LP E.
  pose proof (diff_numbers heqb hcomb h0 old new ps WO HO WN E) as HB.
  assert (forall q, spath (length (doc_arena old) + length (doc_arena new) + 2 + 4 * length ps)
     (length (doc_arena old) + (length (doc_arena new) + 3) * length ps + 5) q -> fits_path q) as HQ.
  { intros q [H1 H2]. split.
    - unfold usize. assert (N.of_nat (length (doc_arena old) + (length (doc_arena new) + 3) * length ps + 5) < 2 ^ 64)%N; [|lia].
      rewrite !Nat2N.inj_add, Nat2N.inj_mul, Nat2N.inj_add.
      generalize dependent (N.of_nat (length (doc_arena old))). generalize dependent (N.of_nat (length (doc_arena new))).
      generalize dependent (N.of_nat (length ps)). clear. intros z Hz y Hy x Hx.
      assert ((y + N.of_nat 3) * z <= 2 ^ 30 * 2 ^ 29)%N by (apply N.mul_le_mono; lia). lia.
    - eapply Forall_impl; [exact H1|]. unfold u32. cbn beta. lia. }
  assert (forall o, osmall (length (doc_arena old) + length (doc_arena new) + 2 + 4 * length ps) o -> opt u32 o) as HS.
  { intros [k|]; cbn; [|done]. unfold u32. lia. }
  assert (Forall (fun p => fits_patch p /\ Forall prefixed (patch_names p)) ps) as HF.
  { destruct (body new) as [nb|] eqn:Eb.
    - pose proof (patches_from_new_page heqb hcomb h0 old new nb ps HN Eb E) as HD.
      rewrite Forall_forall in HB, HD. apply Forall_forall. intros p Hp. specialize (HB p Hp). specialize (HD p Hp).
      assert (usize (length (doc_arena new))) as LU by (unfold usize; lia).
      destruct p as [q tag ats cs o|q s o|q s o|q|q s|q n v|q n|q q' o|q ch|q s]; cbn [numbers drawn_from fits_patch patch_names] in *.
      + destruct HD as (i & _ & HP). apply (piece_fits new i _ WN LU PO) in HP as [H1 H2].
        apply fits_elem in H1 as (H1 & H3 & H4). destruct HB. split; [|done]. auto 6.
      + destruct HD as (i & _ & Hk). destruct HB. split; [|constructor]. repeat split; try by auto. all: try (by apply HQ). eapply (po_text new PO); eauto.
      + destruct HD as (i & _ & Hk). destruct HB. split; [|constructor]. repeat split; try by auto. all: try (by apply HQ). eapply (po_text new PO); eauto.
      + split; [by apply HQ|constructor].
      + destruct HD as (i & _ & Hk). split; [|constructor]. split; [by apply HQ|]. by eapply (po_text new PO).
      + done.
      + done.
      + destruct HB as (H1 & H2 & H3). split; [|constructor]. auto.
      + destruct HD as [->|(i & t & l & _ & Ek & H2)].
        * split; [|constructor]. split; [by apply HQ|]. by split.
        * destruct (po_elem new PO _ _ _ Ek) as (_ & H3 & H4). destruct (change_fits ch l H2 H3 H4). split; [|done].
          split; [by apply HQ|done].
      + destruct HD as (i & t & l & _ & Ek & _ & Es). split; [|constructor]. split; [by apply HQ|]. by eapply (po_inner new PO).
    - pose proof (patches_without_body heqb hcomb h0 old new ps Eb E) as HD.
      rewrite Forall_forall in HB, HD. apply Forall_forall. intros p Hp. specialize (HB p Hp). destruct (HD p Hp) as (k & ->).
      split; [by apply HQ|constructor]. }
  assert (seq fits_patch ps) as HP.
  { split; [unfold usize; lia|]. eapply Forall_impl; [exact HF|]. naive_solver. }
  split; [done|]. apply blob_roundtrip_exact; [done|]. intros p Hp. rewrite Forall_forall in HF. by apply HF.
Qed.
Print Assumptions diff_survives_wire.

(** ** A live client over the wire: C40 *)

Lemma patch_count_docs : forall {H} (heqb : H -> H -> bool) hcomb h0 (old new : document) ob nb oats nats ts us ps,
  plain_doc old ob oats ts -> plain_doc new nb nats us -> comparable heqb hcomb h0 old new ->
  diff heqb hcomb h0 old new = Val ps ->
  length ps <= length (doc_arena old) + 4 * length (doc_arena new).
Proof.
  intros H heqb hcomb h0 old new ob nb oats nats ts us ps PO PN HC E.
  destruct (compared_total heqb hcomb h0 old new ob nb oats nats ts us PO PN) as (t & ta & tb & m & CM).
  destruct (HC t ta tb m CM) as [NC SF].
  destruct (patch_count heqb hcomb h0 old new ob nb oats nats ts us t ta tb m PO PN CM NC SF) as (ps' & E' & Hle).
  rewrite E in E'. injection E' as <-.
  destruct (compared_presents heqb hcomb h0 old new ob nb oats nats ts us PO PN t ta tb m CM) as (ra & rb & PA & PB).
  destruct (compared_matching heqb hcomb h0 old new ob nb oats nats ts us PO PN t ta tb m CM NC) as (BJ & _ & _).
  destruct CM as (ob' & nb' & EO & EN & Et & Ea & Eb & Em).
  destruct (html_matching_pairs heqb ta tb ra rb m PA PB Em) as [HI HI2].
  assert (forall {A} (f : A -> bool) l, length (List.filter f l) <= length l) as HFl.
  { intros A f l. induction l as [|x l IH]; cbn; [lia|]. destruct (f x); cbn; lia. }
  pose proof (HFl _ (fun b => match get_a m b with Some _ => false | None => true end) (t_iter tb)).
  pose proof (HFl _ (fun a => match get_b m a with Some _ => false | None => true end) (t_iter ta)).
  assert (length (t_iter tb) <= length (doc_arena new)) as HB.
  { destruct (tree_exists (doc_arena new) nb' (pd_wf _ _ _ _ PN)) as (r & Er & Hr).
    unfold mk_dtree in Eb. rewrite <- Er, (descendants_spec _ _ (pd_wf _ _ _ _ PN) Hr) in Eb. cbn [ofuel obind] in Eb.
    bnd Eb po Epo. injection Eb as <-. cbn. apply is_tree_size; [apply (pd_wf _ _ _ _ PN)|done|]. rewrite Er.
    destruct (body_data new nb' EN) as (x & Ex). by apply data_lt in Ex. }
  assert (html_body old) as HBO.
  { intros b Hb. rewrite (pd_body _ _ _ _ PO) in Hb. injection Hb as <-. exists ts. apply (pd_holds _ _ _ _ PO). }
  assert (length (t_iter ta) <= length (doc_arena old)) as HA.
  { destruct (build_tree_small old ob' t (pd_wf _ _ _ _ PO) HBO EO Et) as [HL _].
    destruct (body_data old ob' EO) as (x & Ex). destruct (HBO ob' EO) as (hs & Hh).
    destruct (build_tree_ok _ _ _ _ (pd_wf _ _ _ _ PO) Ex Hh) as (t' & Et' & HT). rewrite Et in Et'. injection Et' as <-.
    destruct (tree_exists t 0 (bt_wf _ _ _ HT)) as (r & Er & Hr).
    unfold mk_dtree in Ea. rewrite <- Er, (descendants_spec _ _ (bt_wf _ _ _ HT) Hr) in Ea. cbn [ofuel obind] in Ea.
    bnd Ea po Epo. injection Ea as <-. cbn. etransitivity; [|exact HL]. apply is_tree_size; [apply HT|done|]. rewrite Er.
    eapply data_lt. apply (bt_root _ _ _ HT). }
  assert (length (m_pairs m) <= length (t_iter tb)) as HM.
  { rewrite <- (map_length snd). apply submseteq_length, NoDup_submseteq.
    - by apply bij_nodup_b.
    - intros y Hy. apply elem_of_list_fmap in Hy as ([x y'] & -> & Hxy). by apply (HI x y'). }
  lia.
Qed.

(** What a browser that has page [r] open does with patches sent to it: the
    server writes an event as bytes, the browser reads it and then the patches in
    it (hotmeal-wasm/src/lib.rs:208-235, 172-181). *)
Definition wire_apply (valid_elem valid_attr : string -> bool) (parse_template : string -> list htree)
    (r : string) (c : document) (ps : list patch) : document * outcome unit :=
  match from_postcard (to_postcard (to_wire (EvPatches r ps))) with
  | Some (WPatches _ blob) =>
      match from_blob blob with
      | Some ps' => browser_apply valid_elem valid_attr parse_template c ps'
      | None => (c, Fail DomException)
      end
  | _ => (c, Fail DomException)
  end.

Lemma wire_apply_eq ve va pt r c ps : short r -> short (to_blob ps) -> from_blob (to_blob ps) = Some ps ->
  wire_apply ve va pt r c ps = browser_apply ve va pt c ps.
Proof.
  intros Hr Hb E. unfold wire_apply. cbn [to_wire]. rewrite event_roundtrip by done. by rewrite E.
Qed.

Section Wire.
  Context {H : Type}.
  Variables (heqb : H -> H -> bool) (hcomb : hkind -> option string -> list H -> H) (h0 : H).
  Variable parse_page : string -> document.
  Variable page : string -> Prop.
  Hypothesis PP : forall h, page h -> exists b ats ts, plain_doc (parse_page h) b ats ts.
  Hypothesis PC : forall h h', page h -> page h' -> comparable heqb hcomb h0 (parse_page h) (parse_page h').
  (** Pages are not too large. *)
  Hypothesis PS : forall h, page h -> postable (parse_page h) /\ (N.of_nat (length (doc_arena (parse_page h))) < 2 ^ 26)%N.
  Hypothesis PB : forall o h ps, page o -> page h -> diff_pages heqb hcomb h0 parse_page o h = Some ps -> short (to_blob ps).

  Lemma pages_survive_wire o h ps : page o -> page h -> diff_pages heqb hcomb h0 parse_page o h = Some ps ->
    short (to_blob ps) /\ from_blob (to_blob ps) = Some ps.
  Proof.
    intros Ho Hh E. split; [exact (PB o h ps Ho Hh E)|]. unfold diff_pages in E.
    destruct (diff heqb hcomb h0 (parse_page o) (parse_page h)) as [ps'| | |] eqn:Ed; try done. injection E as ->.
    destruct (PP o Ho) as (ob & oats & ts & PO). destruct (PP h Hh) as (nb & nats & us & PN).
    destruct (PS o Ho) as [_ LO]. destruct (PS h Hh) as [PT LN].
    pose proof (patch_count_docs heqb hcomb h0 _ _ _ _ _ _ _ _ ps PO PN (PC o h Ho Hh) Ed) as HL.
    assert (forall d b ats ts, plain_doc d b ats ts -> html_body d) as HB.
    { intros d b ats ts0 P b' Hb. rewrite (pd_body _ _ _ _ P) in Hb. injection Hb as <-. exists ts0. apply P. }
    eapply diff_survives_wire; [apply PO|by eapply HB|apply PN|by eapply HB|done| | | |exact Ed]; lia.
  Qed.

  (** As [browser_converges], with everything the browser receives going
      through bytes. *)
  Theorem browser_converges_wire : forall valid_elem valid_attr parse_template (load : string -> document)
      (r html : string) (pre hist : list call),
    (forall h b ats ts, page h -> plain_doc (parse_page h) b ats ts ->
       (exists cb, wf (doc_arena (load h)) /\ body (load h) = Some cb /\
          holds_list (doc_arena (load h)) (map btree ts) (children (doc_arena (load h)) cb)) /\
       (forall t, t ∈ ts -> names_ok valid_elem valid_attr t) /\ b_okn valid_elem valid_attr "body" ats) ->
    short r ->
    last_html r (rev pre) = Some html -> page html ->
    (forall k, k ∈ hist -> overwrites r k = false /\ forall h, page_of r k = Some h -> page h) ->
    exists s' c',
      live (diff_pages heqb hcomb h0 parse_page) load (wire_apply valid_elem valid_attr parse_template r) r
        (run (diff_pages heqb hcomb h0 parse_page) pre, load html) hist = Val (s', c') /\
      forall h, last_html r (rev (pre ++ hist)%list) = Some h -> to_body_html c' = to_body_html (parse_page h).
  Proof.
    intros ve va pt load r html pre hist HB Hr Hl Hp Hk.
    destruct (browser_converges heqb hcomb h0 parse_page page PP PC ve va pt load r html pre hist HB Hl Hp Hk)
      as (s' & c' & E & Hs).
    exists s', c'. split; [|done]. rewrite <- E. clear E Hs s' c'.
    assert (forall o, hm_get (html_cache (run (diff_pages heqb hcomb h0 parse_page) pre)) r = Some o -> page o) as Hc.
    { intros o Ho. rewrite (proj1 (run_spec (diff_pages heqb hcomb h0 parse_page) pre r)), Hl in Ho. by injection Ho as <-. }
    clear Hl Hp HB. generalize (load html) as c. revert Hc. generalize (run (diff_pages heqb hcomb h0 parse_page) pre) as s.
    assert (forall s h c, page h -> (forall o, hm_get (html_cache s) r = Some o -> page o) ->
      client_step load (wire_apply ve va pt r) h c (snd (diff_route (diff_pages heqb hcomb h0 parse_page) s r h)) =
      client_step load (browser_apply ve va pt) h c (snd (diff_route (diff_pages heqb hcomb h0 parse_page) s r h))) as HC.
    { intros s h c Hh Hc. unfold diff_route. destruct (hm_get (html_cache s) r) as [o|] eqn:Eo; [|done].
      destruct (String.eqb o h); [done|].
      destruct (diff_pages heqb hcomb h0 parse_page o h) as [ps|] eqn:Ed; [|done].
      destruct (pages_survive_wire o h ps (Hc o eq_refl) Hh Ed) as [H1 H2].
      destruct ps as [|p ps]; [done|]. cbn [snd client_step]. by rewrite wire_apply_eq. }
    induction hist as [|k hist IH]; intros s Hc c; [done|].
    destruct (Hk k ltac:(left)) as [Ho Hpg]. cbn [live].
    assert (live_step (diff_pages heqb hcomb h0 parse_page) load (wire_apply ve va pt r) r (s, c) k =
            live_step (diff_pages heqb hcomb h0 parse_page) load (browser_apply ve va pt) r (s, c) k) as ->.
    { destruct k as [r' x|r' x|r' x|r' x i|r'|]; cbn [live_step page_of] in *; try done.
      - destruct (String.eqb_spec r' r) as [->|]; [|done]. pose proof (HC s x c (Hpg x eq_refl) Hc) as E1.
        destruct (diff_route _ s r x) as [s' e]. cbn [snd] in E1. by rewrite E1.
      - destruct (String.eqb_spec r' r) as [->|]; [|done].
        assert (client_step load (wire_apply ve va pt r) x c (snd (diff_route_with_head (diff_pages heqb hcomb h0 parse_page) s r x i)) =
          client_step load (browser_apply ve va pt) x c (snd (diff_route_with_head (diff_pages heqb hcomb h0 parse_page) s r x i))) as E1.
        { unfold diff_route_with_head, cache_head. match goal with |- context [if ?c then _ else _] => destruct c end; [done|].
          apply HC; [by apply Hpg|done]. }
        destruct (diff_route_with_head _ s r x i) as [s' e]. cbn [snd] in E1. by rewrite E1. }
    destruct (live_step (diff_pages heqb hcomb h0 parse_page) load (browser_apply ve va pt) r (s, c) k) as [[s1 c1]| | |] eqn:El; try done.
    cbn [obind]. apply IH; [intros k' Hk'; apply Hk; by right|].
    assert (s1 = step (diff_pages heqb hcomb h0 parse_page) s k) as ->.
    { destruct k as [r' x|r' x|r' x|r' x i|r'|]; cbn [live_step step] in *; try (by injection El as <- _).
      - destruct (diff_route _ s r' x) as [s' e]. destruct (String.eqb r' r); [bnd El c2 E2|]; by injection El as <- _.
      - destruct (diff_route_with_head _ s r' x i) as [s' e]. destruct (String.eqb r' r); [bnd El c2 E2|]; by injection El as <- _. }
    intros o Eo. rewrite (proj1 (step_spec (diff_pages heqb hcomb h0 parse_page) s k r)) in Eo.
    destruct k as [r' x|r' x|r' x|r' x i|r'|]; cbn [overwrites page_of] in *.
    - rewrite Ho in Eo. by apply Hc.
    - by apply Hc.
    - destruct (String.eqb_spec r' r); [injection Eo as <-; by apply Hpg|by apply Hc].
    - destruct (String.eqb_spec r' r); [injection Eo as <-; by apply Hpg|by apply Hc].
    - destruct (String.eqb r' r); [done|by apply Hc].
    - done.
  Qed.
End Wire.
Print Assumptions browser_converges_wire.

(** ** Examples *)

Definition shortb (s : string) : bool := N.ltb (N.of_nat (String.length s)) (2 ^ 64).
Definition attr_postable (kv : attr) : bool :=
  match q_prefix (fst kv) with Some "" => false | Some p => shortb p | None => true end
  && shortb (q_ns (fst kv)) && shortb (q_local (fst kv)) && shortb (snd kv).
Definition postable_at (d : document) (i : nat) : bool :=
  match node_kind (doc_arena d) i with
  | Some (NElem t l) => shortb t && N.ltb (N.of_nat (length l)) (2 ^ 64) && forallb attr_postable l
  | Some (NText s) | Some (NComment s) => shortb s
  | _ => true
  end && match serialize_inner_html (doc_arena d) i with Some s => shortb s | None => true end.
Lemma shortb_ok s : shortb s = true -> short s.
Proof. by apply N.ltb_lt. Qed.
Lemma postable_check d : forallb (postable_at d) (List.seq 0 (length (doc_arena d))) = true -> postable d.
Proof.
  intros C. rewrite forallb_forall in C.
  assert (forall i k, node_kind (doc_arena d) i = Some k -> postable_at d i = true) as HC.
  { intros i k Hk. apply C. apply in_seq. unfold node_kind in Hk.
    destruct (data (doc_arena d) i) eqn:E; [|done]. apply data_lt in E. lia. }
  split.
  - intros i t l Hk. pose proof (HC i _ Hk) as Hp. unfold postable_at in Hp. rewrite Hk in Hp.
    apply andb_true_iff in Hp as [Hp _]. apply andb_true_iff in Hp as [Hp H3]. apply andb_true_iff in Hp as [H1 H2].
    split; [by apply shortb_ok|]. rewrite forallb_forall in H3.
    assert (forall kv, kv ∈ l -> fits_attr kv /\ prefixed (fst kv)) as HA.
    { intros [q v] Hkv. apply elem_of_list_In in Hkv. specialize (H3 _ Hkv). unfold attr_postable in H3. cbn [fst snd] in H3.
      apply andb_true_iff in H3 as [H3 X4]. apply andb_true_iff in H3 as [H3 X3]. apply andb_true_iff in H3 as [X1 X2].
      unfold prefixed, fits_attr, fits_qname. cbn [fst snd].
      destruct (q_prefix q) as [[|c p]|]; [done| |]; (split; [|done]); repeat split; try (by apply shortb_ok). }
    split; [split; [by apply N.ltb_lt|]|]; apply Forall_forall.
    + intros kv Hkv. by apply HA.
    + intros q Hq. unfold keys in Hq. apply elem_of_list_fmap in Hq as (kv & -> & Hkv). by apply HA.
  - intros i s Hk. assert (postable_at d i = true) as Hp by (destruct Hk; by eapply HC). unfold postable_at in Hp.
    apply shortb_ok. destruct Hk as [Hk|Hk]; rewrite Hk in Hp; by apply andb_true_iff in Hp as [Hp _].
  - intros i s Hs. destruct (decide (i < length (doc_arena d))) as [Hi|Hi].
    + assert (postable_at d i = true) as Hp by (apply C, in_seq; lia). unfold postable_at in Hp. rewrite Hs in Hp.
      apply shortb_ok. by apply andb_true_iff in Hp as [_ Hp].
    + unfold serialize_inner_html in Hs. rewrite children_ge in Hs by lia. cbn in Hs. injection Hs as <-. done.
Qed.

Lemma mk_doc_html head body : html_body (mk_doc head body).
Proof.
  intros b Hb. destruct (mk_doc_ok head body) as (_ & _ & _ & _ & _ & _ & _ & _ & Hc & Eb).
  rewrite Eb in Hb. injection Hb as <-. by exists body.
Qed.
Lemma mk_doc_wf head body : wf (doc_arena (mk_doc head body)).
Proof. by destruct (mk_doc_ok head body) as (W & _). Qed.

Definition pay_old : document := mk_doc [] [el "p" [tx "secret"]; el "ul" [el "li" [tx "a"]; el "li" [tx "b"]]].
Definition pay_new : document :=
  mk_doc [el "title" [tx "t"]]
    [el_a "ul" [ex_attr "class" "k"] [el "li" [tx "b"]; el "li" [tx "c"; HComment "n"]]; el "hr" []].

(** Hypotheses and result of the theorems on two documents: eleven
    patches, numbers up to 4. *)
Example payload_example :
  wf (doc_arena pay_old) /\ html_body pay_old /\ wf (doc_arena pay_new) /\ html_body pay_new /\
  body pay_new = Some 2 /\ postable pay_new /\
  exists ps, diff phash_eqb PH PH0 pay_old pay_new = Val ps /\ 5 <= length ps /\
    flat_map patch_numbers ps <> [] /\ (N.of_nat (length ps) < 2 ^ 29)%N /\ from_blob (to_blob ps) = Some ps.
Proof.
  split; [apply mk_doc_wf|]. split; [apply mk_doc_html|]. split; [apply mk_doc_wf|]. split; [apply mk_doc_html|].
  split; [vm_compute; reflexivity|]. split; [apply postable_check; vm_compute; reflexivity|].
  eexists. split; [vm_compute; reflexivity|]. split; [cbn; lia|]. split; [discriminate|]. split; [cbn; lia|]. vm_compute. reflexivity.
Qed.

Example without_body_example :
  body (mkDoc [mkNode (mkD NDocument NsHtml) None []] 0 None) = None /\
  diff phash_eqb PH PH0 pay_old (mkDoc [mkNode (mkD NDocument NsHtml) None []] 0 None) = Val [PRemove [0; 1]; PRemove [0; 0]].
Proof. split; vm_compute; reflexivity. Qed.

(** The three pages of [PropClient.v]; the hypotheses on names are checked there. *)
Definition ex_three (h : string) : Prop := h = "1" \/ h = "2" \/ h = "3".
Example wire_client_example :
  (forall h, ex_three h -> exists b ats ts, plain_doc (ex_page h) b ats ts) /\
  (forall h h', ex_three h -> ex_three h' -> comparable phash_eqb PH PH0 (ex_page h) (ex_page h')) /\
  (forall h, ex_three h -> postable (ex_page h) /\ (N.of_nat (length (doc_arena (ex_page h))) < 2 ^ 26)%N) /\
  (forall o h ps, ex_three o -> ex_three h -> diff_pages phash_eqb PH PH0 ex_page o h = Some ps -> short (to_blob ps)) /\
  match live (diff_pages phash_eqb PH PH0 ex_page) ex_load (wire_apply ex_name ex_name no_parser "/") "/"
      (run (diff_pages phash_eqb PH PH0 ex_page) [CCacheHtml "/" "1"], ex_load "1")
      [CDiff "/" "2"; CDiffHead "/" "3" ""; CDiff "/x" "1"; CDiff "/" "2"; CDiff "/" "2"; CDiff "/" "1"] with
  | Val (_, c) => to_body_html c = Some "<p>one</p><p xml:lang=""en"">two</p>end"
  | _ => False
  end.
Proof.
  destruct client_example as [HP _].
  split; [intros h Hh; destruct (HP h Hh) as (b & ats & ts & P & _); eauto|]. split.
  { intros h h' Hh Hh' t ta tb m CM. destruct (HP h Hh) as (b & ats & ts & P & R).
    destruct (HP h' Hh') as (b' & ats' & ts' & P' & R').
    pose proof (compared_faithful phash_eqb PH PH0 _ _ b b' ats ats' ts ts' P P' t ta tb m phash_collision_free CM) as NC.
    split; [done|]. by apply (ranked_compared phash_eqb PH PH0 _ _ b b' ats ats' ts ts' P P' ex_rank t ta tb m CM NC). }
  split.
  { intros h [->|[->| ->]]; (split; [apply postable_check; vm_compute; reflexivity|vm_compute; reflexivity]). }
  split; [|vm_compute; reflexivity].
  intros o h ps [->|[->| ->]] [->|[->| ->]] E; vm_compute in E; injection E as <-; vm_compute; reflexivity.
Qed.
