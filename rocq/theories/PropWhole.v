(** C81: the whole page after the patches of [diff]; the fuzz target
    apply_structured.rs. *)
From stdpp Require Import list_numbers.
From Verif Require Import Base Arena Matching Chawathe Dom HtmlDiff Fuzz
  AttrProofs ArenaProofs ArenaOps TreeProofs DtreeProofs MatchProofs DomTree ApplyProofs FrameProofs Applier
  ShadowProofs SimProofs ConvProofs RoundProofs AssembleProofs NestProofs Instances InstanceProofs HashProofs MountProofs BodyProofs
  PropMatch PropFrame PropRoundtrip PropSelf PropAlike WfCheck.
Local Open Scope string_scope.

(** ** The body element *)

Lemma rebuild_new l nats : rebuild_attrs l (props_diff [] nats) = nats.
Proof.
  unfold props_diff. generalize (order_differs [] nats). generalize false.
  induction nats as [|[q v] nats IH]; intros fc od; [done|]. cbn [props_diff_loop attr_get]. unfold rebuild_attrs in *.
  cbn [flat_map pc_name pc_value andb app]. by rewrite IH.
Qed.

Lemma body_data {H} (heqb : H -> H -> bool) hcomb h0 (parse : string -> list htree) old new ob nb oats nats ts us ps d' :
  mild_doc old ob oats ts -> mild_doc new nb nats us ->
  (forall t ta tb m, compared heqb hcomb h0 old new t ta tb m ->
     no_collision heqb ta tb /\ swap_free m (init_parents t tb m) (html_edit_script ta tb m) /\
     opaque_silent heqb ta tb m) ->
  diff heqb hcomb h0 old new = Val ps -> apply_patches parse old ps = (d', Val tt) ->
  data (doc_arena d') ob = Some (mkD (NElem "body" (match nats with [] => oats | _ => nats end)) NsHtml).
Proof.
  intros PO PN HC Ed Ea.
  destruct (compared_total heqb hcomb h0 old new ob nb oats nats ts us PO PN) as (t & ta & tb & m & CM).
  destruct (HC t ta tb m CM) as (NC & SF & SI).
  destruct (diff_run heqb hcomb h0 old new ob nb oats nats ts us PO PN parse t ta tb m CM NC SF SI)
    as (ps' & D' & sl & Ed' & Er & _ & _ & _ & Hh & _).
  rewrite Ed in Ed'. injection Ed' as <-.
  assert (doc_arena d' = D') as ->.
  { unfold apply_patches in Ea. destruct ps as [|p ps].
    - injection Ea as <-. by injection Er.
    - rewrite (init_slots old ob (md_body _ _ _ _ PO)) in Ea. cbn [obind] in Ea.
      pose proof (f_equal (fun r : presult => let '((a, _), o) := r in
        (mkDoc a (doc_root old) (doc_doctype old), o)) Er) as Ef. cbn beta iota in Ef.
      assert (mkDoc D' (doc_root old) (doc_doctype old) = d') as <-; [|done].
      etransitivity; [exact (f_equal fst (eq_sym Ef))|]. exact (f_equal fst Ea). }
  destruct (diff_first heqb hcomb h0 old new ob nb oats nats ts us t ta tb m ps PO PN CM NC Ed)
    as (U & R & -> & HU & HR & HI & HN).
  set (Out := fun j => j < length (doc_arena old) /\ ~ above (doc_arena old) ob j).
  assert (ob < length (doc_arena old)) as Lb by (eapply data_lt; apply PO).
  assert (~ Out ob) as Nb. { intros [_ HA]. apply HA, above_refl, PO. }
  pose proof (framed_start (doc_arena old) ob (md_wf _ _ _ _ PO) Lb) as F0.
  assert (sl_framed Out ob [(0, ob)]) as S0.
  { intros [|k] v; [|done]. intros [= <-]. done. }
  rewrite <- run_all_native, run_all_app, !run_all_native in Er.
  destruct (apply_all parse (doc_arena old, [(0, ob)]) U) as [[a1 sl1] r1] eqn:EU.
  destruct r1 as [[]|e| |]; try done. rewrite run_all_native in Er.
  destruct (native_first parse (doc_arena old) Out ob ltac:(intros j [? _]; done) Nb Lb "body" NsHtml
    (props_diff [] nats) nats (fun l => rebuild_new l nats) U (doc_arena old) [(0, ob)] a1 sl1 oats F0 S0 eq_refl)
    as (-> & F1 & HD); [| |apply PO|exact EU|].
  { intros p Hp. apply Hh, elem_of_app. by left. } { done. }
  pose proof (native_rest parse (doc_arena old) Out ob ltac:(intros j [? _]; done) Nb Lb R a1 [(0, ob)] F1 S0
    ltac:(intros p Hp; apply Hh, elem_of_app; by right) HR) as ER.
  unfold same in ER. rewrite Er in ER. cbn [fst] in ER. rewrite ER.
  destruct nats as [|kv nats].
  - destruct HD as [[HD _]|[_ HD]]; [by apply HN in HD|done].
  - destruct HD as [[_ HD]|[HD _]]; [done|]. exfalso. by apply HD, HI.
Qed.

(** ** The page *)

Definition is_body (h : htree) : bool := match h with HElem t _ _ _ => String.eqb t "body" | _ => false end.

Lemma holds_tag a h i : holds a h i -> has_tag a "body" i = is_body h.
Proof.
  destruct h as [t ns l cs|s|s]; intros Hh; unfold has_tag, node_kind; cbn in Hh; destruct Hh as [Hd _].
  - by rewrite Hd.
  - unfold node_kind in Hd. destruct (data a i); [|done]. by injection Hd as ->.
  - unfold node_kind in Hd. destruct (data a i); [|done]. by injection Hd as ->.
Qed.

(** If both documents are in the domain of C04, the old page is changed in its body
    only: the content becomes that of the new one (up to empty texts and the
    namespaces of inserted elements), the attributes become those of the new body
    if it has any and stay as they were otherwise. *)
Theorem diff_page : forall {H} (heqb : H -> H -> bool) hcomb h0 (parse : string -> list htree)
    (old new : document) ob nb oats nats ts us tag ns hats pre post,
  mild_doc old ob oats ts -> mild_doc new nb nats us ->
  (forall t ta tb m, compared heqb hcomb h0 old new t ta tb m ->
     no_collision heqb ta tb /\ swap_free m (init_parents t tb m) (html_edit_script ta tb m) /\
     opaque_silent heqb ta tb m) ->
  page_of old (HElem tag ns hats (pre ++ HElem "body" NsHtml oats ts :: post)) ->
  (forall h, h ∈ pre -> is_body h = false) ->
  exists ps d' us',
    diff heqb hcomb h0 old new = Val ps /\ apply_patches parse old ps = (d', Val tt) /\
    page_of d' (HElem tag ns hats
      (pre ++ HElem "body" NsHtml (match nats with [] => oats | _ => nats end) us' :: post)) /\
    norms us' = norms us /\ doc_doctype d' = doc_doctype old.
Proof.
  intros H heqb hcomb h0 parse old new ob nb oats nats ts us tag ns hats pre post PO PN HC PG NB.
  destruct (diff_roundtrip_opaque heqb hcomb h0 parse old new ob nb oats nats ts us PO PN HC)
    as (ps & d' & Ed & Ea & W' & _ & _ & (us' & Hus & Eus) & Hr & Hdt & _ & HF).
  pose proof (body_data heqb hcomb h0 parse old new ob nb oats nats ts us ps d' PO PN HC Ed Ea) as Hb.
  exists ps, d', us'. split; [done|]. split; [done|]. split; [|done].
  pose proof (po_wf _ _ PG) as W. pose proof (po_holds _ _ PG) as Hp. apply holds_elem in Hp as [Hd Hc].
  apply Forall2_app_inv_l in Hc as (lp & lq & Hlp & Hlq & El).
  inversion Hlq as [|? ob' ? lq' Hob Hpost]; subst.
  assert (ob' = ob) as ->.
  { pose proof (md_body _ _ _ _ PO) as Hbd. unfold body, body_in in Hbd. rewrite El in Hbd.
    clear - Hbd Hlp NB Hob. revert Hbd. induction Hlp as [|h i pre lp Hh Hlp IH]; cbn.
    - rewrite (holds_tag _ _ _ Hob). cbn. by intros [= ->].
    - rewrite (holds_tag _ _ _ Hh), (NB h ltac:(left)). apply IH. intros h' Hh'. apply NB. by right. }
  assert (forall c, c ∈ children (doc_arena old) (doc_root old) -> parent (doc_arena old) c = Some (doc_root old)) as HP.
  { intros c Hc. by apply (wf_pc _ W). }
  assert (ob ∈ children (doc_arena old) (doc_root old)) as Hin by (rewrite El; apply elem_of_app; right; left).
  assert (forall c, c ∈ children (doc_arena old) (doc_root old) -> c <> ob -> forall h, holds (doc_arena old) h c -> holds (doc_arena d') h c) as HK.
  { intros c Hc Hne h. apply (holds_agree (fun j => j < length (doc_arena old) /\ above (doc_arena old) c j)).
    - split; [by eapply wf_child_lt|by apply above_refl].
    - intros j x [Hj HA] Hx. split; [by eapply wf_child_lt|]. eapply above_parent; [exact HA|]. by apply (wf_pc _ W).
    - intros j [Hj HA]. destruct (HF j Hj) as (E1 & E2 & _); [|done]. intros HA'.
      destruct (above_comparable _ _ _ _ HA HA') as [HX|HX].
      + apply Hne. eapply above_sibling; [done| | |exact HX]; by apply HP.
      + apply Hne. symmetry. eapply above_sibling; [done| | |exact HX]; by apply HP. }
  assert (NoDup (children (doc_arena old) (doc_root old))) as ND by (by apply (wf_nd _ W)).
  assert (doc_root old < length (doc_arena old)) as Lr by (by eapply data_lt).
  assert (~ above (doc_arena old) ob (doc_root old)) as NA by (apply above_not_parent; auto).
  destruct (HF _ Lr NA) as (D1 & D2 & D3).
  constructor; [done|rewrite Hr, D3; apply PG|].
  rewrite Hr. apply holds_elem. rewrite D1, D2. split; [done|]. rewrite El in *. apply NoDup_app in ND as (N1 & N2 & N3).
  apply NoDup_cons in N3 as [N3 _].
  apply Forall2_app; [|constructor].
  - assert (forall c, c ∈ lp -> forall h, holds (doc_arena old) h c -> holds (doc_arena d') h c) as HX.
    { intros c Hc. apply HK; [apply elem_of_app; by left|]. intros ->. by apply (N2 ob); [|left]. }
    clear - Hlp HX. induction Hlp as [|h i pre lp Hh Hlp IH]; constructor; [by apply HX; [left|]|].
    apply IH. intros c Hc. apply HX. by right.
  - apply holds_elem. by rewrite Hb.
  - assert (forall c, c ∈ lq' -> forall h, holds (doc_arena old) h c -> holds (doc_arena d') h c) as HX.
    { intros c Hc. apply HK; [apply elem_of_app; right; by right|]. by intros ->. }
    clear - Hpost HX. induction Hpost as [|h i post lq Hh Hlp IH]; constructor; [by apply HX; [left|]|].
    apply IH. intros c Hc. apply HX. by right.
Qed.
Print Assumptions diff_page.

Lemma page_html d h : page_of d h -> to_html_without_doctype d = Some (ser_t false h).
Proof. intros P. apply serialize_node_holds; apply P. Qed.

Lemma ser_ts_app raw l : forall l', ser_ts raw (l ++ l')%list = ser_ts raw l ++ ser_ts raw l'.
Proof. induction l as [|h l IH]; intros l'; [done|]. cbn [app ser_ts]. by rewrite IH, sapp_assoc'. Qed.

Lemma ser_page tag ns hats pre ats us us' post : norms us' = norms us ->
  ser_t false (HElem tag ns hats (pre ++ HElem "body" NsHtml ats us' :: post)) =
  ser_t false (HElem tag ns hats (pre ++ HElem "body" NsHtml ats us :: post)).
Proof.
  intros E. rewrite !(ser_t_elem _ tag), !ser_ts_app. cbn [ser_ts]. rewrite !(ser_t_elem _ "body").
  change (is_void_element "body") with false. cbv iota.
  by rewrite <- (ser_ts_norms _ us), <- E, ser_ts_norms.
Qed.

(** The HTML of the patched page. *)
Theorem diff_page_html : forall {H} (heqb : H -> H -> bool) hcomb h0 (parse : string -> list htree)
    (old new : document) ob nb oats nats ts us tag ns hats pre post,
  mild_doc old ob oats ts -> mild_doc new nb nats us ->
  (forall t ta tb m, compared heqb hcomb h0 old new t ta tb m ->
     no_collision heqb ta tb /\ swap_free m (init_parents t tb m) (html_edit_script ta tb m) /\
     opaque_silent heqb ta tb m) ->
  page_of old (HElem tag ns hats (pre ++ HElem "body" NsHtml oats ts :: post)) ->
  (forall h, h ∈ pre -> is_body h = false) ->
  exists ps d',
    diff heqb hcomb h0 old new = Val ps /\ apply_patches parse old ps = (d', Val tt) /\
    to_html_without_doctype d' = Some (ser_t false (HElem tag ns hats
      (pre ++ HElem "body" NsHtml (match nats with [] => oats | _ => nats end) us :: post))).
Proof.
  intros H heqb hcomb h0 parse old new ob nb oats nats ts us tag ns hats pre post PO PN HC PG NB.
  destruct (diff_page heqb hcomb h0 parse old new ob nb oats nats ts us tag ns hats pre post PO PN HC PG NB)
    as (ps & d' & us' & Ed & Ea & P' & Eu & _).
  exists ps, d'. split; [done|]. split; [done|]. rewrite (page_html _ _ P'). f_equal. by apply ser_page.
Qed.
Print Assumptions diff_page_html.

(** ** apply_structured.rs *)

Lemma sapp_cancel (x y z : string) : x ++ y = x ++ z -> y = z.
Proof. induction x as [|c x IH]; [done|]. cbn. intros [= E]. by apply IH. Qed.

Lemma ser_attrs_space kv l r : exists s, ser_attrs (kv :: l) ++ r = " " ++ s.
Proof.
  assert (exists s, ser_attr kv = " " ++ s) as [s E].
  { unfold ser_attr. destruct kv as [q v]. eexists. reflexivity. }
  unfold ser_attrs. destruct l as [|kv' l]; cbn [map String.concat]; rewrite E; [by exists (s ++ r)|].
  eexists. rewrite !sapp_assoc'. reflexivity.
Qed.

(** Two pages that agree outside their bodies: the target passes, unless the old
    body has attributes and the new one has none. *)
Theorem structured_target_verdict : forall {H} (heqb : H -> H -> bool) hcomb h0 (parse : string -> list htree)
    (old new : document) ob nb oats nats ts us ns ns' hats pre post,
  mild_doc old ob oats ts -> mild_doc new nb nats us ->
  (forall t ta tb m, compared heqb hcomb h0 old new t ta tb m ->
     no_collision heqb ta tb /\ swap_free m (init_parents t tb m) (html_edit_script ta tb m) /\
     opaque_silent heqb ta tb m) ->
  page_of old (HElem "html" ns hats (pre ++ HElem "body" NsHtml oats ts :: post)) ->
  page_of new (HElem "html" ns' hats (pre ++ HElem "body" NsHtml nats us :: post)) ->
  (forall h, h ∈ pre -> is_body h = false) ->
  structured_target heqb hcomb h0 parse old new =
    Val (match oats, nats with _ :: _, [] => FzPages | _, _ => FzPassed end).
Proof.
  intros H heqb hcomb h0 parse old new ob nb oats nats ts us ns ns' hats pre post PO PN HC PG PG' NB.
  destruct (diff_page_html heqb hcomb h0 parse old new ob nb oats nats ts us "html" ns hats pre post PO PN HC PG NB)
    as (ps & d' & Ed & Ea & Eh).
  unfold structured_target. rewrite Ed, Ea, Eh, (page_html _ _ PG'). f_equal.
  rewrite !(ser_t_elem _ "html").
  destruct nats as [|kv nats]; [destruct oats as [|kv oats]|destruct oats]; try by rewrite String.eqb_refl.
  match goal with |- (if ?c then _ else _) = _ => destruct c eqn:E; [|done] end. exfalso.
  apply String.eqb_eq in E. change (is_void_element "html") with false in E. cbv iota in E.
  do 4 apply sapp_cancel in E. rewrite !ser_ts_app, !sapp_assoc' in E. apply sapp_cancel in E.
  cbn [ser_ts] in E. rewrite !(ser_t_elem _ "body") in E. change (is_void_element "body") with false in E. cbv iota in E.
  rewrite !sapp_assoc' in E. do 2 apply sapp_cancel in E.
  match type of E with ser_attrs (kv :: oats) ++ ?r = _ => destruct (ser_attrs_space kv oats r) as [s Es]; rewrite Es in E end.
  discriminate E.
Qed.
Print Assumptions structured_target_verdict.

(** What lies outside the bodies is compared by the target but not by [diff]: pages
    whose heads differ fail it. *)
Theorem structured_target_head_refuted : exists old new ob nb ts us,
  plain_doc old ob [] ts /\ plain_doc new nb [] us /\ collision_free phash_eqb PH /\
  to_body_html old = to_body_html new /\ pdiff old new = Val [] /\
  structured_target phash_eqb PH PH0 no_parser old new = Val FzPages.
Proof.
  exists (mk_doc [el "title" [tx "a"]] [el "p" []]), (mk_doc [el "title" [tx "b"]] [el "p" []]), 2, 2, [el "p" []], [el "p" []].
  split; [apply mk_doc_plain; solve_plain|]. split; [apply mk_doc_plain; solve_plain|].
  split; [exact phash_collision_free|]. by vm_compute.
Qed.
Print Assumptions structured_target_head_refuted.

(** ** Example *)

Definition ex_whole (l : attrs) (cs : list htree) : document := with_body_attrs l (mk_doc [el "title" [tx "t"]] cs).
Definition ex_whole_h (l : attrs) (cs : list htree) : htree :=
  HElem "html" NsHtml [] ([el "head" [el "title" [tx "t"]]] ++ HElem "body" NsHtml l cs :: [])%list.
Definition ex_dark : attrs := [ex_attr "class" "dark"; ex_attr "id" "top"].
Definition ex_light : attrs := [ex_attr "lang" "en"; ex_attr "class" "light"].

Lemma ex_whole_plain l cs : (cs = ex_old_body \/ cs = ex_new_body) -> (l = [] \/ l = ex_dark \/ l = ex_light) ->
  plain_doc (ex_whole l cs) 2 l cs /\ page_of (ex_whole l cs) (ex_whole_h l cs).
Proof.
  intros Hc Hl. split.
  - split; [apply wf_check_sound| | | | | |]; destruct Hc as [->| ->]; destruct Hl as [->|[->| ->]]; try by vm_compute.
    1-6: vm_compute; repeat (constructor; repeat split).
    1-6: solve_plain.
    all: first [apply NoDup_nil_2|apply NoDup_cons; split; [intros Hk; apply elem_of_list_singleton in Hk; discriminate|apply NoDup_singleton]].
  - split; [apply wf_check_sound| |]; destruct Hc as [->| ->]; destruct Hl as [->|[->| ->]]; try by vm_compute.
    all: vm_compute; repeat (constructor; repeat split).
Qed.

(** The attributes of the body are replaced, kept, or given to one that had none;
    title and content are as they should be. *)
Example diff_page_example :
  (forall l l', (l = [] \/ l = ex_dark \/ l = ex_light) -> (l' = [] \/ l' = ex_dark \/ l' = ex_light) ->
     swap_check (ex_whole l ex_old_body) (ex_whole l' ex_new_body) = true ->
     mild_doc (ex_whole l ex_old_body) 2 l ex_old_body /\ mild_doc (ex_whole l' ex_new_body) 2 l' ex_new_body /\
     (forall t ta tb m, compared phash_eqb PH PH0 (ex_whole l ex_old_body) (ex_whole l' ex_new_body) t ta tb m ->
        no_collision phash_eqb ta tb /\ swap_free m (init_parents t tb m) (html_edit_script ta tb m) /\
        opaque_silent phash_eqb ta tb m)) /\
  swap_check (ex_whole ex_dark ex_old_body) (ex_whole ex_light ex_new_body) = true /\
  swap_check (ex_whole ex_dark ex_old_body) (ex_whole [] ex_new_body) = true /\
  swap_check (ex_whole [] ex_old_body) (ex_whole ex_light ex_new_body) = true /\
  structured_target phash_eqb PH PH0 no_parser (ex_whole ex_dark ex_old_body) (ex_whole ex_light ex_new_body) = Val FzPassed /\
  structured_target phash_eqb PH PH0 no_parser (ex_whole ex_dark ex_old_body) (ex_whole [] ex_new_body) = Val FzPages /\
  structured_target phash_eqb PH PH0 no_parser (ex_whole [] ex_old_body) (ex_whole ex_light ex_new_body) = Val FzPassed /\
  (exists ps d', pdiff (ex_whole ex_dark ex_old_body) (ex_whole [] (firstn 1 ex_old_body)) = Val ps /\
     apply_patches no_parser (ex_whole ex_dark ex_old_body) ps = (d', Val tt) /\
     to_html_without_doctype d' = Some
       ("<html><head><title>t</title></head><body class=""dark"" id=""top""><p>one</p></body></html>")).
Proof.
  split.
  - intros l l' Hl Hl' Hs.
    destruct (ex_whole_plain l ex_old_body ltac:(by left) Hl) as [PO _].
    destruct (ex_whole_plain l' ex_new_body ltac:(by right) Hl') as [PN _].
    split; [exact (plain_mild _ _ _ _ PO)|]. split; [exact (plain_mild _ _ _ _ PN)|].
    intros t ta tb m CM.
    pose proof (compared_faithful phash_eqb PH PH0 _ _ _ _ _ _ _ _ PO PN t ta tb m phash_collision_free CM) as NC.
    split; [done|]. split; [by apply (swap_check_sound _ _ _ _ _ _ Hs)|].
    exact (plain_silent phash_eqb PH PH0 _ _ _ _ _ _ _ _ t ta tb m PO PN CM NC).
  - do 6 (split; [by vm_compute|]). eexists _, _. by vm_compute.
Qed.
