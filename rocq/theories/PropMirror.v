(** Property theorems C66: what the patches keep in a browser. *)
From stdpp Require Import list_numbers.
From Verif Require Import Base Arena Matching Chawathe Dom HtmlDiff Browser ArenaProofs ArenaOps TreeProofs DomTree BuildProofs
  DtreeProofs MatchProofs DiffTotal HashProofs SimProofs ConvProofs RoundProofs Applier BrowserProofs AssembleProofs NestProofs SelfProofs RestyleProofs AttrProofs WfCheck
  Instances InstanceProofs InPlaceSpec InPlaceProofs MirrorProofs
  PropMatch PropFrame PropRoundtrip PropTotal PropSelf PropRestyle PropOpaque PropBrowser PropInPlace PropKeep.
Local Open Scope string_scope.

(** ** Any change *)

(** A browser's element [cb] that shows the old page.  After the patches, every
    node that the comparison has matched with a node of the new page is the same
    DOM node, now found where its partner is in the new page; for every node of
    the new page without partner a DOM node was created. *)
Theorem matched_nodes_keep_identity_browser : forall {H} (heqb : H -> H -> bool) hcomb h0
    valid_elem valid_attr parse_template (old new : document) ob nb oats nats ts us t ta tb m (C : arena dnode) cb ctag cl,
  mild_doc old ob oats ts -> mild_doc new nb nats us ->
  compared heqb hcomb h0 old new t ta tb m ->
  no_collision heqb ta tb -> swap_free m (init_parents t tb m) (html_edit_script ta tb m) ->
  opaque_silent heqb ta tb m ->
  (forall h, h ∈ ts -> names_ok valid_elem valid_attr h) ->
  (forall h, h ∈ us -> names_ok valid_elem valid_attr h) -> b_okn valid_elem valid_attr "body" nats ->
  wf C -> node_kind C cb = Some (NElem ctag cl) -> shows_list C (map btree ts) (children C cb) ->
  exists ps C' sl,
    diff heqb hcomb h0 old new = Val ps /\
    b_apply_all valid_elem valid_attr parse_template cb (C, []) ps = ((C', sl), Val tt) /\
    shows_list C' (map btree us) (children C' cb) /\
    (forall x y q q', get_b m x = Some y -> node_at t 0 q = Some x -> node_at (doc_arena new) nb q' = Some y ->
       exists i, node_at C cb q = Some i /\ node_at C' cb q' = Some i) /\
    (forall y q', get_a m y = None -> node_at (doc_arena new) nb q' = Some y ->
       exists i, node_at C' cb q' = Some i /\ length C <= i).
Proof.
  intros H heqb hcomb h0 ve va pt old new ob nb oats nats ts us t ta tb m C cb ctag cl PO PN CM NC SF SI OKO OKN OKB W Hk Hs.
  destruct (diff_run_with heqb hcomb h0 old new ob nb oats nats ts us PO PN t ta tb m CM NC SF SI
    battrs (b_okn ve va) (b_ap ve va pt) C cb)
    as (ps & D' & sl & Ed & Ea & W' & Hs' & _ & Hh & ID).
  - apply browser_applier.
  - intros h Hi. by apply names_ok_hall, OKO.
  - intros h Hi. by apply names_ok_hall, OKN.
  - exists "body". split; [apply OKB|]. split; [intros q Hq; by apply elem_of_nil in Hq|constructor].
  - by exists "body".
  - done.
  - eauto.
  - by apply shows_list_btree.
  - destruct (b_ap_run ve va pt cb ps C [(0, cb)] [] ((D', sl)) eq_refl) as [sl1 Eb]; [|done|].
    { intros k Hk0. destruct k; [done|reflexivity]. }
    exists ps, D', sl1. split; [done|]. split; [done|]. split; [by apply shows_list_btree|]. exact ID.
Qed.
Print Assumptions matched_nodes_keep_identity_browser.

(** ** Edits in place *)

(** Pages as in C63; a browser's element that shows the old body, with whatever
    client-side code has put into its opaque elements, and empty texts that
    earlier patches have left behind.  Then the patches apply without error; no
    node is created, none gets another parent or other children; the data of a
    node changes only if there is an edit at its place; and the element shows
    the new body. *)
Theorem edits_in_place_browser : forall {H} (heqb : H -> H -> bool) hcomb h0 valid_elem valid_attr parse_template
    (old new : document) ob nb tag ns oats ts ts' (C : arena dnode) cb,
  (forall h, heqb h h = true) -> collision_free heqb hcomb ->
  wf (doc_arena old) -> wf (doc_arena new) -> body old = Some ob -> body new = Some nb ->
  holds (doc_arena old) (HElem tag ns oats ts) ob ->
  holds (doc_arena new) (HElem tag ns [] ts') nb ->
  let h := HElem tag ns [] ts in
  let h' := HElem tag ns [] ts' in
  Forall2 edited ts ts' ->
  forallb (lacks tag ns) ts' = true ->
  no_twins h h' = true -> half_kept h h' ->
  (forall h, h ∈ ts -> names_ok valid_elem valid_attr h) ->
  (forall h, h ∈ ts' -> names_ok valid_elem valid_attr h) ->
  wf C -> mirrors_list C ts (children C cb) ->
  exists ps C',
    diff heqb hcomb h0 old new = Val ps /\
    b_apply_all valid_elem valid_attr parse_template cb (C, []) ps = ((C', []), Val tt) /\
    wf C' /\ length C' = length C /\
    (forall j, children C' j = children C j) /\ (forall j, parent C' j = parent C j) /\
    mirrors_list C' ts' (children C' cb) /\
    (forall j, data C' j <> data C j ->
       exists q u v, In (0 :: q, (u, v)) (spots [0] h h') /\ own_edits (0 :: q, (u, v)) <> [] /\ node_at C cb q = Some j).
Proof.
  intros H heqb hcomb h0 ve va pt old new ob nb tag ns oats ts ts' C cb HR CF WO WN BO BN HO HN h h' HF HLK HTW HK OKO OKN WC HM.
  apply holds_elem in HO as [DO HO]. apply holds_elem in HN as [DN HN].
  destruct (diff_in_place heqb hcomb h0 HR CF new (doc_arena old) ob nb tag ns oats ts ts') as (ps & es & ED & PE & HU); try done.
  assert (es ≡ₚ flat_map edits (spots_in [0] 0 ts ts')) as PE'.
  { rewrite PE, spots_elem. cbn [flat_map]. unfold edits at 1. unfold own_edits, content_edits. cbn [hopaque].
    destruct (attrs_eq_dec [] []); done. }
  destruct (mirror_in_place ve va pt C cb WC ts ts' HF HM OKO OKN es ps PE' HU) as (a & Ea & U & Hm).
  exists ps, a. split; [unfold diff; by rewrite BO, BN|]. split; [done|]. split; [apply U|]. split; [apply U|]. split; [apply U|].
  split; [apply U|]. split; [done|]. intros j Hj. apply (uw_rest _ _ _ _ _ _ U) in Hj as ([q [u v]] & Hw & (r & -> & Hr) & He).
  exists r, u, v. split; [|done]. apply elem_of_list_In. unfold h, h'. rewrite spots_elem. by right.
Qed.
Print Assumptions edits_in_place_browser.

(** Pages without opaque elements: [mirrors] is [shows], and the browser's HTML is
    that of the new page. *)
Lemma mirrors_shows a h : hall (fun _ l => is_opaque_props l = false) h -> forall i, mirrors a h i <-> shows_v battrs a h i.
Proof.
  induction h as [s|s|tag ns ats cs IH] using htree_ind'; intros HA i; [done|done|].
  apply hall_eq in HA as [HA HC]. cbn [hattrs hchildren] in *. rewrite mirrors_elem, shows_elem.
  assert (mirrors_list a cs (children a i) <-> shows_list_v battrs a cs (children a i)) as ->; [|naive_solver].
  unfold mirrors_list, shows_list_v.
  assert (forall l, Forall2 (mirrors a) cs l <-> Forall2 (shows_v battrs a) cs l) as E.
  { clear HA. induction cs as [|c cs IHc]; intros l; [split; intros HF; by inversion HF|].
    split; intros HF; inversion HF; subst; constructor; try (apply (IH c); [left|apply HC; left|done]);
      (apply IHc; [intros x Hx; apply IH; by right|intros x Hx; apply HC; by right|done]). }
  split; intros (l1 & E1 & ? & ? & ?%E); eauto.
Qed.
Lemma mirrors_list_shows a ts l : (forall h, h ∈ ts -> hall (fun _ l => is_opaque_props l = false) h) ->
  mirrors_list a ts l <-> shows_list a (map btree ts) l.
Proof.
  intros HA. rewrite <- shows_list_btree. unfold mirrors_list, shows_list_v.
  assert (forall l, Forall2 (mirrors a) ts l <-> Forall2 (shows_v battrs a) ts l) as E.
  { clear l. induction ts as [|c cs IHc]; intros l; [split; intros HF; by inversion HF|].
    split; intros HF; inversion HF; subst; constructor; try (apply (mirrors_shows a c); [apply HA; left|done]);
      (apply IHc; [intros x Hx; apply HA; by right|done]). }
  split; intros (l1 & E1 & ? & ? & ?%E); eauto.
Qed.

(** Texts changed, in pages without opaque elements: nothing in the browser's DOM
    changes but the texts, and the HTML is that of the new page. *)
Theorem texts_in_place_browser : forall {H} (heqb : H -> H -> bool) hcomb h0 valid_elem valid_attr parse_template
    (old new : document) ob nb tag ns oats ts ts' (C : arena dnode) cb,
  (forall h, heqb h h = true) -> collision_free heqb hcomb ->
  wf (doc_arena old) -> wf (doc_arena new) -> body old = Some ob -> body new = Some nb ->
  holds (doc_arena old) (HElem tag ns oats ts) ob ->
  holds (doc_arena new) (HElem tag ns [] ts') nb ->
  Forall2 (reworded (flat_map words ts) (flat_map words ts')) ts ts' ->
  forallb (lacks tag ns) ts' = true ->
  1 + list_sum (map hsize ts) <= 2 * same_words (HElem tag ns [] ts) (HElem tag ns [] ts') ->
  (forall h, h ∈ ts -> names_ok valid_elem valid_attr h) ->
  (forall h, h ∈ ts' -> names_ok valid_elem valid_attr h) ->
  wf C -> shows_list C (map btree ts) (children C cb) ->
  exists ps C',
    diff heqb hcomb h0 old new = Val ps /\
    b_apply_all valid_elem valid_attr parse_template cb (C, []) ps = ((C', []), Val tt) /\
    wf C' /\ length C' = length C /\
    (forall j, children C' j = children C j) /\ (forall j, parent C' j = parent C j) /\
    (forall j t l, node_kind C j = Some (NElem t l) -> data C' j = data C j) /\
    serialize_inner_html C' cb = to_body_html new.
Proof.
  intros H heqb hcomb h0 ve va pt old new ob nb tag ns oats ts ts' C cb HR CF WO WN BO BN HO HN HF HLK HK OKO OKN WC HS.
  set (h := HElem tag ns [] ts) in *. set (h' := HElem tag ns [] ts') in *.
  assert (reworded (words h) (words h') h h') as HRW by (apply rw_elem; [constructor|done|done]).
  assert (forall O N t t', reworded O N t t' -> hsize t = hsize t') as HSZ.
  { intros O N t. induction t as [s|s|tag1 ns1 l cs IH] using htree_ind'; intros t' HT; inversion HT as [| |? ? ? ? cs' _ _ HFc]; subst; [done|done|].
    cbn [hsize]. f_equal. clear HT. induction HFc as [|c c' cs cs' Hc HFc IHc]; [done|]. cbn [map].
    change (hsize c + list_sum (map hsize cs) = hsize c' + list_sum (map hsize cs')).
    rewrite (IH c ltac:(left) c' Hc), IHc; [done|]. intros d Hd. apply IH. by right. }
  assert (forall O N t t', reworded O N t t' -> hall (fun _ l => is_opaque_props l = false) t /\ hall (fun _ l => is_opaque_props l = false) t') as HNO.
  { intros O N t. induction t as [s|s|tag1 ns1 l cs IH] using htree_ind'; intros t' HT; inversion HT as [| |? ? ? ? cs' N2 M2 HFc]; subst; [done|done|].
    split; apply hall_eq; (split; [exact M2|]); cbn [hchildren]; intros c Hc.
    - apply elem_of_list_lookup_1 in Hc as (k & Hk). destruct (Forall2_lookup_l _ _ _ _ _ HFc Hk) as (c' & _ & R).
      by apply (IH c (elem_of_list_lookup_2 _ _ _ Hk) c').
    - apply elem_of_list_lookup_1 in Hc as (k & Hk). destruct (Forall2_lookup_r _ _ _ _ _ HFc Hk) as (c' & Hk' & R).
      by apply (IH c' (elem_of_list_lookup_2 _ _ _ Hk') c). }
  destruct (edits_in_place_browser heqb hcomb h0 ve va pt old new ob nb tag ns oats ts ts' C cb) as
    (ps & C' & E1 & E2 & E3 & E4 & E5 & E6 & E7 & E8); try done.
  - eapply Forall2_impl; [exact HF|]. intros t t'. apply reworded_edited.
  - by apply reworded_no_twins.
  - fold h h'. unfold half_kept. rewrite (reworded_kept _ _ _ _ _ HRW), <- (HSZ _ _ _ _ HRW). unfold h at 1 2. cbn [hsize]. lia.
  - apply mirrors_list_shows; [|done]. intros t Ht. apply elem_of_list_lookup_1 in Ht as (k & Hk).
    destruct (Forall2_lookup_l _ _ _ _ _ HF Hk) as (t' & _ & R). by apply (HNO _ _ _ _ R).
  - exists ps, C'. split; [done|]. split; [done|]. split; [done|]. split; [done|]. split; [done|]. split; [done|].
    assert (forall t, t ∈ ts' -> hall (fun _ l => is_opaque_props l = false) t) as HO'.
    { intros t Ht. apply elem_of_list_lookup_1 in Ht as (k & Hk).
      destruct (Forall2_lookup_r _ _ _ _ _ HF Hk) as (t' & _ & R). by apply (HNO _ _ _ _ R). }
    split.
    + intros j t l Hj.
      assert (data C' j = data C j \/ data C' j <> data C j) as [E|Hn]; [|done|].
      { destruct (data C' j) as [[k1 n1]|], (data C j) as [[k2 n2]|]; try (by left); try (by right).
        assert ({k1 = k2} + {k1 <> k2}) as [->|] by (repeat (decide equality; try apply string_dec)).
        - assert ({n1 = n2} + {n1 <> n2}) as [->|] by (repeat decide equality); [by left|right; congruence].
        - right; congruence. }
      exfalso. destruct (E8 j Hn) as (q & u & v & Hin & He & Hq). apply elem_of_list_In in Hin. fold h h' in Hin.
      pose proof (spots_hat _ _ _ _ _ _ Hin) as (r & [= <-] & Hu & Hv).
      destruct (reworded_hat _ _ q h h' u HRW Hu) as (v1 & Hv1 & R1). assert (v1 = v) as -> by congruence.
      inversion R1 as [s s' _|s s' _|tg ns0 l0 cs cs' _ _ _]; subst.
      3:{ unfold own_edits in He. by destruct (attrs_eq_dec l0 l0). }
      all: destruct q as [|k q]; [discriminate Hu|];
        unfold h, h' in Hin; rewrite spots_elem in Hin; apply elem_of_cons in Hin as [E|Hin]; [discriminate E|];
        change (is_opaque_props []) with false in Hin; cbv iota in Hin;
        assert (mirrors_list C ts (children C cb)) as HM by
          (apply mirrors_list_shows; [|exact HS]; intros t0 Ht0; apply elem_of_list_lookup_1 in Ht0 as (k0 & Hk0);
           destruct (Forall2_lookup_l _ _ _ _ _ HF Hk0) as (t1 & _ & R2); by apply (HNO _ _ _ _ R2));
        assert (Forall2 edited ts ts') as HFE by (eapply Forall2_impl; [exact HF|]; intros t0 t1; apply reworded_edited);
        destruct (spot_place ve va C cb WC ts ts' HFE HM OKO OKN _ _ _ Hin) as (n & (r & [= <-] & Hr) & Hm & _);
        assert (n = j) as -> by congruence; destruct Hm as [Hm _]; congruence.
    + unfold to_body_html. rewrite BN. apply holds_elem in HN as [_ HN].
      apply (mirrors_list_shows C' ts' _ HO') in E7.
      by rewrite (shows_body_html _ _ cb E3 E7), (ser_ts_btree ve va ts' OKN), (serialize_inner_holds _ ts' nb WN HN).
Qed.
Print Assumptions texts_in_place_browser.

(** ** Examples *)

(** The pages of C63's example; in the browser a widget has drawn into the opaque
    element, and an empty text is left at the end of the list. *)
Definition mirror_client : list htree :=
  [el_a "h1" [ex_attr "id" "t"; ex_attr "class" "a"] [tx "Title"]; el "p" [tx "one"; el "b" [tx "two"]; tx "three"];
   opaque_el [el "canvas" []; tx "7 items"]; HComment "note";
   el "ul" [el "li" [tx "x"]; el "li" [tx "y"]; el "li" [tx "y"]; el "li" [tx "z"]; tx ""]; el "p" [tx "four"]; el "p" [tx "five"]].

(** A check for [mirrors]. *)
Definition kindb (a : arena dnode) (i : nat) (k : nkind) : bool :=
  match node_kind a i, k with
  | Some (NText s), NText s' | Some (NComment s), NComment s' => if string_dec s s' then true else false
  | Some (NElem t l), NElem t' l' => (if string_dec t t' then true else false) && (if attrs_eq_dec l l' then true else false)
  | _, _ => false
  end.
Definition leafb (a : arena dnode) (i : nat) : bool := match children a i with [] => true | _ => false end.
Fixpoint mirrorsb (a : arena dnode) (h : htree) (i : nat) {struct h} : bool :=
  match h with
  | HText s => kindb a i (NText s) && leafb a i
  | HComment s => kindb a i (NComment s) && leafb a i
  | HElem tag _ ats cs =>
      kindb a i (NElem tag (battrs ats)) &&
      (is_opaque_props ats ||
       (fix all (cs : list htree) (l : list nat) : bool :=
          match cs, l with
          | [], E => forallb (fun e => kindb a e (NText "") && leafb a e) E
          | c :: cs', j :: l' => mirrorsb a c j && all cs' l'
          | _, _ => false
          end) cs (children a i))
  end.
Fixpoint mirrors_listb (a : arena dnode) (cs : list htree) (l : list nat) : bool :=
  match cs, l with
  | [], E => forallb (fun e => kindb a e (NText "") && leafb a e) E
  | c :: cs', j :: l' => mirrorsb a c j && mirrors_listb a cs' l'
  | _, _ => false
  end.
Lemma kindb_sound a i k : kindb a i k = true -> node_kind a i = Some k.
Proof.
  unfold kindb. destruct (node_kind a i) as [[|t l|s|s]|], k as [|t' l'|s'|s']; try done.
  - destruct (string_dec t t') as [->|]; [|done]. destruct (attrs_eq_dec l l') as [->|]; done.
  - by destruct (string_dec s s') as [->|].
  - by destruct (string_dec s s') as [->|].
Qed.
Lemma leafb_sound a i : leafb a i = true -> children a i = [].
Proof. unfold leafb. by destruct (children a i). Qed.
Lemma mirrors_listb_sound_gen a cs : (forall c, c ∈ cs -> forall i, mirrorsb a c i = true -> mirrors a c i) ->
  forall l, mirrors_listb a cs l = true -> mirrors_list a cs l.
Proof.
  induction cs as [|c cs IH]; intros HC l; cbn [mirrors_listb].
  - intros E. exists [], l. split; [done|]. split; [|constructor]. intros e He.
    rewrite forallb_forall in E. apply elem_of_list_In in He. apply E in He. apply andb_prop in He as [H1 H2].
    split; [by apply kindb_sound|by apply leafb_sound].
  - destruct l as [|j l]; [done|]. intros E. apply andb_prop in E as [E1 E2].
    destruct (IH ltac:(intros x Hx; apply HC; by right) l E2) as (l1 & E & -> & H1 & H2).
    exists (j :: l1), E. split; [done|]. split; [done|]. constructor; [|done]. apply HC; [left|done].
Qed.
Lemma mirrorsb_sound a h : forall i, mirrorsb a h i = true -> mirrors a h i.
Proof.
  induction h as [s|s|tag ns ats cs IH] using htree_ind'; intros i E; cbn [mirrorsb] in E; apply andb_prop in E as [E1 E2].
  - split; [by apply kindb_sound|by apply leafb_sound].
  - split; [by apply kindb_sound|by apply leafb_sound].
  - apply mirrors_elem. split; [by apply kindb_sound|]. intros Ho. rewrite Ho in E2. cbn [orb] in E2.
    apply mirrors_listb_sound_gen; [done|]. rewrite <- E2. clear. generalize (children a i).
    induction cs as [|c cs IH]; intros [|j l]; cbn [mirrors_listb]; [done|done|done|]. by rewrite IH.
Qed.
Lemma mirrors_listb_sound a cs l : mirrors_listb a cs l = true -> mirrors_list a cs l.
Proof. apply mirrors_listb_sound_gen. intros c _. apply mirrorsb_sound. Qed.

Example edits_in_place_browser_example :
  let C := doc_arena (mk_doc [] (map btree mirror_client)) in
  wf C /\ mirrors_list C inplace_ts (children C 2) /\
  (forall h, h ∈ inplace_ts -> names_ok ex_name ex_name h) /\ (forall h, h ∈ inplace_us -> names_ok ex_name ex_name h) /\
  exists ps, pdiff inplace_old inplace_new = Val ps /\
    (let r := b_apply_all ex_name ex_name no_parser 2 (C, []) ps in
     snd r = Val tt /\
     serialize_inner_html (fst (fst r)) 2 =
       Some "<h1 id=""t"" class=""b"">Headline</h1><p>one<b>2</b>three</p><div data-hotmeal-opaque=""""><canvas></canvas>7 items</div><!--remark--><ul><li>x</li><li>y</li><li>y</li><li>z</li></ul><p>four</p><p>five</p>").
Proof.
  cbv zeta. split; [apply wf_check_sound; vm_compute; reflexivity|].
  split; [apply mirrors_listb_sound; vm_compute; reflexivity|].
  do 2 (split; [apply names_okb_list; vm_compute; reflexivity|]).
  eexists. split; [vm_compute; reflexivity|]. split; vm_compute; reflexivity.
Qed.

Example texts_in_place_browser_example :
  let C := doc_arena (mk_doc [] (map btree reword_ts)) in
  wf C /\ shows_list C (map btree reword_ts) (children C 2) /\
  (forall h, h ∈ reword_ts -> names_ok ex_name ex_name h) /\ (forall h, h ∈ reword_us -> names_ok ex_name ex_name h) /\
  exists ps, pdiff (mk_doc [] reword_ts) (mk_doc [] reword_us) = Val ps /\
    (let r := b_apply_all ex_name ex_name no_parser 2 (C, []) ps in
     snd r = Val tt /\ length (fst (fst r)) = length C /\
     serialize_inner_html (fst (fst r)) 2 =
       Some "<p>one<b id=""x"">2</b></p><p>one<b id=""x"">three</b></p><!--d--><p>one</p><p>one</p>").
Proof.
  cbv zeta. split; [apply wf_check_sound; vm_compute; reflexivity|].
  split; [apply holds_shows_list; apply mk_doc_ok|].
  do 2 (split; [apply names_okb_list; vm_compute; reflexivity|]).
  eexists. split; [vm_compute; reflexivity|]. split; [vm_compute; reflexivity|]. split; vm_compute; reflexivity.
Qed.

(** The pages of C49's example: the [div] and the text of the paragraph are moved
    and stay the same nodes; the [section] is new. *)
Example matched_nodes_keep_identity_browser_example :
  let old := mk_doc [] kp_old in let new := mk_doc [] kp_new in let C := doc_arena (mk_doc [] (map btree kp_old)) in
  mild_doc old 2 [] kp_old /\ mild_doc new 2 [] kp_new /\
  (exists t ta tb m, compared phash_eqb PH PH0 old new t ta tb m /\
     no_collision phash_eqb ta tb /\ swap_free m (init_parents t tb m) (html_edit_script ta tb m) /\
     opaque_silent phash_eqb ta tb m) /\
  (forall h, h ∈ kp_old -> names_ok ex_name ex_name h) /\ (forall h, h ∈ kp_new -> names_ok ex_name ex_name h) /\
  b_okn ex_name ex_name "body" [] /\ wf C /\ shows_list C (map btree kp_old) (children C 2) /\
  exists ps, pdiff old new = Val ps /\
    (let C' := fst (fst (b_apply_all ex_name ex_name no_parser 2 (C, []) ps)) in
     node_at C 2 [1] = Some 5 /\ node_at C' 2 [1; 1] = Some 5 /\
     node_at C 2 [2; 0] = Some 7 /\ node_at C' 2 [1; 0; 0] = Some 7 /\
     length C = 8 /\ node_at C' 2 [1] = Some 9).
Proof.
  cbv zeta. destruct matched_nodes_keep_identity_example as (M1 & M2 & M3 & _).
  split; [done|]. split; [done|]. split; [done|].
  do 2 (split; [apply names_okb_list; vm_compute; reflexivity|]).
  split; [split; [by split|]; split; [intros q Hq; by apply elem_of_nil in Hq|constructor]|].
  split; [apply wf_check_sound; vm_compute; reflexivity|]. split; [apply holds_shows_list; apply mk_doc_ok|].
  eexists. split; [vm_compute; reflexivity|]. repeat split; vm_compute; reflexivity.
Qed.
