(** The round trip on documents whose opaque elements have content of their own:
    what [diff_run_gen] gives with the view of [CutProofs]. *)
From stdpp Require Import list_numbers relations.
From Verif Require Import Base Arena Matching Chawathe Dom HtmlDiff Browser
  AttrProofs ArenaProofs ArenaOps TreeProofs DtreeProofs MatchProofs DomTree ApplyProofs ShadowProofs SimProofs Applier
  FrameProofs BrowserProofs CutProofs BuildProofs ConvProofs RoundProofs AssembleProofs NestProofs.
Local Open Scope string_scope.

(** Attributes that make an element opaque. *)
Definition mark (q : qname) : bool := String.eqb (q_local q) opaque_attr.

Lemma op_mark l : op mark l = is_opaque_props l.
Proof. done. Qed.

Lemma hollow_hall op1 op2 h : hall (fun _ l => op2 l = op1 l) h -> hollow op1 h -> hollow op2 h.
Proof.
  induction h as [sx|sx|tag ns ats cs IH] using htree_ind'; rewrite hall_eq, !hollow_eq; intros [E1 E2] [H1 H2];
    cbn [hchildren] in *.
  1,2: split; [done|]; intros c Hc; by apply elem_of_nil in Hc.
  split; [rewrite E1; exact H1|]. intros c Hc. apply IH; auto.
Qed.

Lemma node_at_cut key a q : forall i n, node_at (cut key a) i q = Some n -> node_at a i q = Some n.
Proof.
  induction q as [|k q IH]; intros i n; cbn [node_at]; [done|]. rewrite cut_children.
  destruct (opaque_el key a i); [by rewrite lookup_nil|].
  destruct (children a i !! k); [|done]. apply IH.
Qed.

Section Keep.
  Context {H : Type}.
  Variables (heqb : H -> H -> bool) (hcomb : hkind -> option string -> list H -> H) (h0 : H).
  Variables (old new : document) (ob nb : nat) (oats nats : attrs) (ts us : list htree).
  Hypothesis PO : mild_doc old ob oats ts.
  Hypothesis PN : mild_doc new nb nats us.
  Variables (t : arena tdata) (ta tb : dtree H hkind attrs string) (m : matching).
  Hypothesis CM : compared heqb hcomb h0 old new t ta tb m.
  Hypothesis NC : no_collision heqb ta tb.
  Hypothesis SF : swap_free m (init_parents t tb m) (html_edit_script ta tb m).
  Lemma props_old (P : hkind -> attrs -> Prop) : (forall h, h ∈ ts -> hall P h) ->
    forall x, x < length t -> x <> 0 -> P (t_kind ta x) (t_props ta x).
  Proof using CM PO.
    intros HP x Hx H0. destruct CM as (ob' & nb' & Eo & En & Et & Ea & Eb & Em).
    pose proof (md_body _ _ _ _ PO). assert (ob' = ob) as -> by congruence.
    pose proof (as_built (doc_arena old) ob ts "body" NsHtml oats (md_wf _ _ _ _ PO) (md_data _ _ _ _ PO)
                  (md_holds _ _ _ _ PO) t Et) as BT.
    destruct (mk_dtree_fields _ _ _ _ _ _ Ea) as (_ & Kd & Pr & _). rewrite Kd, Pr. unfold dkind, dprops.
    destruct (tholds_below P t bodyk ts BT HP x Hx H0) as (h & Hh & Hp).
    apply tholds_eq in Hh as [-> _]. apply hall_eq in Hp as [P1 _]. by destruct h.
  Qed.

  Lemma props_new (P : hkind -> attrs -> Prop) : (forall h, h ∈ us -> hall P h) ->
    forall y, y ∈ t_iter tb -> y <> nb -> P (t_kind tb y) (t_props tb y).
  Proof using CM PN.
    intros HP y Hy H0. destruct CM as (ob' & nb' & Eo & En & Et & Ea & Eb & Em).
    pose proof (md_body _ _ _ _ PN). assert (nb' = nb) as -> by congruence.
    destruct (as_presents_b hcomb h0 (doc_arena new) nb "body" NsHtml nats
        (md_wf _ _ _ _ PN) (md_data _ _ _ _ PN) tb Eb) as (rb & PB & Er & Ht).
    rewrite (pr_iter tb rb PB) in Hy.
    destruct (mk_dtree_fields _ _ _ _ _ _ Eb) as (_ & Kd & Pr & _). rewrite Kd, Pr. unfold dkind, dprops.
    destruct (holds_below_list P (doc_arena new) rb us) with (y := y) as (h & Hh & Hp);
      [done|rewrite Er; apply PN|done|done|by rewrite Er|].
    destruct (tdata_of_holds _ h y Hh) as (d & -> & ->). apply hall_eq in Hp as [P1 _]. by destruct h.
  Qed.

  Lemma opaque_props : (forall x, t_opaque ta x = is_opaque_props (t_props ta x)) /\
    (forall y, t_opaque tb y = is_opaque_props (t_props tb y)).
  Proof using CM.
    destruct CM as (ob' & nb' & Eo & En & Et & Ea & Eb & Em).
    destruct (mk_dtree_fields _ _ _ _ _ _ Ea) as (_ & _ & P1 & _ & _ & _ & _ & _ & O1).
    destruct (mk_dtree_fields _ _ _ _ _ _ Eb) as (_ & _ & P2 & _ & _ & _ & _ & _ & O2).
    rewrite P1, P2, O1, O2. done.
  Qed.

  (** Matched nodes agree on being opaque if the kind of a node decides it. *)
  Lemma marked_agree (isop : hkind -> bool) :
    (forall h, h ∈ ts -> hall (fun k l => is_opaque_props l = isop k) h) ->
    (forall h, h ∈ us -> hall (fun k l => is_opaque_props l = isop k) h) -> opaque_agree ta tb m.
  Proof using CM NC PO PN.
    intros HO HN x y Hxy.
    destruct (compared_matching heqb hcomb h0 old new ob nb oats nats ts us PO PN t ta tb m CM NC) as (BJ & MR & MI).
    destruct opaque_props as [O1 O2]. rewrite O1, O2. destruct (MI x y Hxy) as (Hx & Hy & Ek).
    destruct (decide (x = 0)) as [->|H0].
    - assert (y = nb) as -> by congruence.
      destruct CM as (ob' & nb' & Eo & En & Et & Ea & Eb & Em).
      pose proof (md_body _ _ _ _ PO). pose proof (md_body _ _ _ _ PN).
      assert (ob' = ob) as -> by congruence. assert (nb' = nb) as -> by congruence.
      destruct (mk_dtree_fields _ _ _ _ _ _ Ea) as (_ & _ & P1 & _).
      destruct (mk_dtree_fields _ _ _ _ _ _ Eb) as (_ & _ & P2 & _).
      rewrite P1, P2. unfold dprops. rewrite (md_data _ _ _ _ PN).
      pose proof (as_built (doc_arena old) ob ts "body" NsHtml oats (md_wf _ _ _ _ PO) (md_data _ _ _ _ PO)
                  (md_holds _ _ _ _ PO) t Et) as BT. rewrite (bt_root _ _ _ BT).
      change (false = is_opaque_props nats). symmetry. apply (md_opaque _ _ _ _ PN).
    - rewrite (props_old _ HO x Hx H0), (props_new _ HN y Hy); [by rewrite Ek|].
      intros ->. apply (get_ab m BJ) in MR, Hxy. congruence.
  Qed.

  Hypothesis HR : forall k, heqb k k = true.
  Hypothesis AG : opaque_agree ta tb m.

  Theorem keep_gen va okn ap (C : arena dnode) (cb : nat) : applier (OQ := no_opaques) va okn (=) ap ->
    (forall h, h ∈ ts -> hall (okh okn) h) -> (forall h, h ∈ us -> hall (okh okn) h) ->
    (exists tg, okn tg []) -> (exists tg, okn tg nats) ->
    (forall h, h ∈ ts -> hall (fun _ l => op mark (va l) = is_opaque_props l) h) ->
    (forall h, h ∈ us -> hall (fun _ l => op mark (va l) = is_opaque_props l) h) ->
    op mark (va nats) = false ->
    wf C -> (exists tag l, node_kind C cb = Some (NElem tag l)) -> opaque_el mark C cb = false -> ~ hidden mark C cb ->
    shows_list_v va (cut mark C) ts (children C cb) ->
    exists ps C' sl,
    diff heqb hcomb h0 old new = Val ps /\
    run_all ap (C, [(0, cb)]) ps = ((C', sl), Val tt) /\
    wf C' /\ shows_list_v va (cut mark C') us (children C' cb) /\ spared mark C C' /\
    (forall p, p ∈ ps -> hits_body p = false) /\
    identity t (doc_arena new) nb m C C' cb.
  Proof using CM NC PO PN SF HR AG.
    intros AO OKO OKN OK0 OK1 QO QN QB WC (tag & l & CE) Ho Hh CH.
    pose proof (agree_silent heqb hcomb h0 old new ob nb oats nats ts us PO PN t ta tb m CM NC HR AG) as SI.
    destruct (compared_matching heqb hcomb h0 old new ob nb oats nats ts us PO PN t ta tb m CM NC) as (BJ & MR & MI).
    destruct opaque_props as [O1 O2].
    assert (cb < length C) as BL.
    { unfold node_kind in CE. destruct (data C cb) eqn:Ed; [|done]. by eapply data_lt. }
    destruct (diff_run_gen heqb hcomb h0 old new ob nb oats nats ts us PO PN t ta tb m CM NC SF (OQ := op_opaques mark)
      va okn (cut_shows mark C) ap (cut mark C) cb (C, [(0, cb)]))
      as (ps & [C' sl'] & D' & sl & E1 & E2 & (W' & ED & _ & _ & SP) & _ & Hs & _ & Hb & ID1 & ID2); try done.
    - by apply cut_applier.
    - intros h Hi. apply (hollow_hall is_opaque_props); [by apply QN|by apply (md_hollow _ _ _ _ PN)].
    - intros x y Hxy H0. destruct (MI x y Hxy) as (Hx & Hy & _).
      change (op mark (va (t_props ta x)) = op mark (va (t_props tb y))).
      rewrite (props_old (fun _ l => op mark (va l) = is_opaque_props l) QO x Hx H0).
      rewrite (props_new (fun _ l => op mark (va l) = is_opaque_props l) QN y Hy).
      + rewrite <- O1, <- O2. by apply AG.
      + intros ->. apply (get_ab m BJ) in MR, Hxy. congruence.
    - by apply cut_wf.
    - exists (NElem tag l). rewrite cut_kind. split; [done|]. cbn. unfold opaque_el in Ho. by rewrite CE in Ho.
    - intros i tg l0 Hk Hop. rewrite cut_kind in Hk. rewrite cut_children. unfold opaque_el. rewrite Hk.
      change (op mark l0 = true) in Hop. by rewrite Hop.
    - split; [done|]. split; [done|]. split; [done|]. split; [|apply spared_refl].
      intros k r. cbn. destruct k; [|done]. intros [= <-]. done.
    - by rewrite cut_children, Ho.
    - cbn [fst snd] in *. subst D'. exists ps, C', sl'. split; [done|]. split; [done|]. split; [done|]. split.
      { rewrite cut_children in Hs. by rewrite (sp_mark _ _ _ SP), Ho in Hs. }
      split; [done|]. split; [done|]. split.
      + intros x y q q' Hxy Hq Hq'. destruct (ID1 x y q q' Hxy Hq Hq') as (i & I1 & I2).
        exists i. split; by eapply node_at_cut.
      + intros y q' Hy Hq'. destruct (ID2 y q' Hy Hq') as (i & I1 & I2). exists i.
        split; [by eapply node_at_cut|]. by rewrite cut_len in I2.
  Qed.
End Keep.

(** ** Changes by client-side code *)

(** What client-side code does to a document if it keeps to the inside of
    opaque elements: there it may do anything. *)
Record inside_only (a a' : arena dnode) : Prop := {
  io_wf : wf a';
  io_len : length a <= length a';
  io_data : forall j, j < length a -> ~ hidden mark a j -> data a' j = data a j;
  io_parent : forall j, j < length a -> ~ hidden mark a j -> parent a' j = parent a j;
  io_children : forall j, j < length a -> ~ hidden mark a j -> opaque_el mark a j = false -> children a' j = children a j
}.

Section Inside.
  Variables (a a' : arena dnode).
  Hypothesis W : wf a.
  Hypothesis IO : inside_only a a'.

  Lemma inside_mark j : j < length a -> ~ hidden mark a j -> opaque_el mark a' j = opaque_el mark a j.
  Proof using IO. intros H1 H2. apply opaque_el_data. by apply IO. Qed.

  Lemma inside_shown j : j < length a -> ~ hidden mark a j -> ~ hidden mark a' j.
  Proof using IO W.
    intros Hj Hn Hh. revert Hj Hn. induction Hh as [i p E Eo|i p E Hp IH]; intros Hj Hn;
      rewrite (io_parent _ _ IO) in E by done; pose proof (wf_parent_lt _ _ _ W E) as Hl;
      (assert (~ hidden mark a p) as Hnp by (intros Hx; by apply Hn, (hidden_up mark a i p))).
    - rewrite inside_mark in Eo by done. by apply Hn, (hidden_here mark a i p).
    - by apply IH.
  Qed.

  Lemma cut_child_shown j c : ~ hidden mark a j -> c ∈ children (cut mark a) j -> c < length a /\ ~ hidden mark a c.
  Proof using W.
    intros Hn. rewrite cut_children. destruct (opaque_el mark a j) eqn:Eo; [by intros ?%elem_of_nil|].
    intros Hc. split; [by eapply wf_child_lt|]. apply (wf_pc _ W) in Hc. by apply (hidden_not mark a c j).
  Qed.

  Lemma inside_children j : j < length a -> ~ hidden mark a j -> children (cut mark a') j = children (cut mark a) j.
  Proof using IO.
    intros H1 H2. rewrite !cut_children, inside_mark by done. destruct (opaque_el mark a j) eqn:Eo; [done|].
    by apply IO.
  Qed.
  Lemma inside_kind j : j < length a -> ~ hidden mark a j -> node_kind (cut mark a') j = node_kind (cut mark a) j.
  Proof using IO. intros H1 H2. rewrite !cut_kind. unfold node_kind. by rewrite (io_data _ _ IO). Qed.

  Lemma inside_empty_leaf j : j < length a -> ~ hidden mark a j -> empty_leaf (cut mark a) j -> empty_leaf (cut mark a') j.
  Proof using IO. intros H1 H2 [E1 E2]. split; [by rewrite inside_kind|by rewrite inside_children]. Qed.

  Lemma inside_shows va h : forall i, i < length a -> ~ hidden mark a i ->
    shows_v va (cut mark a) h i -> shows_v va (cut mark a') h i.
  Proof using IO W.
    induction h as [s|s|tag ns ats cs IH] using htree_ind'; intros i Hi Hn.
    - cbn. by rewrite inside_kind, inside_children.
    - cbn. by rewrite inside_kind, inside_children.
    - rewrite !shows_elem, inside_kind, inside_children by done. intros [HK (l1 & E & El & HE & HF)].
      split; [done|]. exists l1, E. split; [done|].
      assert (forall c, c ∈ (l1 ++ E)%list -> c < length a /\ ~ hidden mark a c) as Hc.
      { intros c Hc. apply (cut_child_shown i); [done|by rewrite El]. }
      split; [intros e He; destruct (Hc e); [apply elem_of_app; by right|]; apply inside_empty_leaf; auto|].
      assert (forall c, c ∈ l1 -> c < length a /\ ~ hidden mark a c) as Hc1.
      { intros c Hcc. apply Hc, elem_of_app. by left. }
      clear -IH HF Hc1. revert l1 HF Hc1. induction cs as [|h cs IHcs]; intros l1 HF Hc1; inversion HF; subst; [done|].
      constructor.
      + destruct (Hc1 y); [left|]. apply IH; auto. left.
      + apply IHcs; [|done|]; [intros h' Hh'; apply IH; by right|intros c Hcc; apply Hc1; by right].
  Qed.

  Lemma inside_shows_list va ts b : b < length a -> ~ hidden mark a b -> opaque_el mark a b = false ->
    shows_list_v va (cut mark a) ts (children a b) -> shows_list_v va (cut mark a') ts (children a' b).
  Proof using IO W.
    intros Hb Hn Ho. rewrite (io_children _ _ IO b Hb Hn Ho). intros (l1 & E & El & HE & HF).
    exists l1, E. split; [done|].
    assert (forall c, c ∈ (l1 ++ E)%list -> c < length a /\ ~ hidden mark a c) as Hc.
    { intros c Hc. apply (cut_child_shown b); [done|]. by rewrite cut_children, Ho, El. }
    split; [intros e He; destruct (Hc e); [apply elem_of_app; by right|]; apply inside_empty_leaf; auto|].
    assert (forall c, c ∈ l1 -> c < length a /\ ~ hidden mark a c) as Hc1.
    { intros c Hcc. apply Hc, elem_of_app. by left. }
    clear -HF Hc1 IO W. revert l1 HF Hc1. induction ts as [|h ts IHts]; intros l1 HF Hc1; inversion HF; subst; [done|].
    constructor; [|apply IHts; [done|intros c Hcc; apply Hc1; by right]].
    destruct (Hc1 y); [left|]. by apply inside_shows.
  Qed.
End Inside.

Lemma inside_body c c' cb : wf (doc_arena c) -> inside_only (doc_arena c) (doc_arena c') -> doc_root c' = doc_root c ->
  body c = Some cb -> ~ hidden mark (doc_arena c) cb -> body c' = Some cb.
Proof.
  intros W IO Er Hb Hn. unfold body, body_in in *. rewrite Er.
  pose proof (find_some _ _ Hb) as [Hin _]. apply elem_of_list_In in Hin.
  assert (parent (doc_arena c) cb = Some (doc_root c)) as Hp by (by apply (wf_pc _ W)).
  pose proof (wf_parent_lt _ _ _ W Hp) as Hl.
  assert (~ hidden mark (doc_arena c) (doc_root c)) as Hnr by (intros Hx; by apply Hn, (hidden_up mark _ cb (doc_root c))).
  assert (opaque_el mark (doc_arena c) (doc_root c) = false) as Hor.
  { destruct (opaque_el mark (doc_arena c) (doc_root c)) eqn:E; [|done]. destruct Hn. by apply (hidden_here mark _ cb (doc_root c)). }
  rewrite (io_children _ _ IO _ Hl Hnr Hor). rewrite <- Hb.
  assert (forall x, x ∈ children (doc_arena c) (doc_root c) -> has_tag (doc_arena c') "body" x = has_tag (doc_arena c) "body" x) as Ht.
  { intros x Hx. unfold has_tag, node_kind. rewrite (io_data _ _ IO); [done|by eapply wf_child_lt|].
    apply (wf_pc _ W) in Hx. by apply (hidden_not mark _ x (doc_root c)). }
  revert Ht. generalize (children (doc_arena c) (doc_root c)). clear. induction l as [|x l IH]; intros Ht; [done|].
  cbn [find]. rewrite Ht by left. destruct (has_tag (doc_arena c) "body" x); [done|]. apply IH. intros y Hy. apply Ht. by right.
Qed.

(** ** A document read without the content of opaque elements *)

Fixpoint prune (h : htree) : htree :=
  match h with
  | HElem tag ns ats cs => HElem tag ns ats (if is_opaque_props ats then [] else map prune cs)
  | _ => h
  end.

Lemma holds_cut a h : forall i, holds a h i -> holds (cut mark a) (prune h) i.
Proof.
  induction h as [s|s|tag ns ats cs IH] using htree_ind'; intros i Hh.
  1,2: destruct Hh as [Hk Hc]; split; [by rewrite cut_kind|]; rewrite cut_children, Hc; by destruct (opaque_el mark a i).
  apply holds_elem in Hh as [Hd Hc]. cbn [prune]. apply holds_elem. rewrite cut_data, cut_children. split; [done|].
  assert (opaque_el mark a i = is_opaque_props ats) as -> by (unfold opaque_el, node_kind; by rewrite Hd).
  destruct (is_opaque_props ats); [constructor|].
  clear -IH Hc. unfold holds_list in *. revert IH Hc. generalize (children a i). induction cs as [|c cs IHcs]; intros l IH Hc;
    inversion Hc; subst; constructor.
  - apply IH; [left|done].
  - apply IHcs; [|done]. intros c' Hc'. apply IH. by right.
Qed.

Lemma holds_list_cut a ts l : holds_list a ts l -> holds_list (cut mark a) (map prune ts) l.
Proof. unfold holds_list. induction 1; constructor; [by apply holds_cut|done]. Qed.

(** ** The mark in a browser *)

Lemma bname_mark q : q_prefix q = None \/ q_local q <> opaque_attr -> String.eqb (bname q) opaque_attr = mark q.
Proof.
  intros Hq. unfold bname, mark. destruct (q_prefix q) as [p|]; [|done].
  destruct Hq as [?|Hq]; [done|]. destruct (String.eqb p ""); [done|].
  destruct (String.eqb_spec (q_local q) opaque_attr); [done|]. apply String.eqb_neq. intros E.
  assert (forall p l, In ":"%char (list_ascii_of_string (p ++ ":" ++ l))) as Hin.
  { intros p' l. induction p' as [|c p' IH]; cbn; auto. }
  pose proof (Hin p (q_local q)) as Hx. rewrite E in Hx. revert Hx. vm_compute. intros Hx.
  repeat (destruct Hx as [Hx|Hx]; [discriminate|]). done.
Qed.

Lemma op_battrs l : (forall q, q ∈ keys l -> q_prefix q = None \/ q_local q <> opaque_attr) ->
  op mark (battrs l) = is_opaque_props l.
Proof.
  induction l as [|[q v] l IH]; intros Hl; [done|].
  change (String.eqb (bname q) opaque_attr || op mark (battrs l) = mark q || is_opaque_props l)%bool.
  rewrite (bname_mark q) by (apply Hl; left). f_equal.
  apply IH. intros q' Hq'. apply Hl. by right.
Qed.
