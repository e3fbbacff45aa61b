(** Property theorems on diffing and applying: C01, C02, and the bound on the
    number of patches of C32. *)
From stdpp Require Import list_numbers relations.
From Verif Require Import Base Arena Matching Chawathe Dom HtmlDiff
  ArenaProofs ArenaOps TreeProofs DtreeProofs MatchProofs DomTree FrameProofs ConvProofs RoundProofs AssembleProofs
  NestProofs Instances InstanceProofs HashProofs PropMatch PropFrame.
Local Open Scope string_scope.

(** ** C01, C02 *)

(** Two documents with a body, in the domain [mild_doc] (distinct attribute
    names, opaque elements empty, no [body] element inside the body), such that
    in the comparison made by [diff] no two different subtrees have equal
    hashes, no Move of the edit script puts a node below itself (see
    [swap_free]), and no opaque element is matched with one of another hash.

    Then [diff] returns patches; they apply to the old document without error;
    the result is an acyclic document with the same body element, whose body
    HTML is that of the new document, and whose body content is that of the new
    document except for empty text nodes and namespaces; and everything outside
    the body is as in the old document. *)
Theorem diff_roundtrip_opaque : forall {H} (heqb : H -> H -> bool) hcomb h0 (parse : string -> list htree)
    (old new : document) ob nb oats nats ts us,
  mild_doc old ob oats ts -> mild_doc new nb nats us ->
  (forall t ta tb m, compared heqb hcomb h0 old new t ta tb m ->
     no_collision heqb ta tb /\ swap_free m (init_parents t tb m) (html_edit_script ta tb m) /\
     opaque_silent heqb ta tb m) ->
  exists ps d',
    diff heqb hcomb h0 old new = Val ps /\
    apply_patches parse old ps = (d', Val tt) /\
    wf (doc_arena d') /\ body d' = Some ob /\ to_body_html d' = to_body_html new /\
    (exists us', holds_list (doc_arena d') us' (children (doc_arena d') ob) /\ norms us' = norms us) /\
    doc_root d' = doc_root old /\ doc_doctype d' = doc_doctype old /\ head d' = head old /\
    (forall j, j < length (doc_arena old) -> ~ above (doc_arena old) ob j ->
       data (doc_arena d') j = data (doc_arena old) j /\
       children (doc_arena d') j = children (doc_arena old) j /\
       parent (doc_arena d') j = parent (doc_arena old) j).
Proof.
  intros H heqb hcomb h0 parse old new ob nb oats nats ts us PO PN HC.
  destruct (compared_total heqb hcomb h0 old new ob nb oats nats ts us PO PN) as (t & ta & tb & m & CM).
  destruct (HC t ta tb m CM) as (NC & SF & SI).
  destruct (diff_run heqb hcomb h0 old new ob nb oats nats ts us PO PN parse t ta tb m CM NC SF SI)
    as (ps & D' & sl & Ed & Ea & W' & Hs & _ & Hh & _).
  set (d' := mkDoc D' (doc_root old) (doc_doctype old)).
  assert (Eap : exists d', apply_patches parse old ps = (d', Val tt) /\ doc_arena d' = D').
  { unfold apply_patches. destruct ps as [|p ps'].
    - cbn [apply_all] in Ea. injection Ea as <- <-. by exists old.
    - rewrite (init_slots old ob (md_body _ _ _ _ PO)). cbv beta iota.
      match goal with |- context [apply_all ?p ?s ?l] => replace (apply_all p s l) with ((D', sl), Val tt) by (symmetry; exact Ea) end.
      eauto. }
  clear d'. destruct Eap as (d' & Eap & <-).
  destruct (outside_body_untouched parse old ob ps (md_wf _ _ _ _ PO) (md_body _ _ _ _ PO) Hh)
    as (F1 & F2 & F3 & F4 & F5). rewrite Eap in F1, F2, F3, F4, F5. cbn [fst] in *.
  exists ps, d'. split_and!; try done.
  - unfold to_body_html. rewrite F3, (md_body _ _ _ _ PN).
    rewrite (shows_body_html _ us ob W' Hs).
    by rewrite (serialize_inner_holds _ us nb (md_wf _ _ _ _ PN) (md_holds _ _ _ _ PN)).
  - by apply shows_list_holds.
Qed.
Print Assumptions diff_roundtrip_opaque.

(** Without opaque elements. *)
Corollary diff_roundtrip : forall {H} (heqb : H -> H -> bool) hcomb h0 (parse : string -> list htree)
    (old new : document) ob nb oats nats ts us,
  plain_doc old ob oats ts -> plain_doc new nb nats us ->
  (forall t ta tb m, compared heqb hcomb h0 old new t ta tb m ->
     no_collision heqb ta tb /\ swap_free m (init_parents t tb m) (html_edit_script ta tb m)) ->
  exists ps d',
    diff heqb hcomb h0 old new = Val ps /\
    apply_patches parse old ps = (d', Val tt) /\
    wf (doc_arena d') /\ body d' = Some ob /\ to_body_html d' = to_body_html new /\
    (exists us', holds_list (doc_arena d') us' (children (doc_arena d') ob) /\ norms us' = norms us) /\
    doc_root d' = doc_root old /\ doc_doctype d' = doc_doctype old /\ head d' = head old /\
    (forall j, j < length (doc_arena old) -> ~ above (doc_arena old) ob j ->
       data (doc_arena d') j = data (doc_arena old) j /\
       children (doc_arena d') j = children (doc_arena old) j /\
       parent (doc_arena d') j = parent (doc_arena old) j).
Proof.
  intros H heqb hcomb h0 parse old new ob nb oats nats ts us PO PN HC.
  apply (diff_roundtrip_opaque heqb hcomb h0 parse old new ob nb oats nats ts us PO PN).
  intros t ta tb m CM. destruct (HC t ta tb m CM) as [NC SF]. split; [done|]. split; [done|].
  exact (plain_silent heqb hcomb h0 old new ob nb oats nats ts us t ta tb m PO PN CM NC).
Qed.
Print Assumptions diff_roundtrip.

(** A condition on the documents alone: if kinds of nodes can be ordered such
    that in both documents children come later than their parents (no [div]
    inside a [div], and so on), every pair of documents round-trips. *)
Corollary diff_roundtrip_ordered : forall {H} (heqb : H -> H -> bool) hcomb h0 (parse : string -> list htree)
    (r : hkind -> nat) (old new : document) ob nb oats nats ts us,
  collision_free heqb hcomb ->
  plain_doc old ob oats ts -> plain_doc new nb nats us ->
  (forall h, h ∈ ts -> nests (fun p k => r p < r k) bodyk h) ->
  (forall h, h ∈ us -> nests (fun p k => r p < r k) bodyk h) ->
  exists ps d',
    diff heqb hcomb h0 old new = Val ps /\
    apply_patches parse old ps = (d', Val tt) /\
    wf (doc_arena d') /\ body d' = Some ob /\ to_body_html d' = to_body_html new.
Proof.
  intros H heqb hcomb h0 parse r old new ob nb oats nats ts us CF PO PN Ro Rn.
  destruct (diff_roundtrip heqb hcomb h0 parse old new ob nb oats nats ts us PO PN) as (ps & d' & H1 & H2 & H3 & H4 & H5 & _).
  - intros t ta tb m CM.
    pose proof (compared_faithful heqb hcomb h0 old new ob nb oats nats ts us PO PN t ta tb m CF CM) as NC.
    split; [done|]. by apply (ranked_compared heqb hcomb h0 old new ob nb oats nats ts us PO PN r t ta tb m CM NC).
  - by exists ps, d'.
Qed.
Print Assumptions diff_roundtrip_ordered.

(** Another condition: nothing is moved to another parent or position. *)
Corollary diff_roundtrip_no_moves : forall {H} (heqb : H -> H -> bool) hcomb h0 (parse : string -> list htree)
    (old new : document) ob nb oats nats ts us,
  collision_free heqb hcomb ->
  plain_doc old ob oats ts -> plain_doc new nb nats us ->
  (forall t ta tb m x y p k, compared heqb hcomb h0 old new t ta tb m ->
     Move x y p k ∉ html_edit_script ta tb m) ->
  exists ps d',
    diff heqb hcomb h0 old new = Val ps /\
    apply_patches parse old ps = (d', Val tt) /\
    wf (doc_arena d') /\ body d' = Some ob /\ to_body_html d' = to_body_html new.
Proof.
  intros H heqb hcomb h0 parse old new ob nb oats nats ts us CF PO PN NM.
  destruct (diff_roundtrip heqb hcomb h0 parse old new ob nb oats nats ts us PO PN) as (ps & d' & H1 & H2 & H3 & H4 & H5 & _).
  - intros t ta tb m CM. split.
    { by apply (compared_faithful heqb hcomb h0 old new ob nb oats nats ts us PO PN t ta tb m CF). }
    apply (ranked_swap_free m (fun _ => False) (fun _ => 0)); [done|].
    intros x y py k Hin. by destruct (NM t ta tb m x y py k CM).
  - by exists ps, d'.
Qed.
Print Assumptions diff_roundtrip_no_moves.

(** ** Examples *)

Definition swap_check (old new : document) : bool :=
  match body old, body new with
  | Some ob, Some nb =>
      match build_tree (doc_arena old) ob with
      | Val t =>
          match mk_dtree PH PH0 (fun d => d) t 0, mk_dtree PH PH0 tdata_of (doc_arena new) nb with
          | Val ta, Val tb =>
              match html_matching phash_eqb ta tb with
              | Val m => swap_freeb 100 m (init_parents t tb m) (html_edit_script ta tb m)
              | _ => false
              end
          | _, _ => false
          end
      | _ => false
      end
  | _, _ => false
  end.

Lemma swap_check_sound old new t ta tb m : swap_check old new = true ->
  compared phash_eqb PH PH0 old new t ta tb m ->
  swap_free m (init_parents t tb m) (html_edit_script ta tb m).
Proof.
  intros Hc (ob & nb & Eo & En & Et & Ea & Eb & Em). unfold swap_check in Hc.
  rewrite Eo, En, Et, Ea, Eb, Em in Hc. by eapply swap_freeb_sound.
Qed.

Ltac solve_plain :=
  intros ? Hin; repeat (apply elem_of_cons in Hin as [->|Hin]; [cbn; repeat split; try discriminate;
    first [apply NoDup_nil_2|apply NoDup_singleton|
           apply NoDup_cons; split; [intros Hk; apply elem_of_list_singleton in Hk; discriminate|apply NoDup_singleton]]|]);
  by apply elem_of_nil in Hin.

Lemma mk_doc_plain h b : (forall t, t ∈ b -> hall (plain bodyk) t) -> plain_doc (mk_doc h b) 2 [] b.
Proof.
  intros Hp. destruct (mk_doc_ok h b) as (W & _ & _ & _ & _ & _ & D & _ & Hh & Hb).
  split; try done. constructor.
Qed.

Definition ex_old_body : list htree :=
  [el "p" [tx "one"]; el_a "div" [ex_attr "id" "x"] [el "b" [tx "two"]; tx "three"]; el "i" [tx "gone"]].
Definition ex_new_body : list htree :=
  [el_a "div" [ex_attr "id" "y"; ex_attr "class" "c"] [tx "three"; el "section" [el "b" [tx "two"]; el "p" [tx "one!"]]; el "u" []]].

(** The hypotheses hold of two concrete documents that differ in attributes,
    text, nesting and order. *)
Example diff_roundtrip_example :
  let old := mk_doc [el "title" [tx "t"]] ex_old_body in
  let new := mk_doc [] ex_new_body in
  plain_doc old 2 [] ex_old_body /\ plain_doc new 2 [] ex_new_body /\
  (forall t ta tb m, compared phash_eqb PH PH0 old new t ta tb m ->
     no_collision phash_eqb ta tb /\ swap_free m (init_parents t tb m) (html_edit_script ta tb m)) /\
  roundtrip old new = to_body_html new /\ to_body_html old <> to_body_html new /\
  (exists ps, pdiff old new = Val ps /\ length ps = 15).
Proof.
  intros old new.
  assert (plain_doc old 2 [] ex_old_body) as PO by (apply mk_doc_plain; solve_plain).
  assert (plain_doc new 2 [] ex_new_body) as PN by (apply mk_doc_plain; solve_plain).
  split; [done|]. split; [done|]. split.
  - intros t ta tb m CM. split.
    + by apply (compared_faithful phash_eqb PH PH0 old new _ _ _ _ _ _ PO PN t ta tb m phash_collision_free).
    + apply (swap_check_sound old new); [vm_compute; reflexivity|done].
  - split; [vm_compute; reflexivity|]. split; [vm_compute; discriminate|].
    eexists. split; [vm_compute; reflexivity|reflexivity].
Qed.

(** Documents with a fixed nesting [p] > [b] > text, in the order used by
    [diff_roundtrip_ordered]. *)
Definition ex_rank (k : hkind) : nat :=
  match k with
  | KElem "body" _ => 0 | KElem "div" _ => 1 | KElem "p" _ => 2 | KElem "b" _ => 3 | KElem _ _ => 4
  | KText => 5 | KComment => 5
  end.
Example diff_roundtrip_ordered_example :
  let old := [el "div" [el "p" [tx "a"; el "b" [tx "c"]]]; el "p" [tx "d"]] in
  let new := [el "p" [el "b" [tx "c"]; tx "d"]; el "div" [HComment "x"; el "p" [tx "a"]]] in
  (forall h, h ∈ old -> nests (fun p k => ex_rank p < ex_rank k) bodyk h) /\
  (forall h, h ∈ new -> nests (fun p k => ex_rank p < ex_rank k) bodyk h) /\
  (exists ps, pdiff (mk_doc [] old) (mk_doc [] new) = Val ps /\ length ps = 12).
Proof.
  split; [|split].
  - intros h Hin. repeat (apply elem_of_cons in Hin as [->|Hin]; [cbn; repeat split; lia|]). by apply elem_of_nil in Hin.
  - intros h Hin. repeat (apply elem_of_cons in Hin as [->|Hin]; [cbn; repeat split; lia|]). by apply elem_of_nil in Hin.
  - eexists. split; [vm_compute; reflexivity|reflexivity].
Qed.

(** Without [swap_free] the statement fails, although both documents are in the
    domain and the hash has no collisions at all: matched [div]s swap their
    nesting and a whole subtree is lost. *)
Definition swap_old : list htree :=
  [el "div" [el "div" [tx "B"; el "div" [el "div" [el "span" [tx "A"]]]]]; tx "A"].
Definition swap_new : list htree :=
  [el "div" [el "div" [el "div" [tx "B"; el "div" [el "span" [tx "A"]]]]]].
Theorem diff_roundtrip_unconditional_refuted : exists old new ob nb oats nats ts us ps d',
  plain_doc old ob oats ts /\ plain_doc new nb nats us /\ collision_free phash_eqb PH /\
  pdiff old new = Val ps /\ apply_patches no_parser old ps = (d', Val tt) /\
  to_body_html d' <> to_body_html new /\
  to_body_html d' = Some "<div><div><div></div></div></div>" /\
  to_body_html new = Some "<div><div><div>B<div><span>A</span></div></div></div></div>".
Proof.
  exists (mk_doc [] swap_old), (mk_doc [] swap_new), 2, 2, [], [], swap_old, swap_new.
  eexists _, _. split; [apply mk_doc_plain; solve_plain|]. split; [apply mk_doc_plain; solve_plain|].
  split; [exact phash_collision_free|].
  split; [vm_compute; reflexivity|]. split; [vm_compute; reflexivity|].
  split; [vm_compute; discriminate|]. split; vm_compute; reflexivity.
Qed.
Print Assumptions diff_roundtrip_unconditional_refuted.

(** Worse, the native applier can panic on the patches of [diff]: the children
    of an element that is alone in a slot are moved "next to it", to paths that
    the applier reads as children of that element; then the element is moved
    below one of them. *)
Definition wrap_old : list htree :=
  [el_a "div" [ex_attr "id" "w"] [el "div" []; el "div" [el "div" [el "div" [el "div"
     [el "p" [el "i" []; el "b" []; tx "a"; el "u" []; el "q" []; el "s" []]; tx "z"]]]]]].
Definition wrap_new : list htree :=
  [el "div" [el "div" [el "div" [el "div" [el_a "div" [ex_attr "id" "w"]
     [el "p" [el "i" []; el "b" []; tx "a"; el "u" []; el "q" []; el "s" []]]]]]]].
Theorem diff_patches_panic_refuted : exists old new ob nb oats nats ts us ps,
  plain_doc old ob oats ts /\ plain_doc new nb nats us /\ collision_free phash_eqb PH /\
  pdiff old new = Val ps /\ snd (apply_patches no_parser old ps) = Panic.
Proof.
  exists (mk_doc [] wrap_old), (mk_doc [] wrap_new), 2, 2, [], [], wrap_old, wrap_new.
  eexists. split; [apply mk_doc_plain; solve_plain|]. split; [apply mk_doc_plain; solve_plain|].
  split; [exact phash_collision_free|]. split; vm_compute; reflexivity.
Qed.
Print Assumptions diff_patches_panic_refuted.

(** ** C32: the number of patches *)

(** In the domain of the round trip every edit operation gives one patch, so
    the bound on operations holds for patches. *)
Theorem patch_count : forall {H} (heqb : H -> H -> bool) hcomb h0 (old new : document)
    ob nb oats nats ts us t ta tb m,
  plain_doc old ob oats ts -> plain_doc new nb nats us ->
  compared heqb hcomb h0 old new t ta tb m ->
  no_collision heqb ta tb -> swap_free m (init_parents t tb m) (html_edit_script ta tb m) ->
  exists ps, diff heqb hcomb h0 old new = Val ps /\
    length ps <= 3 * length (m_pairs m)
      + length (List.filter (fun b => match get_a m b with Some _ => false | None => true end) (t_iter tb))
      + length (List.filter (fun a => match get_b m a with Some _ => false | None => true end) (t_iter ta)).
Proof.
  intros H heqb hcomb h0 old new ob nb oats nats ts us t ta tb m PO PN CM NC SF.
  destruct (diff_run heqb hcomb h0 old new ob nb oats nats ts us PO PN no_parser t ta tb m CM NC SF
    (plain_silent heqb hcomb h0 old new ob nb oats nats ts us t ta tb m PO PN CM NC))
    as (ps & D' & sl & Ed & _ & _ & _ & El & _).
  exists ps. split; [done|]. rewrite El.
  destruct (compared_presents heqb hcomb h0 old new ob nb oats nats ts us PO PN t ta tb m CM) as (ra & rb & PA & PB).
  rewrite (pr_iter tb rb PB), (pr_iter ta ra PA). by apply edit_script_size.
Qed.
Print Assumptions patch_count.
