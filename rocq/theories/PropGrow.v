(** Property theorems on content added to a page and taken away from it: C67. *)
From stdpp Require Import list_numbers relations.
From Verif Require Import Base Arena Matching Chawathe Dom HtmlDiff Browser
  ArenaProofs ArenaOps TreeProofs DtreeProofs MatchProofs DomTree FrameProofs SimProofs Applier BrowserProofs
  ConvProofs RoundProofs AssembleProofs NestProofs Instances InstanceProofs HashProofs
  PropMatch PropFrame PropRoundtrip PropClient PropBrowser PropKeep
  InPlaceSpec GrowSpec GrowProofs GrowScript PropSelf.
Local Open Scope string_scope.

(** Two pages without opaque elements, the new body without attributes, and a
    plan that reads the change from one to the other without ambiguity: what is
    in both pages is the same but for attributes, or similar at the same index;
    nothing that is gone has the tag of something new; equal trees facing one
    another are counterparts or have both an equal counterpart; half of the nodes
    have an equal counterpart.  A document that shows the old page, for example
    the old page itself.  Then the diff exists, its patches apply without error
    and give the new page; each node that the plan has in both pages is still
    the same DOM node, now at its new place; each other node of the new page was
    created; and there is one insertion for each new node, one removal for each
    node that is gone, one move for each node whose index has changed, one
    further patch for each text or list of attributes that has changed, and
    nothing else. *)
Theorem clear_change_patches : forall {H} (heqb : H -> H -> bool) hcomb h0 (parse : string -> list htree)
    (old new c : document) ob nb cb oats ts us pl,
  collision_free heqb hcomb -> (forall x, heqb x x = true) ->
  plain_doc old ob oats ts -> plain_doc new nb [] us ->
  clear_change pl (page ts) (page us) = true ->
  wf (doc_arena c) -> body c = Some cb -> shows_list (doc_arena c) ts (children (doc_arena c) cb) ->
  exists ps c',
    diff heqb hcomb h0 old new = Val ps /\ apply_patches parse c ps = (c', Val tt) /\
    wf (doc_arena c') /\ body c' = Some cb /\ to_body_html c' = to_body_html new /\
    (forall p q u v, ((p, q), (u, v)) ∈ pairs_by pl [] [] (page ts) (page us) ->
       exists i, node_at (doc_arena c) cb p = Some i /\ node_at (doc_arena c') cb q = Some i) /\
    (forall q v, hat (page us) q = Some v -> (forall p e, ((p, q), e) ∉ pairs_by pl [] [] (page ts) (page us)) ->
       exists i, node_at (doc_arena c') cb q = Some i /\ length (doc_arena c) <= i) /\
    patches_count pl (page ts) (page us) ps.
Proof.
  intros H heqb hcomb h0 parse old new c ob nb cb oats ts us pl CF HR PO PN CC W Hb Hs.
  destruct (clear_diff heqb hcomb h0 CF HR old new ob nb oats ts us PO PN pl CC)
    as (t & ta & tb & m & CM & NC & SF & SI & P1 & P2 & P3).
  destruct (diff_run_on heqb hcomb h0 old new ob nb oats [] ts us PO PN parse t ta tb m CM NC SF SI
      (doc_arena c) cb W (body_is_elem c cb Hb) Hs) as (ps & D' & sl & Ed & Ea & W' & Hs' & EL & Hh & ID1 & ID2).
  assert (Eap : exists c', apply_patches parse c ps = (c', Val tt) /\ doc_arena c' = D').
  { unfold apply_patches. destruct ps as [|p ps'].
    - cbn [apply_all] in Ea. injection Ea as <- <-. by exists c.
    - rewrite (init_slots c cb Hb). cbv beta iota.
      match goal with |- context [apply_all ?p ?s ?l] => replace (apply_all p s l) with ((D', sl), Val tt) by (symmetry; exact Ea) end.
      eauto. }
  destruct Eap as (c' & Eap & <-). exists ps, c'. split; [done|]. split; [done|]. split; [done|].
  destruct (outside_body_untouched parse c cb ps W Hb Hh) as (_ & _ & F3 & _). rewrite Eap in F3. cbn [fst] in F3.
  split; [done|]. split.
  { unfold to_body_html. rewrite F3, (md_body _ _ _ _ PN), (shows_body_html _ us cb W' Hs').
    by rewrite (serialize_inner_holds _ us nb (md_wf _ _ _ _ PN) (md_holds _ _ _ _ PN)). }
  split; [|split].
  - intros p q u v Hin. destruct (P1 p q u v Hin) as (x & y & E1 & E2 & E3). by eapply ID1.
  - intros q v Hq Hno. destruct (P2 q v Hq Hno) as (y & E1 & E2). by eapply ID2.
  - by apply P3.
Qed.
Print Assumptions clear_change_patches.

(** The same in the browser. *)
Theorem clear_change_patches_browser : forall {H} (heqb : H -> H -> bool) hcomb h0
    valid_elem valid_attr parse_template (old new : document) ob nb oats ts us pl (C : arena dnode) cb ctag cl,
  collision_free heqb hcomb -> (forall x, heqb x x = true) ->
  plain_doc old ob oats ts -> plain_doc new nb [] us ->
  clear_change pl (page ts) (page us) = true ->
  (forall h, h ∈ ts -> names_ok valid_elem valid_attr h) ->
  (forall h, h ∈ us -> names_ok valid_elem valid_attr h) -> b_okn valid_elem valid_attr "body" [] ->
  wf C -> node_kind C cb = Some (NElem ctag cl) -> shows_list C (map btree ts) (children C cb) ->
  exists ps C' sl,
    diff heqb hcomb h0 old new = Val ps /\
    b_apply_all valid_elem valid_attr parse_template cb (C, []) ps = ((C', sl), Val tt) /\
    shows_list C' (map btree us) (children C' cb) /\
    (forall p q u v, ((p, q), (u, v)) ∈ pairs_by pl [] [] (page ts) (page us) ->
       exists i, node_at C cb p = Some i /\ node_at C' cb q = Some i) /\
    (forall q v, hat (page us) q = Some v -> (forall p e, ((p, q), e) ∉ pairs_by pl [] [] (page ts) (page us)) ->
       exists i, node_at C' cb q = Some i /\ length C <= i) /\
    patches_count pl (page ts) (page us) ps.
Proof.
  intros H heqb hcomb h0 ve va pt old new ob nb oats ts us pl C cb ctag cl CF HR PO PN CC OKO OKN OKB W Hk Hs.
  destruct (clear_diff heqb hcomb h0 CF HR old new ob nb oats ts us PO PN pl CC)
    as (t & ta & tb & m & CM & NC & SF & SI & P1 & P2 & P3).
  destruct (diff_run_with heqb hcomb h0 old new ob nb oats [] ts us PO PN t ta tb m CM NC SF SI
    battrs (b_okn ve va) (b_ap ve va pt) C cb)
    as (ps & D' & sl & Ed & Ea & W' & Hs' & EL & Hh & ID1 & ID2).
  - apply browser_applier.
  - intros h Hi. by apply names_ok_hall, OKO.
  - intros h Hi. by apply names_ok_hall, OKN.
  - by exists "body".
  - by exists "body".
  - done.
  - eauto.
  - by apply shows_list_btree.
  - destruct (b_ap_run ve va pt cb ps C [(0, cb)] [] ((D', sl)) eq_refl) as [sl1 Eb]; [|done|].
    { intros k Hk0. destruct k; [done|reflexivity]. }
    exists ps, D', sl1. split; [done|]. split; [done|]. split; [by apply shows_list_btree|]. split; [|split].
    + intros p q u v Hin. destruct (P1 p q u v Hin) as (x & y & E1 & E2 & E3). by eapply ID1.
    + intros q v Hq Hno. destruct (P2 q v Hq Hno) as (y & E1 & E2). by eapply ID2.
    + by apply P3.
Qed.
Print Assumptions clear_change_patches_browser.

(** ** Examples *)

(** A heading is edited, an item is added to a list, a box is added before two
    paragraphs. *)
Definition gr_old : list htree :=
  [el "h1" [tx "T"]; el "p" [tx "one"]; el "ul" [el "li" [tx "a"]; el "li" [tx "b"]]; el "p" [tx "two"]; el "p" [tx "end"]].
Definition gr_new : list htree :=
  [el "h1" [tx "Title"]; el "p" [tx "one"]; el "ul" [el "li" [tx "a"]; el "li" [tx "c"]; el "li" [tx "b"]];
   el "div" [el "p" [tx "new"]]; el "p" [tx "two"]; el "p" [tx "end"]].
Definition gr_plan : plan :=
  Both (Both Done Done) (Both Done (Both (Both Done (New (Both Done Done))) (New (Both Done (Both Done Done))))).

Example clear_change_example : exists ps c',
  pdiff (mk_doc [] gr_old) (mk_doc [] gr_new) = Val ps /\ apply_patches no_parser (mk_doc [] gr_old) ps = (c', Val tt) /\
  to_body_html c' = to_body_html (mk_doc [] gr_new) /\
  (* the paragraph "end" is the same node *)
  (exists i, node_at (doc_arena (mk_doc [] gr_old)) 2 [4] = Some i /\ node_at (doc_arena c') 2 [5] = Some i) /\
  (* the box is new *)
  (exists i, node_at (doc_arena c') 2 [3] = Some i /\ length (doc_arena (mk_doc [] gr_old)) <= i) /\
  length (List.filter an_insert ps) = 5 /\ length (List.filter a_remove ps) = 0 /\
  length (List.filter a_move ps) = 3 /\ length (List.filter a_rewrite ps) = 1 /\ length ps = 9.
Proof.
  assert (plain_doc (mk_doc [] gr_old) 2 [] gr_old) as PO by (apply mk_doc_plain; solve_plain).
  assert (plain_doc (mk_doc [] gr_new) 2 [] gr_new) as PN by (apply mk_doc_plain; solve_plain).
  destruct (clear_change_patches phash_eqb PH PH0 no_parser (mk_doc [] gr_old) (mk_doc [] gr_new) (mk_doc [] gr_old) 2 2 2 [] gr_old gr_new gr_plan)
    as (ps & c' & Ed & Ea & _ & _ & Eh & K1 & K2 & C1 & C2 & C3 & C4 & C5).
  - exact phash_collision_free.
  - exact phash_eqb_refl.
  - exact PO.
  - exact PN.
  - vm_compute. reflexivity.
  - exact (pd_wf _ _ _ _ PO).
  - reflexivity.
  - apply holds_shows_list. exact (pd_holds _ _ _ _ PO).
  - exists ps, c'. split; [exact Ed|]. split; [exact Ea|]. split; [exact Eh|].
    split.
    { apply (K1 [4] [5] (el "p" [tx "end"]) (el "p" [tx "end"])). apply (elem_of_list_lookup_2 _ 12). vm_compute. reflexivity. }
    split.
    { apply (K2 [3] (el "div" [el "p" [tx "new"]])); [reflexivity|]. intros p e Hin. apply elem_of_list_In in Hin.
      assert (forallb (fun x : pairing => negb (path_eqb (snd (fst x)) [3])) (pairs_by gr_plan [] [] (page gr_old) (page gr_new)) = true) as Hf
        by (vm_compute; reflexivity).
      rewrite forallb_forall in Hf. specialize (Hf _ Hin). done. }
    rewrite C5, C1, C2, C3, C4. vm_compute. repeat split.
Qed.

(** A comment is taken away and an image with it; what follows moves up. *)
Definition gr_old2 : list htree :=
  [el "h1" [tx "T"]; HComment "draft"; el "figure" [el_a "img" [ex_attr "src" "x.png"] []]; el "p" [tx "one"]; el "p" [tx "two"; el "b" [tx "!"]]].
Definition gr_new2 : list htree :=
  [el "h1" [tx "T"]; el "p" [tx "one"]; el "p" [tx "two"; el "b" [tx "!"]]].
Definition gr_plan2 : plan := Both Done (Gone (Gone (Both Done (Both Done Done)))).
Example clear_change_removal : clear_change gr_plan2 (page gr_old2) (page gr_new2) = true /\
  exists ps c', pdiff (mk_doc [] gr_old2) (mk_doc [] gr_new2) = Val ps /\ apply_patches no_parser (mk_doc [] gr_old2) ps = (c', Val tt) /\
  to_body_html c' = Some "<h1>T</h1><p>one</p><p>two<b>!</b></p>" /\
  length (List.filter an_insert ps) = 0 /\ length (List.filter a_remove ps) = 3 /\
  length (List.filter a_move ps) = 2 /\ length (List.filter a_rewrite ps) = 0.
Proof.
  split; [vm_compute; reflexivity|]. eexists _, _. split; [vm_compute; reflexivity|]. split; [vm_compute; reflexivity|].
  vm_compute. repeat split.
Qed.

(** ** What a plan does not promise *)

(** An item in front of a list: all items move. *)
Example insertion_moves_siblings : exists ps,
  pdiff (mk_doc [] [el "ul" [el "li" [tx "a"]; el "li" [tx "b"]; el "li" [tx "c"]; el "li" [tx "d"]]])
        (mk_doc [] [el "ul" [el "li" [tx "new"]; el "li" [tx "a"]; el "li" [tx "b"]; el "li" [tx "c"]; el "li" [tx "d"]]]) = Val ps /\
  length (List.filter an_insert ps) = 2 /\ length (List.filter a_move ps) = 4 /\ length ps = 6.
Proof. eexists. split; [vm_compute; reflexivity|]. vm_compute. done. Qed.

(** Without the condition on equal trees: a paragraph and the line break after it
    are added.  The line breaks before it have kept their places, but one of them
    moves: as the comparison goes, it is the counterpart of a line break further
    down. *)
Definition ws_old : list htree := [tx "n"; el "p" [tx "one"]; tx "n"; el "p" [tx "two"]; tx "n"].
Definition ws_new : list htree := [tx "n"; el "p" [tx "one"]; tx "n"; el "p" [tx "X"]; tx "n"; el "p" [tx "two"]; tx "n"].
Definition ws_plan : plan := Both Done (Both Done (Both Done (New (New (Both Done (Both Done Done)))))).
Theorem twins_unchanged_refuted : exists ps,
  fits_in ws_plan 0 0 ws_old ws_new = true /\ apart ws_plan (page ws_old) (page ws_new) = true /\
  half_same ws_plan (page ws_old) (page ws_new) = true /\ no_twins_by ws_plan (page ws_old) (page ws_new) = false /\
  pdiff (mk_doc [] ws_old) (mk_doc [] ws_new) = Val ps /\
  roundtrip (mk_doc [] ws_old) (mk_doc [] ws_new) = to_body_html (mk_doc [] ws_new) /\
  length (List.filter shifted (pairs_by ws_plan [] [] (page ws_old) (page ws_new))) = 2 /\
  length (List.filter a_move ps) = 4.
Proof.
  eexists. split; [vm_compute; reflexivity|]. split; [vm_compute; reflexivity|]. split; [vm_compute; reflexivity|]. split; [vm_compute; reflexivity|].
  split; [vm_compute; reflexivity|]. split; [vm_compute; reflexivity|]. split; vm_compute; reflexivity.
Qed.
Print Assumptions twins_unchanged_refuted.
