(** Property theorem on what patch application does not touch: C21. *)
From Verif Require Import Base Arena Matching Dom HtmlDiff.
From Verif Require Import ArenaProofs ArenaOps TreeProofs DomTree ApplyProofs FrameProofs Instances InstanceProofs.
Local Open Scope string_scope.

(** [hits_body p]: [p] is [Remove] or [Move] of the path [[0]], the body itself.
    Every other patch, Moves included, well-formed or not, succeeding or
    failing half-way, leaves all nodes outside the body subtree as they were,
    and the body stays the same node. *)
Theorem outside_body_untouched : forall (parse : string -> list htree) (d : document) (b : nat)
    (ps : list patch),
  wf (doc_arena d) -> body d = Some b ->
  (forall p, p ∈ ps -> hits_body p = false) ->
  let a := doc_arena d in
  let d' := fst (apply_patches parse d ps) in
  doc_root d' = doc_root d /\ doc_doctype d' = doc_doctype d /\ body d' = Some b /\ head d' = head d /\
  (forall j, j < length a -> ~ above a b j ->
     data (doc_arena d') j = data a j /\ children (doc_arena d') j = children a j /\
     parent (doc_arena d') j = parent a j).
Proof.
  intros parse d b ps W Hb Hp a d'.
  assert (Hbc : b ∈ children a (doc_root d) /\ has_tag a "body" b = true).
  { unfold body, body_in in Hb. apply find_some in Hb as [H1 H2]. split; [by apply elem_of_list_In|done]. }
  destruct Hbc as [Hbc Htag].
  assert (Hl : b < length a) by by eapply wf_child_lt.
  destruct (apply_patches_framed parse d b ps W Hl Hb Hp) as (E1 & E2 & F).
  fold d' in E1, E2, F. fold a in F.
  pose proof (framed_finds a (doc_arena d') (doc_root d) b W Hbc F) as Hfind.
  split_and!; try done.
  - unfold body, body_in. rewrite E1, Hfind. done.
  - unfold head. rewrite E1, Hfind. done.
  - intros j Hj Hn. split_and!; [apply (fr_data _ _ _ _ F)|apply (fr_children _ _ _ _ F)|apply (fr_parent _ _ _ _ F)]; done.
Qed.
Print Assumptions outside_body_untouched.

(** In terms of trees: a subtree that neither contains nor lies in the body
    (the head, say) still holds the same tree. *)
Corollary head_tree_untouched : forall (parse : string -> list htree) (d : document) (b h : nat)
    (t : htree) (ps : list patch),
  wf (doc_arena d) -> body d = Some b -> head d = Some h ->
  holds (doc_arena d) t h ->
  (forall p, p ∈ ps -> hits_body p = false) ->
  let d' := fst (apply_patches parse d ps) in
  head d' = Some h /\ holds (doc_arena d') t h.
Proof.
  intros parse d b h t ps W Hb Hh Ht Hp d'.
  destruct (outside_body_untouched parse d b ps W Hb Hp) as (_ & _ & _ & E & F).
  fold d' in E, F. split; [by rewrite E|].
  unfold head in Hh. unfold body, body_in in Hb.
  apply find_some in Hh as [H1 H2]. apply find_some in Hb as [H3 H4].
  apply elem_of_list_In in H1, H3. apply (wf_pc _ W) in H1, H3.
  assert (Hne : h <> b).
  { intros ->. unfold has_tag in *. destruct (node_kind (doc_arena d) b) as [k|]; [|done]; destruct k; try done.
    apply String.eqb_eq in H2, H4. congruence. }
  apply (holds_agree (fun j => j < length (doc_arena d) /\ above (doc_arena d) h j) (doc_arena d)); [| | |done].
  - split; [by eapply parent_lt|by apply above_refl].
  - intros j c [_ Hj] Hc. split; [by eapply wf_child_lt|]. apply (wf_pc _ W) in Hc. by eapply above_parent.
  - intros j [Hj Ha]. destruct (F j) as (F1 & F2 & _); [done| |done].
    intros Hab. destruct (above_comparable _ _ _ _ Ha Hab) as [Hx|Hx];
    apply (above_sibling _ _ _ (doc_root d)) in Hx; congruence.
Qed.
Print Assumptions head_tree_untouched.

Definition ex_frame_doc : document := mk_doc [el "title" [tx "T"]] [el "p" [tx "a"]; el "i" [tx "b"]].
Definition ex_frame_patches : list patch :=
  [PMove [0; 1] [0; 0; 0] (Some 1); PInsertText [0; 3] "x" None; PRemove [1];
   PSetAttribute [0] (mkQ None "" "lang") "en"; PMove [0; 0] [0; 0; 0] None; PRemove [7; 7]].
Example frame_example :
  (forall p, p ∈ ex_frame_patches -> hits_body p = false) /\
  let w := apply_patches no_parser ex_frame_doc ex_frame_patches in
  snd w = Fail (SlotNotFound 7) /\ body (fst w) = Some 2 /\ head (fst w) = Some 1 /\
  serialize_node (doc_arena (fst w)) 1 = Some "<head><title>T</title></head>".
Proof.
  split; [|vm_compute; auto].
  intros p Hp. repeat (apply elem_of_cons in Hp as [->|Hp]; [reflexivity|]). inversion Hp.
Qed.

(** Without the side condition the statement fails: removing the body changes
    the html element. *)
Theorem remove_body_refuted : exists (d : document) (b : nat) (ps : list patch),
  wf (doc_arena d) /\ body d = Some b /\
  let d' := fst (apply_patches no_parser d ps) in
  body d' = None /\ children (doc_arena d') (doc_root d') <> children (doc_arena d) (doc_root d).
Proof.
  exists ex_frame_doc, 2, [PRemove [0]]. split; [apply mk_doc_ok|]. split; [vm_compute; reflexivity|].
  split; [vm_compute; reflexivity|]. vm_compute. discriminate.
Qed.
Print Assumptions remove_body_refuted.
