(** Property theorems on patch application and serialization: C16-C19. *)
From Verif Require Import Base Arena Matching Dom HtmlDiff.
From Verif Require Import ArenaProofs ArenaOps TreeProofs DomTree ApplyProofs Instances InstanceProofs.
From Coq Require Import Relation_Operators.
Local Open Scope string_scope.

(** ** C16 *)

(** [empty_inserted l k]: [k] is [l] with one more empty text node somewhere.
    [same_up_to_empty] allows any number of insertions and removals. *)
Definition same_up_to_empty : list htree -> list htree -> Prop := clos_refl_sym_trans _ empty_inserted.

Lemma same_up_to_empty_ser l k : same_up_to_empty l k -> forall raw, ser_ts raw l = ser_ts raw k.
Proof.
  induction 1 as [l k H|l|l k _ IH|l k j _ IH1 _ IH2]; intros raw.
  - by apply ser_ts_empty_inserted.
  - done.
  - by rewrite IH.
  - by rewrite IH1, IH2.
Qed.

Theorem empty_text_invisible : forall (a a' : arena dnode) (ts ts' : list htree) (i i' : nat),
  wf a -> wf a' ->
  holds_list a ts (children a i) -> holds_list a' ts' (children a' i') ->
  same_up_to_empty ts ts' ->
  serialize_inner_html a i = serialize_inner_html a' i' /\
  exists s, serialize_inner_html a i = Some s.
Proof.
  intros a a' ts ts' i i' W W' H H' E.
  rewrite (serialize_inner_holds a ts i W H), (serialize_inner_holds a' ts' i' W' H').
  rewrite (same_up_to_empty_ser ts ts' E). eauto.
Qed.
Print Assumptions empty_text_invisible.

(** The same for a node including its own tag. *)
Theorem empty_text_invisible_node : forall (a a' : arena dnode) tag ns ats cs cs' (i i' : nat),
  wf a -> wf a' ->
  holds a (HElem tag ns ats cs) i -> holds a' (HElem tag ns ats cs') i' ->
  same_up_to_empty cs cs' ->
  serialize_node a i = serialize_node a' i' /\ exists s, serialize_node a i = Some s.
Proof.
  intros a a' tag ns ats cs cs' i i' W W' H H' E.
  rewrite (serialize_node_holds a _ i W H), (serialize_node_holds a' _ i' W' H').
  rewrite !ser_t_elem, (same_up_to_empty_ser cs cs' E). eauto.
Qed.
Print Assumptions empty_text_invisible_node.

Definition ex_plain : list htree := [el "p" [tx "a"; el "b" []]; tx "x"].
Definition ex_gaps : list htree := [tx ""; el "p" [tx "a"; tx ""; el "b" [tx ""]]; tx "x"].
Example empty_text_example :
  same_up_to_empty ex_plain ex_gaps /\
  holds_list (doc_arena (mk_doc [] ex_plain)) ex_plain (children (doc_arena (mk_doc [] ex_plain)) 2) /\
  holds_list (doc_arena (mk_doc [] ex_gaps)) ex_gaps (children (doc_arena (mk_doc [] ex_gaps)) 2) /\
  to_body_html (mk_doc [] ex_gaps) = Some "<p>a<b></b></p>x".
Proof.
  split_and!; [|apply mk_doc_ok|apply mk_doc_ok|vm_compute; reflexivity].
  eapply rst_trans; [apply rst_step; apply (ei_here [] ex_plain)|].
  eapply rst_trans.
  { apply rst_step. apply (ei_below [tx ""] "p" NsHtml [] [tx "a"; el "b" []] [tx "a"; tx ""; el "b" []] [tx "x"]).
    apply (ei_here [tx "a"] [el "b" []]). }
  apply rst_step.
  apply (ei_below [tx ""] "p" NsHtml [] [tx "a"; tx ""; el "b" []] [tx "a"; tx ""; el "b" [tx ""]] [tx "x"]).
  apply (ei_below [tx "a"; tx ""] "b" NsHtml [] [] [tx ""] []). apply (ei_here [] []).
Qed.

(** ** C17 *)

Theorem no_patches_no_change : forall parse_inner (d : document),
  apply_patches parse_inner d [] = (d, Val tt).
Proof. reflexivity. Qed.
Print Assumptions no_patches_no_change.

(** A document without a body: one patch would create it, no patch does not. *)
Example no_patches_example :
  let d := mkDoc [mkNode (elem "html" [] NsHtml) None []] 0 None in
  apply_patches no_parser d [] = (d, Val tt) /\
  body (fst (apply_patches no_parser d [PRemoveAttribute [0] (mkQ None "" "x")])) = Some 1.
Proof. vm_compute. auto. Qed.

(** ** C18 *)

(** Applying patches one at a time, stopping at the first one that fails. *)
Inductive steps (parse_inner : string -> list htree)
  : pstate -> list patch -> pstate -> outcome unit -> Prop :=
| steps_nil st : steps parse_inner st [] st (Val tt)
| steps_ok st p ps st1 st2 r :
    apply_patch parse_inner st p = (st1, Val tt) -> steps parse_inner st1 ps st2 r ->
    steps parse_inner st (p :: ps) st2 r
| steps_stop st p ps st1 r :
    apply_patch parse_inner st p = (st1, r) -> r <> Val tt ->
    steps parse_inner st (p :: ps) st1 r.

Lemma steps_apply_all parse_inner st ps st' r :
  steps parse_inner st ps st' r <-> apply_all parse_inner st ps = (st', r).
Proof.
  split.
  - induction 1 as [st|st p ps st1 st2 r E _ IH|st p ps st1 r E Hr]; simpl; [done| |].
    + by rewrite E.
    + rewrite E. destruct r as [[]| | |]; done.
  - revert st. induction ps as [|p ps IH]; intros st; simpl.
    + intros [= <- <-]. constructor.
    + destruct (apply_patch parse_inner st p) as [st1 o] eqn:E. intros H.
      destruct o as [[]| | |]; try (injection H as <- <-; eapply steps_stop; [exact E|discriminate]).
      eapply steps_ok; [exact E|]. by apply IH.
Qed.

Theorem application_is_incremental : forall parse_inner (d d1 : document) sl ps st' r,
  ps <> [] ->
  init_patch_slots d = Val (d1, sl) ->
  steps parse_inner (doc_arena d1, sl) ps st' r ->
  apply_patches parse_inner d ps = (mkDoc (fst st') (doc_root d1) (doc_doctype d1), r).
Proof.
  intros pi d d1 sl ps st' r Hne E H. apply steps_apply_all in H.
  unfold apply_patches. rewrite E. destruct ps; [done|]. by rewrite H; destruct st'.
Qed.
Print Assumptions application_is_incremental.

(** One at a time is always possible, for every list. *)
Theorem application_steps_exist : forall parse_inner st ps,
  exists st' r, steps parse_inner st ps st' r.
Proof.
  intros pi st ps. destruct (apply_all pi st ps) as [st' r] eqn:E.
  exists st', r. by apply steps_apply_all.
Qed.
Print Assumptions application_steps_exist.

Theorem application_splits : forall parse_inner st ps qs st' r,
  steps parse_inner st (ps ++ qs) st' r <->
  (exists st1, steps parse_inner st ps st1 (Val tt) /\ steps parse_inner st1 qs st' r) \/
  (steps parse_inner st ps st' r /\ r <> Val tt).
Proof.
  intros pi st ps qs st' r. rewrite !steps_apply_all, apply_all_app. split.
  - destruct (apply_all pi st ps) as [st1 o] eqn:E.
    destruct o as [[]|e| |]; intros H.
    + left. exists st1. by rewrite !steps_apply_all.
    + right. injection H as <- <-. done.
    + right. injection H as <- <-. done.
    + right. injection H as <- <-. done.
  - intros [(st1 & H1 & H2)|[H1 H2]].
    + apply steps_apply_all in H1, H2. by rewrite H1.
    + rewrite H1. destruct r as [[]| | |]; done.
Qed.
Print Assumptions application_splits.

Definition ex_patches : list patch :=
  [PInsertText [0; 0] "new" (Some 1); PMove [1] [0; 3] None; PRemove [0; 1]; PSetText [0; 0] "z";
   PSetText [0; 9; 9] "stop"; PRemove [0; 0]].
Example incremental_example :
  exists st1 st2,
    steps no_parser (doc_arena ex_old, [(0, 2)]) (firstn 4 ex_patches) st1 (Val tt) /\
    steps no_parser st1 (skipn 4 ex_patches) st2 (Fail (PathOutOfBounds 9)) /\
    to_body_html (mkDoc (fst st2) 0 None) = Some "z<i>gone</i><p>one</p>".
Proof.
  eexists _, _. split_and!.
  - apply steps_apply_all. vm_compute. reflexivity.
  - apply steps_apply_all. vm_compute. reflexivity.
  - vm_compute. reflexivity.
Qed.

(** ** C19 *)

Definition is_move_patch (p : patch) : Prop := exists f t s, p = PMove f t s.

Theorem application_keeps_tree : forall parse_inner (d d' : document) ps r,
  (forall p, p ∈ ps -> ~ is_move_patch p) ->
  wf (doc_arena d) -> doc_root d < length (doc_arena d) ->
  apply_patches parse_inner d ps = (d', r) ->
  wf (doc_arena d') /\ doc_root d' < length (doc_arena d') /\
  (r = Val tt \/ exists e, r = Fail e).
Proof.
  intros pi d d' ps r Hm W Hr E.
  assert (forallb (fun p => negb (is_move p)) ps = true) as Hb.
  { apply forallb_forall. intros p Hp. apply elem_of_list_In in Hp. specialize (Hm p Hp).
    destruct p; try done. exfalso. apply Hm. by eexists _, _, _. }
  pose proof (apply_patches_good pi d ps Hb W Hr) as G. rewrite E in G.
  destruct G as (G1 & G2 & G3). split; [done|]. split; [done|].
  destruct r as [[]|e| |]; eauto; done.
Qed.
Print Assumptions application_keeps_tree.

Example keeps_tree_example :
  let ps := [PInsertText [0; 0] "new" (Some 1); PRemove [0; 1]; PInsertElement [1; 5] "b" [] [ICText "x"] None;
             PRemove [0]; PRemove [7]] in
  (forall p, p ∈ ps -> ~ is_move_patch p) /\ wf (doc_arena ex_old) /\
  snd (apply_patches no_parser ex_old ps) = Fail (SlotNotFound 7).
Proof.
  split_and!; [|apply mk_doc_ok|vm_compute; reflexivity].
  intros p Hp. rewrite !elem_of_cons, elem_of_nil in Hp.
  intros (f & t & s & ->). naive_solver.
Qed.

(** With Move the claim fails in two ways: a node can be moved below its own
    descendant, so that it is its own grandparent, ... *)
Definition ex_self : document := mk_doc [] [el "div" [el "p" [el "i" []]]].
Theorem move_makes_cycle_refuted : exists d ps d',
  wf (doc_arena d) /\ apply_patches no_parser d ps = (d', Val tt) /\ ~ wf (doc_arena d').
Proof.
  exists ex_self, [PInsertText [0; 0] "t" (Some 1); PMove [1] [1; 0; 0] None].
  eexists. split; [apply mk_doc_ok|]. split; [vm_compute; reflexivity|].
  intros W. cbn [doc_arena] in W. destruct (wf_chain _ W 3) as [l Hl].
  assert (exists l', l = 4 :: 3 :: l') as [l' ->].
  { inversion Hl as [? E|? p l0 E Hl']; subst; [discriminate E|]. injection E as <-.
    inversion Hl' as [? E'|? p' l1 E' Hl'']; subst; [discriminate E'|]. injection E' as <-. eauto. }
  apply chain_not_self in Hl. apply Hl. right. left.
Qed.
Print Assumptions move_makes_cycle_refuted.

(** ... or the process panics. *)
Theorem move_panics_refuted : exists d ps,
  wf (doc_arena d) /\ snd (apply_patches no_parser d ps) = Panic.
Proof.
  exists ex_self, [PInsertText [0; 0] "t" (Some 1); PMove [1] [1; 1] None].
  split; [apply mk_doc_ok|]. vm_compute. reflexivity.
Qed.
Print Assumptions move_panics_refuted.
