(** Property theorem C45: the browser applier on arbitrary patches. *)
From Verif Require Import Base Arena Dom Browser ArenaProofs ArenaOps DomTree ApplyProofs ConvTotal BrowserTotal
  Instances InstanceProofs PropApply PropFrame PropBrowser.
Local Open Scope string_scope.

(** C45: whatever patches arrive, the browser applier neither loops nor panics (it
    returns, perhaps with a JavaScript error), and it leaves a tree: parent and
    child links agree, no node is twice among the children, no cycle.  No node
    disappears from memory.  Only a Remove with an empty path is left out. *)
Theorem browser_total : forall valid_elem valid_attr parse_template (C : arena dnode) (cb : nat) (ps : list patch),
  wf C -> cb < length C -> PRemove [] ∉ ps ->
  let r := b_apply_all valid_elem valid_attr parse_template cb (C, []) ps in
  (snd r = Val tt \/ exists e, snd r = Fail e) /\ wf (fst (fst r)) /\ length C <= length (fst (fst r)) /\
  (forall k n, slot_get (snd (fst r)) k = Some n -> n < length (fst (fst r))).
Proof.
  intros ve va pt C cb ps W Hc Hps.
  destruct (b_apply_all_any ve va pt cb ps C []) as ([W' S'] & L & St).
  { split; [done|]. intros k v Hk. discriminate. } { done. } { intros p Hp ->. done. }
  cbn zeta. split; [|done]. clear - St.
  change (settled (snd (b_apply_all ve va pt cb (C, []) ps))) in St.
  set (o := snd (b_apply_all ve va pt cb (C, []) ps)) in *. clearbody o. destruct o as [[]|e| |].
  - by left.
  - right. by exists e.
  - destruct St.
  - destruct St.
Qed.
Print Assumptions browser_total.

(** Moves that send the native applier into a cycle or a panic
    ([move_makes_cycle_refuted], [move_panics_refuted]) are rejected by the DOM;
    the node moved is lost from the page, though. *)
Example browser_total_example :
  let ps1 := [PInsertText [0; 0] "t" (Some 1); PMove [1] [1; 0] None] in
  let ps2 := [PMove [0; 1] [0; 1; 0] None] in
  let d := mk_doc [] [el "p" [el "i" []]; el "div" [tx "a"]] in
  wf (doc_arena d) /\ 2 < length (doc_arena d) /\ PRemove [] ∉ ps1 /\ PRemove [] ∉ ps2 /\
  snd (b_apply_all ex_name ex_name no_parser 2 (doc_arena d, []) ps1) = Fail (SlotNotFound 1) /\
  serialize_inner_html (fst (fst (b_apply_all ex_name ex_name no_parser 2 (doc_arena d, []) ps1))) 2 = Some "t<div>a</div>" /\
  snd (b_apply_all ex_name ex_name no_parser 2 (doc_arena d, []) ps2) = Fail NotAnElement /\
  serialize_inner_html (fst (fst (b_apply_all ex_name ex_name no_parser 2 (doc_arena d, []) ps2))) 2 = Some "<p><i></i></p>".
Proof.
  cbn zeta. split; [apply mk_doc_ok|]. split; [vm_compute; lia|].
  split; [intros H; rewrite !elem_of_cons, elem_of_nil in H; naive_solver|].
  split; [intros H; rewrite !elem_of_cons, elem_of_nil in H; naive_solver|].
  vm_compute. auto.
Qed.

(** Finding: a Remove with an empty path makes the client panic (indexing), where
    the native applier reports an error. *)
Theorem browser_empty_remove_refuted : exists d,
  wf (doc_arena d) /\ body d = Some 2 /\
  snd (b_apply_all ex_name ex_name no_parser 2 (doc_arena d, []) [PRemove []]) = Panic /\
  snd (apply_patches no_parser d [PRemove []]) = Fail EmptyPath.
Proof. exists (mk_doc [] []). split; [apply mk_doc_ok|]. vm_compute. auto. Qed.
Print Assumptions browser_empty_remove_refuted.
