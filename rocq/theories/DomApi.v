(** Model of the DOM manipulation API of [Document] (hotmeal/src/dom.rs:49-323).

    Indexing the arena with a node id that does not exist panics in Rust; here
    every call first checks the ids it is given. *)
From Verif Require Import Base Arena Matching Dom.
Local Open Scope string_scope.

(** dom.rs:51-89 [Document::new] *)
Definition doc_new : outcome document :=
  let '(a, html) := new_node [] (elem "html" [] NsHtml) in
  let '(a, head) := new_node a (elem "head" [] NsHtml) in
  let! a := append a html head in
  let '(a, body) := new_node a (elem "body" [] NsHtml) in
  let! a := append a html body in
  Val (mkDoc a html None).

(** The calls that change a document.  A creating call returns the fresh id. *)
Inductive api_call :=
| CreateElement (tag : string)
| CreateText (s : string)
| CreateComment (s : string)
| AppendChild (p c : nat)
| InsertBefore (sib new : nat)
| InsertAfter (sib new : nat)
| RemoveNode (n : nat)
| SetAttr (e : nat) (q : qname) (v : string)
| RemoveAttr (e : nat) (q : qname)
| SetText (n : nat) (s : string).

Definition exists_node (a : arena dnode) (i : nat) : bool := Nat.ltb i (length a).

(** dom.rs:222-293 *)
Definition api_step (a : arena dnode) (c : api_call) : outcome (arena dnode) :=
  match c with
  | CreateElement t => Val (fst (new_node a (elem t [] NsHtml)))
  | CreateText s => Val (fst (new_node a (text_node s)))
  | CreateComment s => Val (fst (new_node a (comment_node s)))
  | AppendChild p c => if exists_node a p && exists_node a c then append a p c else Panic
  | InsertBefore s n => if exists_node a s && exists_node a n then insert_before a s n else Panic
  | InsertAfter s n => if exists_node a s && exists_node a n then insert_after a s n else Panic
  | RemoveNode n => if exists_node a n then Val (detach a n) else Panic
  | SetAttr e q v =>
      match node_kind a e with
      | None => Panic
      | Some (NElem t l) => Val (set_kind a e (NElem t (attr_set q v l)))
      | Some _ => Val a
      end
  | RemoveAttr e q =>
      match node_kind a e with
      | None => Panic
      | Some (NElem t l) => Val (set_kind a e (NElem t (attr_remove q l)))
      | Some _ => Val a
      end
  | SetText n s =>
      match node_kind a n with
      | None => Panic
      | Some (NText _) => Val (set_kind a n (NText s))
      | Some _ => Val a
      end
  end.

Fixpoint api_run (a : arena dnode) (cs : list api_call) : outcome (arena dnode) :=
  match cs with
  | [] => Val a
  | c :: cs => let! a' := api_step a c in api_run a' cs
  end.

Definition api_doc (d : document) (cs : list api_call) : outcome document :=
  let! a := api_run (doc_arena d) cs in Val (mkDoc a (doc_root d) (doc_doctype d)).

(** dom.rs:296-323: the queries; [parent], [previous_sibling] and [next_sibling]
    are those of the arena. *)
Definition first_child (a : arena dnode) (i : nat) : option nat := list.head (children a i).
Definition last_child (a : arena dnode) (i : nat) : option nat := list.last (children a i).
Definition child_count (a : arena dnode) (i : nat) : nat := length (children a i).
