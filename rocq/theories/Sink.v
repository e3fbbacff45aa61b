(** Model of the parser's tree sink and of the input preparation
    (hotmeal/src/dom.rs:1012-1112, 1313-1780).

    html5ever (tokenizer and tree construction) is an external crate and is
    not modelled: what is modelled is every callback of [TreeSink] through
    which it can touch the tree, so statements hold for any sequence of
    callbacks.  Parse errors, quirks mode and borrowing of the input
    ([tendril_to_stem], equal strings either way) are left out. *)
From Verif Require Import Base Arena Dom Server.
Local Open Scope string_scope.

(** ** The sink *)

(** dom.rs:1125-1140 [ArenaSink]: the arena and the doctype seen; the document
    node is node 0 (dom.rs:1290-1306). *)
Record sink := mkSink { sk_arena : arena dnode; sk_doctype : option string }.
Definition sink_new : sink := mkSink (fst (new_node [] (mkD NDocument NsHtml))) None.

(** What html5ever hands over: a node or text ([NodeOrText]). *)
Inductive node_or_text := AppendNode (n : nat) | AppendText (s : string).

(** dom.rs:1313-1337 [finish]: the root is the first child of the document
    node, whatever it is. *)
Definition sink_finish (s : sink) : document :=
  mkDoc (sk_arena s) (match children (sk_arena s) 0 with r :: _ => r | [] => 0 end) (sk_doctype s).

(** dom.rs:1383-1402 [create_element] *)
Definition sink_create_element (a : arena dnode) (tag : string) (ns : nspace) (ats : attrs) :=
  new_node a (mkD (NElem tag ats) ns).
(** dom.rs:1404-1409, 1411-1417 [create_comment], [create_pi] *)
Definition sink_create_comment (a : arena dnode) (s : string) := new_node a (comment_node s).
Definition sink_create_pi (a : arena dnode) := new_node a (comment_node "").

(** dom.rs:1420-1522 [append] *)
Definition sink_append (a : arena dnode) (p : nat) (c : node_or_text) : outcome (arena dnode) :=
  match c with
  | AppendNode n => append a p n
  | AppendText s =>
      let fresh :=
        let '(a1, t) := new_node a (text_node s) in append a1 p t in
      match list.last (children a p) with
      | Some l => match node_kind a l with
                  | Some (NText e) => Val (set_kind a l (NText (e ++ s)))
                  | _ => fresh
                  end
      | None => fresh
      end
  end.

(** dom.rs:1525-1690 [append_before_sibling] *)
Definition sink_before (a : arena dnode) (sib : nat) (c : node_or_text) : outcome (arena dnode) :=
  match c with
  | AppendNode n => insert_before a sib n
  | AppendText s =>
      let fresh :=
        let '(a1, t) := new_node a (text_node s) in insert_before a1 sib t in
      match previous_sibling a sib with
      | Some l => match node_kind a l with
                  | Some (NText e) => Val (set_kind a l (NText (e ++ s)))
                  | _ => fresh
                  end
      | None => fresh
      end
  end.

(** dom.rs:1692-1710 [append_based_on_parent_node] *)
Definition sink_foster (a : arena dnode) (el prev : nat) (c : node_or_text) : outcome (arena dnode) :=
  match parent a el with
  | Some _ => sink_before a el c
  | None => sink_append a prev c
  end.

(** dom.rs:1727-1760 [add_attrs_if_missing] *)
Definition add_missing (old new : attrs) : attrs :=
  fold_left (fun l kv => if existsb (fun e => qname_eqb (fst e) (fst kv)) l then l
                         else (l ++ [kv])%list) new old.
Definition sink_add_attrs (a : arena dnode) (n : nat) (l : attrs) : arena dnode :=
  match node_kind a n with
  | Some (NElem t ats) => set_kind a n (NElem t (add_missing ats l))
  | _ => a
  end.

(** dom.rs:1766-1773 [reparent_children] *)
Definition sink_reparent (a : arena dnode) (n p : nat) : outcome (arena dnode) :=
  fold_left (fun o c => let! a := o in append (detach a c) p c) (children a n) (Val a).

(** One callback. *)
Inductive sink_call :=
| SCreateElement (tag : string) (ns : nspace) (ats : attrs)
| SCreateComment (s : string)
| SCreatePi
| SAppend (p : nat) (c : node_or_text)
| SBefore (sib : nat) (c : node_or_text)
| SFoster (el prev : nat) (c : node_or_text)
| SDoctype (name : string)
| SAddAttrs (n : nat) (l : attrs)
| SRemove (n : nat)
| SReparent (n p : nat).

Definition sink_step (s : sink) (c : sink_call) : outcome sink :=
  let a := sk_arena s in
  let keep (o : outcome (arena dnode)) := let! a' := o in Val (mkSink a' (sk_doctype s)) in
  match c with
  | SCreateElement t ns l => keep (Val (fst (sink_create_element a t ns l)))
  | SCreateComment x => keep (Val (fst (sink_create_comment a x)))
  | SCreatePi => keep (Val (fst (sink_create_pi a)))
  | SAppend p x => keep (sink_append a p x)
  | SBefore x y => keep (sink_before a x y)
  | SFoster x y z => keep (sink_foster a x y z)
  | SDoctype n => Val (mkSink a (Some n))
  | SAddAttrs n l => keep (Val (sink_add_attrs a n l))
  | SRemove n => keep (Val (detach a n))
  | SReparent n p => keep (sink_reparent a n p)
  end.
Fixpoint sink_run (s : sink) (cs : list sink_call) : outcome sink :=
  match cs with
  | [] => Val s
  | c :: cs' => let! s' := sink_step s c in sink_run s' cs'
  end.

(** ** Input preparation *)

(** [u8::is_ascii_whitespace]: space, tab, newline, form feed, carriage return *)
Definition is_ascii_ws (c : ascii) : bool :=
  let n := Ascii.nat_of_ascii c in
  Nat.eqb n 32 || Nat.eqb n 9 || Nat.eqb n 10 || Nat.eqb n 12 || Nat.eqb n 13.
Fixpoint skip_ws (s : string) : string :=
  match s with
  | String c s' => if is_ascii_ws c then skip_ws s' else s
  | EmptyString => EmptyString
  end.

(** dom.rs:1012-1024 [has_doctype_prefix] *)
Definition has_doctype_prefix (s : string) : bool :=
  let r := skip_ws s in
  Nat.leb 9 (String.length r) &&
  String.eqb (to_ascii_lowercase (str_take 9 r)) "<!doctype".

(** [str::contains] *)
Definition str_contains (s needle : string) : bool :=
  match str_find needle s with Some _ => true | None => false end.

(** dom.rs:1105-1108 [has_html_structure] *)
Definition has_html_structure (s : string) : bool :=
  let l := to_ascii_lowercase s in str_contains l "<html" || str_contains l "<body".

(** dom.rs:1038-1073 [parse]: the text handed to html5ever. *)
Definition parser_input (s : string) : string :=
  if has_doctype_prefix s then s
  else if has_html_structure s then "<!DOCTYPE html>" ++ s
  else "<!DOCTYPE html><html><body>" ++ s ++ "</body></html>".

Section Parse.
  (** html5ever's [parse_document]: the callbacks it makes for an input. *)
  Variable html5ever : string -> list sink_call.
  (** dom.rs:1038-1079 [parse] *)
  Definition parse (s : string) : outcome document :=
    let! k := sink_run sink_new (html5ever (parser_input s)) in
    let d := sink_finish k in
    Val (if has_doctype_prefix s then d else mkDoc (doc_arena d) (doc_root d) None).
End Parse.
