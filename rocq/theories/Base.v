(** Common vocabulary: outcomes of Rust code, strings, HTML names.

    Rust strings are modelled by the byte string of their UTF-8 encoding
    ([String.string], one [ascii] per byte).  Every character the code
    inspects (less-than, ampersand, double quote, greater-than, tag and attribute names) is ASCII, and a
    byte >= 0x80 never equals an ASCII byte, so char-wise and byte-wise
    processing agree. *)
From Coq Require Export List Arith Bool String Ascii Lia.
From stdpp Require Export base list.
Export ListNotations.
(* Both std++ and the standard library export notations for lists; the ones of
   std++ are used throughout. *)
Open Scope nat_scope.
Open Scope list_scope.

(** hotmeal/src/diff.rs:123-151 [DiffError]. *)
Inductive diff_error :=
| NoBody
| PathOutOfBounds (index : nat)
| EmptyPath
| SlotNotFound (slot : nat)
| SlotMissingRelativePath
| NotATextNode
| NotAnElement
| NotAComment
(** an exception thrown by a DOM method; only in the browser *)
| DomException.

(** What a call can do: return a value, return [Err], panic, or not return.
    A fuelled model function that runs out of fuel yields [Diverge], never a
    normal-looking value. *)
Inductive outcome (A : Type) :=
| Val (a : A)
| Fail (e : diff_error)
| Panic
| Diverge.
Arguments Val {A} a.
Arguments Fail {A} e.
Arguments Panic {A}.
Arguments Diverge {A}.

Definition obind {A B} (x : outcome A) (f : A -> outcome B) : outcome B :=
  match x with
  | Val a => f a
  | Fail e => Fail e
  | Panic => Panic
  | Diverge => Diverge
  end.
Notation "'let!' x := e 'in' k" := (obind e (fun x => k))
  (at level 200, x pattern, e at level 200, k at level 200, right associativity).

Definition oget {A} (o : option A) : outcome A :=
  match o with Some a => Val a | None => Panic end.

(** [Option] produced by a fuelled function: [None] means the fuel ran out. *)
Definition ofuel {A} (o : option A) : outcome A :=
  match o with Some a => Val a | None => Diverge end.

(** hotmeal/src/dom.rs:985-991 [Namespace]. *)
Inductive nspace := NsHtml | NsSvg | NsMathMl.

Definition nspace_eqb (a b : nspace) : bool :=
  match a, b with
  | NsHtml, NsHtml | NsSvg, NsSvg | NsMathMl, NsMathMl => true
  | _, _ => false
  end.

(** markup5ever [QualName]: prefix, namespace URL, local name; derived
    structural equality. *)
Record qname := mkQ { q_prefix : option string; q_ns : string; q_local : string }.

Definition ostring_eqb (a b : option string) : bool :=
  match a, b with
  | None, None => true
  | Some x, Some y => String.eqb x y
  | _, _ => false
  end.

Definition qname_eqb (a b : qname) : bool :=
  ostring_eqb (q_prefix a) (q_prefix b) && String.eqb (q_ns a) (q_ns b)
  && String.eqb (q_local a) (q_local b).

(** hotmeal/src/dom.rs:982 attribute vectors: [Vec<(QualName, Stem)>]. *)
Definition attr := (qname * string)%type.
Definition attrs := list attr.

(** hotmeal/src/diff.rs:381-390 [HtmlNodeKind]. *)
Inductive hkind :=
| KElem (tag : string) (ns : nspace)
| KText
| KComment.

Definition hkind_eqb (a b : hkind) : bool :=
  match a, b with
  | KElem t n, KElem t' n' => String.eqb t t' && nspace_eqb n n'
  | KText, KText => true
  | KComment, KComment => true
  | _, _ => false
  end.
