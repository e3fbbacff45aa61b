(** Model of cinereus/src/chawathe.rs:182-387 ([generate_edit_script]) and of
    the property side of cinereus/src/tree.rs. *)
From Verif Require Import Base Arena Matching.

(** chawathe.rs:18-81 [EditOp]. *)
Inductive edit_op (K T C : Type) :=
| UpdateProperties (node_a node_b : nat) (changes : C)
| Insert (node_b parent_b position : nat) (kind : K)
| Delete (node_a : nat)
| Move (node_a node_b new_parent_b new_position : nat)
| SetText (node_a node_b : nat) (text : T).
Arguments UpdateProperties {K T C} _ _ _.
Arguments Insert {K T C} _ _ _ _.
Arguments Delete {K T C} _.
Arguments Move {K T C} _ _ _ _.
Arguments SetText {K T C} _ _ _.

Section Chawathe.
  (** [C] is the type of [Vec<PropertyInFinalState>]. *)
  Context {H K P T C : Type}.
  Variable teqb : T -> T -> bool.
  (** [Properties::is_empty], [diff], and the test
      [changes.iter().any(Different) || a_props.len() > changes.len()]. *)
  Variable p_empty : P -> bool.
  Variable p_diff : P -> P -> C.
  Variable c_any_different : C -> bool.
  Variable c_len : C -> nat.
  Variable p_len : P -> nat.
  Variables ta tb : dtree H K P T.
  Variable m : matching.

  Definition otext_eqb (x y : option T) : bool :=
    match x, y with
    | None, None => true
    | Some s, Some t => teqb s t
    | _, _ => false
    end.

  Variables opa opb : list nat.

  (** chawathe.rs:220-267, body of the loop over [matching.pairs()]. *)
  Definition phase1 (p : nat * nat) : list (edit_op K T C) :=
    let '(a, b) := p in
    if mem a opa || mem b opb then []
    else
      (if otext_eqb (t_text ta a) (t_text tb b) then []
       else match t_text tb b with
            | Some s => [SetText a b s]
            | None => []
            end)
      ++
      (if p_empty (t_props ta a) && p_empty (t_props tb b) then []
       else
         let ch := p_diff (t_props ta a) (t_props tb b) in
         if c_any_different ch || Nat.ltb (c_len ch) (p_len (t_props ta a))
         then [UpdateProperties a b ch] else []).

  (** chawathe.rs:271-290 *)
  Definition phase2 (b : nat) : list (edit_op K T C) :=
    if contains_b m b then []
    else match t_parent tb b with
         | None => []
         | Some pb => if mem b opb then []
                      else [Insert b pb (t_position tb b) (t_kind tb b)]
         end.

  (** chawathe.rs:294-371 *)
  Definition phase4 (p : nat * nat) : list (edit_op K T C) :=
    let '(a, b) := p in
    if mem a opa || mem b opb then []
    else match t_parent ta a, t_parent tb b with
         | Some pa, Some pb =>
             if match get_b m pa with Some x => negb (Nat.eqb x pb) | None => true end
             then [Move a b pb (t_position tb b)]
             else if negb (Nat.eqb (t_position ta a) (t_position tb b))
             then [Move a b pb (t_position tb b)]
             else []
         | _, _ => []
         end.

  (** chawathe.rs:375-383 *)
  Definition phase5 (a : nat) : list (edit_op K T C) :=
    if contains_a m a then []
    else if mem a opa then [] else [Delete a].

  Definition edit_script_with : list (edit_op K T C) :=
    flat_map phase1 (m_pairs m) ++ flat_map phase2 (t_iter tb)
    ++ flat_map phase4 (m_pairs m) ++ flat_map phase5 (t_post ta).
End Chawathe.

(** chawathe.rs:182-387 [generate_edit_script] *)
Definition generate_edit_script {H K P T C} (teqb : T -> T -> bool)
    (p_empty : P -> bool) (p_diff : P -> P -> C) (c_any_different : C -> bool)
    (c_len : C -> nat) (p_len : P -> nat) (ta tb : dtree H K P T) (m : matching)
  : list (edit_op K T C) :=
  edit_script_with teqb p_empty p_diff c_any_different c_len p_len ta tb m
    (opaque_descendants ta) (opaque_descendants tb).
