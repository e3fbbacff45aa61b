(** Model of the link structure of [indextree::Arena] (indextree 4.7, external
    crate, not vendored in /repo; modelled after its published sources
    [id.rs], [relations.rs], [siblings_range.rs] and [traverse.rs]).

    Each node has links to its parent, its previous and next sibling, and its
    first and last child.  [PropLinks.v] relates this to [Arena.v].

    Simplification: writing to a node that does not exist does nothing here (it
    panics in Rust); removed nodes do not occur (nodes are never freed). *)
From Verif Require Import Base Arena.

Section Links.
  Context {D : Type}.

  Record lnode := mkL {
    ln_data : D;
    ln_parent : option nat;
    ln_prev : option nat;
    ln_next : option nat;
    ln_first : option nat;
    ln_last : option nat
  }.
  Local Notation links := (list lnode).

  Definition l_data (L : links) (i : nat) : option D := ln_data <$> L !! i.
  Definition l_parent (L : links) (i : nat) : option nat := L !! i ≫= ln_parent.
  Definition l_prev (L : links) (i : nat) : option nat := L !! i ≫= ln_prev.
  Definition l_next (L : links) (i : nat) : option nat := L !! i ≫= ln_next.
  Definition l_first (L : links) (i : nat) : option nat := L !! i ≫= ln_first.
  Definition l_last (L : links) (i : nat) : option nat := L !! i ≫= ln_last.

  Definition put_data (L : links) (i : nat) (v : D) : links :=
    alter (fun n => mkL v (ln_parent n) (ln_prev n) (ln_next n) (ln_first n) (ln_last n)) i L.
  Definition put_parent (L : links) (i : nat) (v : option nat) : links :=
    alter (fun n => mkL (ln_data n) v (ln_prev n) (ln_next n) (ln_first n) (ln_last n)) i L.
  Definition put_prev (L : links) (i : nat) (v : option nat) : links :=
    alter (fun n => mkL (ln_data n) (ln_parent n) v (ln_next n) (ln_first n) (ln_last n)) i L.
  Definition put_next (L : links) (i : nat) (v : option nat) : links :=
    alter (fun n => mkL (ln_data n) (ln_parent n) (ln_prev n) v (ln_first n) (ln_last n)) i L.
  Definition put_ends (L : links) (i : nat) (f l : option nat) : links :=
    alter (fun n => mkL (ln_data n) (ln_parent n) (ln_prev n) (ln_next n) f l) i L.

  (** [Arena::new_node] *)
  Definition l_new_node (L : links) (d : D) : links * nat :=
    (L ++ [mkL d None None None None None], length L).

  (** relations.rs [connect_neighbors] *)
  Definition connect (L : links) (par prev next : option nat) : links :=
    let pf := match par with Some p => l_first L p | None => None end in
    let pl := match par with Some p => l_last L p | None => None end in
    let '(L, pf) := match prev with
                    | Some x => (put_next L x next, match pf with Some f => Some f | None => Some x end)
                    | None => (L, next)
                    end in
    let '(L, pl) := match next with
                    | Some y => (put_prev L y prev, match pl with Some l => Some l | None => Some y end)
                    | None => (L, prev)
                    end in
    match par with Some p => put_ends L p pf pl | None => L end.

  (** siblings_range.rs [detach_from_siblings], for a range of one node *)
  Definition detach_from_siblings (L : links) (i : nat) : links :=
    let par := l_parent L i in
    let prev := l_prev L i in
    let next := l_next L i in
    connect (put_next (put_prev L i None) i None) par prev next.

  (** id.rs [NodeId::detach] *)
  Definition l_detach (L : links) (i : nat) : links :=
    put_parent (detach_from_siblings L i) i None.

  Definition is_some_eqb (o : option nat) (i : nat) : bool :=
    match o with Some x => Nat.eqb x i | None => false end.

  (** relations.rs [insert_with_neighbors]; its callers unwrap the result *)
  Definition insert_with_neighbors (L : links) (new : nat) (par prev next : option nat) : outcome links :=
    if is_some_eqb prev new || is_some_eqb next new then Panic
    else if is_some_eqb par new then Panic
    else
      let L1 := put_parent (detach_from_siblings L new) new par in
      Val (connect (connect L1 par prev (Some new)) par (Some new) next).

  (** traverse.rs [Ancestors], without the node itself *)
  Fixpoint l_ancestors (fuel : nat) (L : links) (i : nat) : option (list nat) :=
    match fuel with
    | 0 => None
    | S f => match l_parent L i with
             | None => Some []
             | Some p => match l_ancestors f L p with Some l => Some (p :: l) | None => None end
             end
    end.

  (** id.rs [NodeId::append] (through [checked_append]) *)
  Definition l_append (L : links) (p c : nat) : outcome links :=
    if Nat.eqb p c then Panic
    else match l_ancestors (S (length L)) L p with
         | None => Diverge
         | Some l =>
             if existsb (Nat.eqb c) l then Panic
             else let L1 := l_detach L c in
                  insert_with_neighbors L1 c (Some p) (l_last L1 p) None
         end.

  (** id.rs [NodeId::insert_before], [NodeId::insert_after] *)
  Definition l_insert_before (L : links) (sib new : nat) : outcome links :=
    if Nat.eqb sib new then Panic
    else let L1 := l_detach L new in
         insert_with_neighbors L1 new (l_parent L1 sib) (l_prev L1 sib) (Some sib).
  Definition l_insert_after (L : links) (sib new : nat) : outcome links :=
    if Nat.eqb sib new then Panic
    else let L1 := l_detach L new in
         insert_with_neighbors L1 new (l_parent L1 sib) (Some sib) (l_next L1 sib).

  (** traverse.rs: the [Children] iterator run forwards ([head] to [tail]), and
      backwards ([rev]) *)
  Fixpoint walk (step : nat -> option nat) (fuel : nat) (head tail : option nat) : option (list nat) :=
    match fuel with
    | 0 => None
    | S f =>
        match head, tail with
        | Some h, Some t =>
            if Nat.eqb h t then Some [h]
            else match walk step f (step h) tail with Some l => Some (h :: l) | None => None end
        | Some h, None =>
            match walk step f (step h) tail with Some l => Some (h :: l) | None => None end
        | None, _ => Some []
        end
    end.
  Definition l_children (L : links) (i : nat) : option (list nat) :=
    walk (l_next L) (S (length L)) (l_first L i) (l_last L i).
  Definition l_children_rev (L : links) (i : nat) : option (list nat) :=
    walk (l_prev L) (S (length L)) (l_last L i) (l_first L i).
End Links.
Arguments lnode : clear implicits.

(** A program of calls on an arena. *)
Inductive tree_call (D : Type) :=
| TNew (d : D) | TSet (i : nat) (d : D) | TDetach (i : nat)
| TAppend (p c : nat) | TBefore (sib new : nat) | TAfter (sib new : nat).
Arguments TNew {D}. Arguments TSet {D}. Arguments TDetach {D}.
Arguments TAppend {D}. Arguments TBefore {D}. Arguments TAfter {D}.

Definition links_step {D} (L : list (lnode D)) (c : tree_call D) : outcome (list (lnode D)) :=
  match c with
  | TNew d => Val (fst (l_new_node L d))
  | TSet i d => Val (put_data L i d)
  | TDetach i => Val (l_detach L i)
  | TAppend p c => l_append L p c
  | TBefore s n => l_insert_before L s n
  | TAfter s n => l_insert_after L s n
  end.
Fixpoint links_run {D} (L : list (lnode D)) (cs : list (tree_call D)) : outcome (list (lnode D)) :=
  match cs with
  | [] => Val L
  | c :: cs => let! L' := links_step L c in links_run L' cs
  end.

Definition arena_step {D} (a : arena D) (c : tree_call D) : outcome (arena D) :=
  match c with
  | TNew d => Val (fst (new_node a d))
  | TSet i d => Val (set_data a i d)
  | TDetach i => Val (detach a i)
  | TAppend p c => append a p c
  | TBefore s n => insert_before a s n
  | TAfter s n => insert_after a s n
  end.
Fixpoint arena_run {D} (a : arena D) (cs : list (tree_call D)) : outcome (arena D) :=
  match cs with
  | [] => Val a
  | c :: cs => let! a' := arena_step a c in arena_run a' cs
  end.
