(** Model of [indextree::Arena] as used by hotmeal and cinereus.

    indextree is an external crate (not vendored in /repo); its documented
    behaviour is modelled: an arena is a growing vector of nodes, a [NodeId]
    is an index, nodes are never removed from the vector ([detach] only
    unlinks), each node has a parent link and an ordered list of children.

    Simplification: indextree stores first/last child and prev/next sibling
    links; the model stores the children list of every node.  Sibling links
    between two parentless nodes (the effect of [insert_before] on a node
    without parent) are not represented.  [Links.v] has the links, and
    [PropLinks.v] proves that both agree. *)
From Verif Require Import Base.

Section Arena.
  Context {D : Type}.

  Record anode := mkNode {
    nd_data : D;
    nd_parent : option nat;
    nd_children : list nat
  }.

  Local Notation arena := (list anode).

  (** [Arena::new_node]: the fresh id is the old length. *)
  Definition new_node (a : arena) (d : D) : arena * nat :=
    (a ++ [mkNode d None []], length a).

  (** [NodeId::children]. *)
  Definition children (a : arena) (i : nat) : list nat :=
    match a !! i with Some n => nd_children n | None => [] end.

  (** [arena.get(i).and_then(|n| n.parent())]. *)
  Definition parent (a : arena) (i : nat) : option nat :=
    match a !! i with Some n => nd_parent n | None => None end.

  (** [arena.get(i).map(|n| n.get())]. *)
  Definition data (a : arena) (i : nat) : option D :=
    match a !! i with Some n => Some (nd_data n) | None => None end.

  Definition set_parent (a : arena) (i : nat) (p : option nat) : arena :=
    alter (fun n => mkNode (nd_data n) p (nd_children n)) i a.

  Definition set_children (a : arena) (i : nat) (cs : list nat) : arena :=
    alter (fun n => mkNode (nd_data n) (nd_parent n) cs) i a.

  (** [*arena[i].get_mut() = d]. *)
  Definition set_data (a : arena) (i : nat) (d : D) : arena :=
    alter (fun n => mkNode d (nd_parent n) (nd_children n)) i a.

  Fixpoint remove_id (i : nat) (l : list nat) : list nat :=
    match l with
    | [] => []
    | x :: l' => if Nat.eqb x i then remove_id i l' else x :: remove_id i l'
    end.

  (** Position of the first occurrence ([Iterator::position]). *)
  Fixpoint index_of (i : nat) (l : list nat) : option nat :=
    match l with
    | [] => None
    | x :: l' => if Nat.eqb x i then Some 0
                 else match index_of i l' with Some k => Some (S k) | None => None end
    end.

  (** [NodeId::detach]: unlink from the parent; the subtree stays below. *)
  Definition detach (a : arena) (i : nat) : arena :=
    match parent a i with
    | None => a
    | Some p => set_parent (set_children a p (remove_id i (children a p))) i None
    end.

  (** Walking up the parent links; [None] when [fuel] links did not reach a
      parentless node. *)
  Fixpoint ancestors (fuel : nat) (a : arena) (i : nat) : option (list nat) :=
    match fuel with
    | 0 => None
    | S f =>
        match parent a i with
        | None => Some []
        | Some p => match ancestors f a p with
                    | Some l => Some (p :: l)
                    | None => None
                    end
        end
    end.

  (** Enough fuel for every parent chain of an acyclic arena. *)
  Definition chain_fuel (a : arena) : nat := S (length a).

  Definition is_ancestor (a : arena) (anc i : nat) : option bool :=
    match ancestors (chain_fuel a) a i with
    | Some l => Some (existsb (Nat.eqb anc) l)
    | None => None
    end.

  (** [NodeId::append]: panics (through [checked_append]) when the child is
      the parent itself or one of its ancestors; otherwise detaches the child
      and links it last. *)
  Definition append (a : arena) (p c : nat) : outcome arena :=
    if Nat.eqb p c then Panic
    else match is_ancestor a c p with
         | None => Diverge
         | Some true => Panic
         | Some false =>
             let a1 := detach a c in
             Val (set_parent (set_children a1 p (children a1 p ++ [c])) c (Some p))
         end.

  Fixpoint insert_before_list (sib new : nat) (l : list nat) : list nat :=
    match l with
    | [] => []
    | x :: l' => if Nat.eqb x sib then new :: x :: l'
                 else x :: insert_before_list sib new l'
    end.

  (** [sib.insert_before(new)]: panics when [new] is [sib]; detaches [new],
      then links it before [sib] under [sib]'s parent, and panics if that
      parent is [new].  There is no further ancestor check in indextree (see the
      comment at hotmeal/src/diff.rs:1435-1437). *)
  Definition insert_before (a : arena) (sib new : nat) : outcome arena :=
    if Nat.eqb sib new then Panic
    else
      let a1 := detach a new in
      match parent a1 sib with
      | None => Val a1
      | Some p =>
          if Nat.eqb p new then Panic
          else Val (set_parent (set_children a1 p (insert_before_list sib new (children a1 p)))
                               new (Some p))
      end.

  Fixpoint insert_after_list (sib new : nat) (l : list nat) : list nat :=
    match l with
    | [] => []
    | x :: l' => if Nat.eqb x sib then x :: new :: l'
                 else x :: insert_after_list sib new l'
    end.

  (** [sib.insert_after(new)]: as [insert_before], on the other side. *)
  Definition insert_after (a : arena) (sib new : nat) : outcome arena :=
    if Nat.eqb sib new then Panic
    else
      let a1 := detach a new in
      match parent a1 sib with
      | None => Val a1
      | Some p =>
          if Nat.eqb p new then Panic
          else Val (set_parent (set_children a1 p (insert_after_list sib new (children a1 p)))
                               new (Some p))
      end.

  (** [arena[i].previous_sibling()] and [arena[i].next_sibling()]. *)
  Fixpoint prev_in (i : nat) (l : list nat) : option nat :=
    match l with
    | x :: ((y :: _) as l') => if Nat.eqb y i then Some x else prev_in i l'
    | _ => None
    end.
  Definition previous_sibling (a : arena) (i : nat) : option nat :=
    match parent a i with
    | Some p => prev_in i (children a p)
    | None => None
    end.

  Fixpoint next_in (i : nat) (l : list nat) : option nat :=
    match l with
    | x :: l' => if Nat.eqb x i then head l' else next_in i l'
    | [] => None
    end.
  Definition next_sibling (a : arena) (i : nat) : option nat :=
    match parent a i with
    | Some p => next_in i (children a p)
    | None => None
    end.

  (** Pre-order listing of a subtree ([NodeId::descendants], which includes
      the node itself); [None] when the fuel runs out. *)
  Fixpoint desc_f (fuel : nat) (a : arena) (i : nat) : option (list nat) :=
    match fuel with
    | 0 => None
    | S f =>
        let fix go (l : list nat) : option (list nat) :=
          match l with
          | [] => Some []
          | c :: l' => match desc_f f a c, go l' with
                       | Some x, Some y => Some (x ++ y)
                       | _, _ => None
                       end
          end in
        match go (children a i) with
        | Some l => Some (i :: l)
        | None => None
        end
    end.

  Definition tree_fuel (a : arena) : nat := S (length a).

  Definition descendants (a : arena) (i : nat) : option (list nat) :=
    desc_f (tree_fuel a) a i.

  (** Height of a subtree (cinereus/src/tree.rs:465-472). *)
  Fixpoint height_f (fuel : nat) (a : arena) (i : nat) : option nat :=
    match fuel with
    | 0 => None
    | S f =>
        let fix go (l : list nat) : option nat :=
          match l with
          | [] => Some 0
          | c :: l' => match height_f f a c, go l' with
                       | Some x, Some y => Some (Nat.max x y)
                       | _, _ => None
                       end
          end in
        match children a i with
        | [] => Some 0
        | cs => match go cs with Some m => Some (S m) | None => None end
        end
    end.

  Definition height (a : arena) (i : nat) : option nat :=
    height_f (tree_fuel a) a i.

  (** The explicit-stack post-order iterator shared by
      cinereus/src/tree.rs:535-575 and hotmeal/src/diff.rs:731-762:
      pop [(id, visited)]; if visited emit it, else push it back as visited
      and push its children so that the first child is on top. *)
  Fixpoint post_loop (fuel : nat) (a : arena) (stack : list (nat * bool))
    : option (list nat) :=
    match stack with
    | [] => Some []
    | (i, visited) :: st =>
        match fuel with
        | 0 => None
        | S f =>
            if visited then
              match post_loop f a st with
              | Some l => Some (i :: l)
              | None => None
              end
            else post_loop f a (map (fun c => (c, false)) (children a i) ++ (i, true) :: st)
        end
    end.

  (** Every node is popped twice. *)
  Definition post_order (a : arena) (i : nat) : option (list nat) :=
    post_loop (2 * length a) a [(i, false)].

  (** [Tree::position] / [DiffTree::position] (cinereus/src/tree.rs:102-115,
      437-446): 0 for a node without parent. *)
  Definition position (a : arena) (i : nat) : nat :=
    match parent a i with
    | None => 0
    | Some p => match index_of i (children a p) with Some k => k | None => 0 end
    end.
End Arena.
Arguments anode : clear implicits.
(** An arena is a list of nodes. *)
Notation arena D := (list (anode D)).
