(** The tree type that the diff library offers to its users, cinereus/src/tree.rs:
    [NodeData] (296-382), [Tree] (384-472) and its [impl DiffTree] (475-533), the
    empty property set [NoProps] (232-266), and the two entry points of
    cinereus/src/lib.rs:79-101.

    Not modelled: the profiling counters (10-30), the [Display]/[Debug]
    implementations, [TreeTypes]/[SimpleTypes] (pure type bookkeeping: here the
    parameters [K P T]). *)
From Verif Require Import Base Arena Matching Chawathe.

Section CinTree.
  (** [H]: the hash, given by the user of the library. *)
  Context {H K P T : Type}.

  (** tree.rs:290-306 [NodeData], 322-330 [new] *)
  Record node_data := mkND { nd_hash : H; nd_kind : K; nd_props : P; nd_text : option T }.
  (** tree.rs:333-340 [element], 343-353 [text_node] with [T::Props::default()] *)
  Definition element_data (h : H) (k : K) (p : P) : node_data := mkND h k p None.
  Definition text_data (p0 : P) (h : H) (k : K) (s : T) : node_data := mkND h k p0 (Some s).

  (** tree.rs:387-392 *)
  Record tree := mkTree { tr_arena : arena node_data; tr_root : nat }.

  (** tree.rs:403-407 [Tree::new] *)
  Definition tree_new (d : node_data) : tree :=
    let '(a, r) := new_node [] d in mkTree a r.
  (** tree.rs:410-414 [add_child] *)
  Definition add_child (t : tree) (p : nat) (d : node_data) : outcome (tree * nat) :=
    let '(a, c) := new_node (tr_arena t) d in
    let! a' := append a p c in
    Val (mkTree a' (tr_root t), c).
  (** tree.rs:417-419 [get]: [expect] *)
  Definition tree_get (t : tree) (i : nat) : outcome node_data :=
    match data (tr_arena t) i with Some d => Val d | None => Panic end.
  (** tree.rs:422-434, 482-484 *)
  Definition tree_parent (t : tree) (i : nat) : option nat := parent (tr_arena t) i.
  Definition tree_children (t : tree) (i : nat) : list nat := children (tr_arena t) i.
  Definition child_count (t : tree) (i : nat) : nat := length (children (tr_arena t) i).
  Definition node_count (t : tree) : nat := length (tr_arena t).

  (** tree.rs:475-533 [impl DiffTree for Tree]: [iter], [post_order], [height] are
      those of Arena.v; [is_opaque] is the default of the trait (125-130).  An id
      outside of the arena panics in Rust; here it has the data of the root. *)
  Definition tree_dtree (t : tree) : outcome (dtree H K P T) :=
    let a := tr_arena t in
    let! d0 := tree_get t (tr_root t) in
    let dat i := match data a i with Some d => d | None => d0 end in
    let! it := ofuel (descendants a (tr_root t)) in
    let! po := ofuel (post_order a (tr_root t)) in
    Val {| t_root := tr_root t;
           t_hash := fun i => nd_hash (dat i);
           t_kind := fun i => nd_kind (dat i);
           t_props := fun i => nd_props (dat i);
           t_text := fun i => nd_text (dat i);
           t_parent := parent a;
           t_children := children a;
           t_position := position a;
           t_height := fun i => match height a i with Some h => h | None => 0 end;
           t_iter := it;
           t_post := po;
           t_desc := fun i => match descendants a i with Some l => l | None => [] end;
           t_opaque := fun _ => false |}.

  (** lib.rs:93-101 [diff_trees_with_matching], 79-87 [diff_trees] *)
  Definition diff_trees_with_matching {C} (heqb : H -> H -> bool) (keqb : K -> K -> bool) (teqb : T -> T -> bool)
      (sim : P -> P -> ratio) (p_empty : P -> bool) (p_diff : P -> P -> C) (c_any_different : C -> bool)
      (c_len : C -> nat) (p_len : P -> nat) (cfg : config) (t u : tree)
    : outcome (list (edit_op K T C) * matching) :=
    let! ta := tree_dtree t in
    let! tb := tree_dtree u in
    let! m := compute_matching heqb keqb sim cfg ta tb in
    Val (generate_edit_script teqb p_empty p_diff c_any_different c_len p_len ta tb m, m).
  Definition diff_trees {C} heqb keqb teqb sim p_empty (p_diff : P -> P -> C) c_any_different c_len p_len cfg t u
    : outcome (list (edit_op K T C)) :=
    let! r := diff_trees_with_matching heqb keqb teqb sim p_empty p_diff c_any_different c_len p_len cfg t u in
    Val (fst r).
End CinTree.
Arguments node_data : clear implicits.
Arguments tree : clear implicits.

(** tree.rs:247-266 [impl Properties for NoProps]: similarity 1.0, no changes. *)
Definition no_props_sim (_ _ : unit) : ratio := (1, 1).
Definition no_props_empty (_ : unit) : bool := true.
Definition no_props_diff (_ _ : unit) : list unit := [].
Definition no_props_len (_ : unit) : nat := 0.
(** tree.rs:356-381 [NodeData::simple], [simple_u64] *)
Definition simple {H K T} (h : H) (k : K) : node_data H K unit T := mkND h k tt None.
