(** Model of cinereus/src/tree.rs (trait [DiffTree]) and
    cinereus/src/matching.rs (GumTree matching). *)
From Verif Require Import Base Arena.

(** cinereus/src/tree.rs:58-135 [trait DiffTree], as a record of the trait's
    methods.  [t_kind] and [t_props] are total here; the Rust accessors panic
    on an id outside the tree, and the algorithms only ask for ids obtained
    from the tree itself. *)
Record dtree (H K P T : Type) := mkDT {
  t_root : nat;
  t_hash : nat -> H;
  t_kind : nat -> K;
  t_props : nat -> P;
  t_text : nat -> option T;
  t_parent : nat -> option nat;
  t_children : nat -> list nat;
  t_position : nat -> nat;
  t_height : nat -> nat;
  t_iter : list nat;
  t_post : list nat;
  t_desc : nat -> list nat;
  t_opaque : nat -> bool
}.
Arguments t_root {H K P T} _.
Arguments t_hash {H K P T} _ _.
Arguments t_kind {H K P T} _ _.
Arguments t_props {H K P T} _ _.
Arguments t_text {H K P T} _ _.
Arguments t_parent {H K P T} _ _.
Arguments t_children {H K P T} _ _.
Arguments t_position {H K P T} _ _.
Arguments t_height {H K P T} _ _.
Arguments t_iter {H K P T} _.
Arguments t_post {H K P T} _.
Arguments t_desc {H K P T} _ _.
Arguments t_opaque {H K P T} _ _.

(** ** [Matching] (matching.rs:40-136) *)

(** A [Vec<Option<NodeId>>] indexed by node id. *)
Definition vget (v : list (option nat)) (i : nat) : option nat :=
  match v !! i with Some o => o | None => None end.

(** matching.rs:81-90: grow with [None] when the index is out of range, then
    store. *)
Definition vset (v : list (option nat)) (i x : nat) : list (option nat) :=
  <[i := Some x]> (v ++ replicate (S i - length v) None).

Record matching := mkM {
  m_ab : list (option nat);
  m_ba : list (option nat);
  m_pairs : list (nat * nat)
}.

(** matching.rs:58-64 *)
Definition m_empty : matching := mkM [] [] [].

(** matching.rs:77-92 *)
Definition m_add (m : matching) (a b : nat) : matching :=
  mkM (vset (m_ab m) a b) (vset (m_ba m) b a) (m_pairs m ++ [(a, b)]).

(** matching.rs:110-113, 117-120 *)
Definition get_b (m : matching) (a : nat) : option nat := vget (m_ab m) a.
Definition get_a (m : matching) (b : nat) : option nat := vget (m_ba m) b.

(** matching.rs:96-99, 103-106 *)
Definition contains_a (m : matching) (a : nat) : bool :=
  match get_b m a with Some _ => true | None => false end.
Definition contains_b (m : matching) (b : nat) : bool :=
  match get_a m b with Some _ => true | None => false end.

(** matching.rs:140-157 [MatchingConfig]; the [f64] threshold is the rational
    [thr_num / thr_den]. *)
Record config := mkCfg { thr_num : nat; thr_den : nat; min_height : nat }.
Definition default_config : config := mkCfg 1 2 1.

(** A similarity score (an [f64] in [0, 1] obtained as a quotient of two
    counts) is kept as numerator and denominator.  Comparisons by
    cross-multiplication agree with the [f64] comparisons as long as the
    counts stay far below 2^26. *)
Definition ratio := (nat * nat)%type.
Definition ge_thr (c : config) (r : ratio) : bool :=
  Nat.leb (thr_num c * snd r) (fst r * thr_den c).
Definition ratio_gt (x y : ratio) : bool :=
  Nat.ltb (fst y * snd x) (fst x * snd y).

Definition mem (x : nat) (l : list nat) : bool := existsb (Nat.eqb x) l.

(** Descendants of opaque nodes, the opaque nodes themselves excluded unless
    nested (matching.rs:409-431, chawathe.rs:194-217). *)
Definition opaque_descendants {H K P T} (t : dtree H K P T) : list nat :=
  flat_map (fun i => if t_opaque t i
                     then List.filter (fun d => negb (Nat.eqb d i)) (t_desc t i) else [])
           (t_iter t).

Section Matching.
  Context {H K P T : Type}.
  Variable heqb : H -> H -> bool.
  Variable keqb : K -> K -> bool.
  (** [Properties::similarity] *)
  Variable sim : P -> P -> ratio.
  Variable cfg : config.
  Variables ta tb : dtree H K P T.

  (** matching.rs:268-298 [match_subtrees]. [None]: out of fuel. *)
  Fixpoint match_subtrees (fuel : nat) (a b : nat) (m : matching) : option matching :=
    match fuel with
    | 0 => None
    | S f =>
        if contains_a m a || contains_b m b then Some m
        else
          let m1 := m_add m a b in
          if t_opaque ta a || t_opaque tb b then Some m1
          else
            (fix go (l : list (nat * nat)) (m : matching) : option matching :=
               match l with
               | [] => Some m
               | (x, y) :: l' =>
                   match match_subtrees f x y m with
                   | Some m' => go l' m'
                   | None => None
                   end
               end) (combine (t_children ta a) (t_children tb b)) m1
    end.

  (** matching.rs:248-262: candidate pairs pushed for the children of a pair
      whose hashes differ, in push order. *)
  Definition td_push (m : matching) (a b : nat) : list (nat * nat) :=
    flat_map (fun ac =>
      flat_map (fun bc =>
        if negb (contains_b m bc)
           && (heqb (t_hash ta ac) (t_hash tb bc) || keqb (t_kind ta ac) (t_kind tb bc))
        then [(ac, bc)] else [])
      (t_children tb b))
    (t_children ta a).

  (** matching.rs:214-264: the candidate loop of [top_down_phase].  The
      [Vec] used as a stack is a list whose head is the top. *)
  Fixpoint td_loop (fuel sub_fuel : nat) (stack : list (nat * nat)) (m : matching)
    : option matching :=
    match stack with
    | [] => Some m
    | (a, b) :: st =>
        match fuel with
        | 0 => None
        | S f =>
            if contains_a m a || contains_b m b then td_loop f sub_fuel st m
            else if Nat.ltb (t_height ta a) (min_height cfg) then td_loop f sub_fuel st m
            else if heqb (t_hash ta a) (t_hash tb b) && keqb (t_kind ta a) (t_kind tb b)
            then match match_subtrees sub_fuel a b m with
                 | Some m' => td_loop f sub_fuel st m'
                 | None => None
                 end
            else if t_opaque ta a || t_opaque tb b
            then if keqb (t_kind ta a) (t_kind tb b)
                 then td_loop f sub_fuel st (m_add m a b)
                 else td_loop f sub_fuel st m
            else td_loop f sub_fuel (rev (td_push m a b) ++ st) m
        end
    end.

  (** Number of iterations that always suffices: one per pair of nodes of
      equal depth in the two subtrees. *)
  Fixpoint pair_weight (fuel : nat) (a b : nat) : nat :=
    match fuel with
    | 0 => 1
    | S f => S (list_sum (flat_map (fun x => map (fun y => pair_weight f x y) (t_children tb b))
                                   (t_children ta a)))
    end.

  Definition td_fuel : nat := pair_weight (length (t_iter ta)) (t_root ta) (t_root tb).

  (** matching.rs:192-265 [top_down_phase].  Sorting the one-element
      candidate vector (lines 208-212) is the identity. *)
  Definition top_down (m : matching) : option matching :=
    td_loop td_fuel (S (length (t_iter ta))) [(t_root ta, t_root tb)] m.

  (** matching.rs:333-386 [ancestry_compatible] *)
  Definition ancestry_compatible (m : matching) (a b : nat) : bool :=
    match t_parent ta a with
    | Some pa => match get_b m pa with
                 | Some pb => mem b (t_desc tb pb)
                 | None => true
                 end
    | None => true
    end &&
    match t_parent tb b with
    | Some pb => match get_a m pb with
                 | Some pa => mem a (t_desc ta pa)
                 | None => true
                 end
    | None => true
    end.

  (** matching.rs:678-718 [dice_coefficient].  The descendant [HashSet]s are
      the duplicate-free descendant lists. *)
  Definition dice_common (m : matching) (a b : nat) : nat :=
    length (List.filter (fun x => match get_b m x with
                                  | Some y => mem y (t_desc tb b)
                                  | None => false
                                  end) (t_desc ta a)).
  Definition dice (m : matching) (a b : nat) : ratio :=
    match t_desc ta a, t_desc tb b with
    | [], [] => (1, 1)
    | da, db => (2 * dice_common m a b, length da + length db)
    end.

  Definition matched_parent_b (m : matching) (a : nat) : option nat :=
    match t_parent ta a with Some p => get_b m p | None => None end.

  (** matching.rs:463-479: positional candidate among the children of the
      matched parent. *)
  Definition pos_candidate (m : matching) (a pb : nat) : option nat :=
    find (fun b => Nat.eqb (t_position tb b) (t_position ta a)
                   && ge_thr cfg (sim (t_props ta a) (t_props tb b)))
         (List.filter (fun b => (negb (contains_b m b) && keqb (t_kind tb b) (t_kind ta a)))
                 (t_children tb pb)).

  (** matching.rs:433-442: [b_by_kind], kept as the list of all indexed nodes
      and filtered by kind on lookup. *)
  Definition b_index (m : matching) (opb : list nat) : list nat :=
    List.filter (fun b => (negb (contains_b m b) && negb (mem b opb))) (t_iter tb).
  Definition by_kind (idx : list nat) (k : K) : list nat :=
    List.filter (fun b => (keqb (t_kind tb b) k)) idx.

  (** matching.rs:497-531: the best Dice candidate (first one with the
      strictly greatest score). *)
  Definition dice_step (m : matching) (a : nat) (best : option (nat * ratio)) (b : nat)
    : option (nat * ratio) :=
    if contains_b m b then best
    else if Nat.eqb (length (t_children tb b)) 0 then best
    else if negb (ancestry_compatible m a b) then best
    else if negb (ge_thr cfg (sim (t_props ta a) (t_props tb b))) then best
    else
      let s := dice m a b in
      if ge_thr cfg s && match best with None => true | Some (_, s0) => ratio_gt s s0 end
      then Some (b, s) else best.
  Definition dice_best (m : matching) (idx : list nat) (a : nat) : option (nat * ratio) :=
    fold_left (dice_step m a) (by_kind idx (t_kind ta a)) None.

  (** matching.rs:545-556: root fallback. *)
  Definition root_candidate (m : matching) (idx : list nat) (a : nat) : option nat :=
    find (fun b => negb (contains_b m b) && Nat.ltb 0 (length (t_children tb b))
                   && match t_parent tb b with None => true | Some _ => false end
                   && ge_thr cfg (sim (t_props ta a) (t_props tb b)))
         (by_kind idx (t_kind ta a)).

  (** matching.rs:446-568: one iteration of pass 1. *)
  Definition pass1_step (opa idx : list nat) (m : matching) (a : nat) : matching :=
    if contains_a m a || mem a opa then m
    else
      let positional :=
        match matched_parent_b m a with
        | Some pb => pos_candidate m a pb
        | None => None
        end in
      match positional with
      | Some b => m_add m a b
      | None =>
          match dice_best m idx a with
          | Some (b, _) => m_add m a b
          | None =>
              match t_parent ta a with
              | None => match root_candidate m idx a with
                        | Some b => m_add m a b
                        | None => m
                        end
              | Some _ => m
              end
          end
      end.

  (** matching.rs:594-616: leaf candidate below the matched parent. *)
  Definition leaf_candidate (m : matching) (a pb : nat) : option nat :=
    let cands :=
      List.filter (fun b => (negb (contains_b m b) && Nat.eqb (length (t_children tb b)) 0
                                && keqb (t_kind tb b) (t_kind ta a)))
             (t_children tb pb) in
    match find (fun b => Nat.eqb (t_position tb b) (t_position ta a)
                         && heqb (t_hash tb b) (t_hash ta a)) cands with
    | Some b => Some b
    | None =>
        match find (fun b => heqb (t_hash tb b) (t_hash ta a)) cands with
        | Some b => Some b
        | None => find (fun b => Nat.eqb (t_position tb b) (t_position ta a)
                                 && ge_thr cfg (sim (t_props ta a) (t_props tb b))) cands
        end
    end.

  (** matching.rs:632-660: global leaf search; stops at the first hash match. *)
  Fixpoint leaf_global (m : matching) (a : nat) (l : list nat) (best : option nat)
    : option nat :=
    match l with
    | [] => best
    | b :: l' =>
        if contains_b m b then leaf_global m a l' best
        else if negb (Nat.eqb (length (t_children tb b)) 0) then leaf_global m a l' best
        else if negb (ancestry_compatible m a b) then leaf_global m a l' best
        else if heqb (t_hash tb b) (t_hash ta a) then Some b
        else match best with
             | None => if ge_thr cfg (sim (t_props ta a) (t_props tb b))
                       then leaf_global m a l' (Some b) else leaf_global m a l' None
             | Some _ => leaf_global m a l' best
             end
    end.

  (** matching.rs:572-672: one iteration of pass 2. *)
  Definition pass2_step (opa idx : list nat) (m : matching) (a : nat) : matching :=
    if contains_a m a || mem a opa then m
    else if negb (Nat.eqb (length (t_children ta a)) 0) then m
    else
      let r := match matched_parent_b m a with
               | Some pb => leaf_candidate m a pb
               | None => leaf_global m a (by_kind idx (t_kind ta a)) None
               end in
      match r with Some b => m_add m a b | None => m end.

  (** matching.rs:396-673 [bottom_up_phase] *)
  Definition bottom_up (m : matching) : matching :=
    let opa := opaque_descendants ta in
    let opb := opaque_descendants tb in
    let idx := b_index m opb in
    let m1 := fold_left (pass1_step opa idx) (t_iter ta) m in
    fold_left (pass2_step opa idx) (t_iter ta) m1.

  (** matching.rs:164-185 [compute_matching] *)
  Definition compute_matching : outcome matching :=
    match top_down m_empty with
    | Some m => Val (bottom_up m)
    | None => Diverge
    end.
End Matching.
