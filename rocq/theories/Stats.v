(** Model of the statistics of cinereus/src/matching.rs (feature [matching-stats],
    lines 14-36 and 689-698): the matching with the calls of [dice_coefficient]
    recorded, and with the candidate pairs that the top-down loop takes from its
    stack (these the Rust code does not count). *)
From Verif Require Import Base Arena Matching.

Section Stats.
  Context {H K P T : Type}.
  Variable heqb : H -> H -> bool.
  Variable keqb : K -> K -> bool.
  Variable sim : P -> P -> ratio.
  Variable cfg : config.
  Variables ta tb : dtree H K P T.

  (** matching.rs:214-264; [td_loop] with the pairs popped, first one first. *)
  Fixpoint td_loop_s (fuel sub_fuel : nat) (stack : list (nat * nat)) (m : matching)
      (log : list (nat * nat)) : option (matching * list (nat * nat)) :=
    match stack with
    | [] => Some (m, log)
    | (a, b) :: st =>
        match fuel with
        | 0 => None
        | S f =>
            let log := log ++ [(a, b)] in
            if contains_a m a || contains_b m b then td_loop_s f sub_fuel st m log
            else if Nat.ltb (t_height ta a) (min_height cfg) then td_loop_s f sub_fuel st m log
            else if heqb (t_hash ta a) (t_hash tb b) && keqb (t_kind ta a) (t_kind tb b)
            then match match_subtrees ta tb sub_fuel a b m with
                 | Some m' => td_loop_s f sub_fuel st m' log
                 | None => None
                 end
            else if t_opaque ta a || t_opaque tb b
            then if keqb (t_kind ta a) (t_kind tb b)
                 then td_loop_s f sub_fuel st (m_add m a b) log
                 else td_loop_s f sub_fuel st m log
            else td_loop_s f sub_fuel (rev (td_push heqb keqb ta tb m a b) ++ st) m log
        end
    end.

  (** matching.rs:497-531 with 689-698: the calls so far are the second
      component, in order; [DICE_CALLS] is their number, [DICE_UNIQUE_A] and
      [DICE_UNIQUE_B] the sets of their components. *)
  Definition dice_step_s (m : matching) (a : nat) (s : option (nat * ratio) * list (nat * nat)) (b : nat)
    : option (nat * ratio) * list (nat * nat) :=
    let '(best, calls) := s in
    if contains_b m b then s
    else if Nat.eqb (length (t_children tb b)) 0 then s
    else if negb (ancestry_compatible ta tb m a b) then s
    else if negb (ge_thr cfg (sim (t_props ta a) (t_props tb b))) then s
    else
      let calls := calls ++ [(a, b)] in
      let d := dice ta tb m a b in
      if ge_thr cfg d && match best with None => true | Some (_, s0) => ratio_gt d s0 end
      then (Some (b, d), calls) else (best, calls).

  (** matching.rs:446-568 *)
  Definition pass1_step_s (opa idx : list nat) (s : matching * list (nat * nat)) (a : nat)
    : matching * list (nat * nat) :=
    let '(m, calls) := s in
    if contains_a m a || mem a opa then s
    else
      let positional :=
        match matched_parent_b ta m a with
        | Some pb => pos_candidate keqb sim cfg ta tb m a pb
        | None => None
        end in
      match positional with
      | Some b => (m_add m a b, calls)
      | None =>
          let '(best, calls) := fold_left (dice_step_s m a) (by_kind keqb tb idx (t_kind ta a)) (None, calls) in
          match best with
          | Some (b, _) => (m_add m a b, calls)
          | None =>
              match t_parent ta a with
              | None => match root_candidate keqb sim cfg ta tb m idx a with
                        | Some b => (m_add m a b, calls)
                        | None => (m, calls)
                        end
              | Some _ => (m, calls)
              end
          end
      end.

  (** matching.rs:396-673; pass 2 does not compute Dice coefficients. *)
  Definition bottom_up_s (m : matching) (calls : list (nat * nat)) : matching * list (nat * nat) :=
    let opa := opaque_descendants ta in
    let opb := opaque_descendants tb in
    let idx := b_index tb m opb in
    let '(m1, calls) := fold_left (pass1_step_s opa idx) (t_iter ta) (m, calls) in
    (fold_left (pass2_step heqb keqb sim cfg ta tb opa idx) (t_iter ta) m1, calls).

  (** What a run leaves behind: the matching, the candidate pairs, and the
      thread's record of calls, which holds [calls] from earlier runs before. *)
  Record run := mkRun { run_matching : matching; run_pairs : list (nat * nat); run_calls : list (nat * nat) }.

  (** matching.rs:164-185 *)
  Definition compute_matching_s (calls : list (nat * nat)) : outcome run :=
    match td_loop_s (td_fuel ta tb) (S (length (t_iter ta))) [(t_root ta, t_root tb)] m_empty [] with
    | Some (m, log) => let '(m', calls) := bottom_up_s m calls in Val (mkRun m' log calls)
    | None => Diverge
    end.
End Stats.

(** matching.rs:23-27 [reset_stats] *)
Definition reset_stats : list (nat * nat) := [].

(** matching.rs:31-36 [get_stats]: calls, distinct first nodes, distinct second nodes. *)
Definition get_stats (calls : list (nat * nat)) : nat * nat * nat :=
  (length calls, length (nodup Nat.eq_dec (map fst calls)), length (nodup Nat.eq_dec (map snd calls))).

(** cinereus/src/tree.rs:102-115: the trait's [position], with the number of
    siblings that it looks at. *)
Fixpoint scan (id : nat) (l : list nat) (pos scanned : nat) : nat * nat :=
  match l with
  | [] => (0, scanned)
  | c :: l' => if Nat.eqb c id then (pos, S scanned) else scan id l' (S pos) (S scanned)
  end.
Definition position_s {D} (a : arena D) (id : nat) : nat * nat :=
  match parent a id with
  | Some p => scan id (children a p) 0 0
  | None => (0, 0)
  end.
