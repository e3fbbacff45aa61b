(** The similarity scores as the Rust code computes and compares them: in [f64].

    Matching.v keeps a score as a fraction of two counts.  Here the score is an IEEE
    754 double, by the specification in the standard library ([SpecFloat]: 53 bits,
    exponents up to 1024, round to nearest even), and the parts of matching.rs that
    look at scores are given again with it.  PropFloat.v shows that they decide as
    the fractions do. *)
From Coq Require Import ZArith.
From Coq Require Export SpecFloat.
From Verif Require Import Base Arena Matching Chawathe Dom HtmlDiff.

Definition f64 := spec_float.
(** [n as f64] for a [usize] *)
Definition of_count (n : nat) : f64 := binary_normalize 53 1024 (Z.of_nat n) 0 false.
Definition f_div : f64 -> f64 -> f64 := SFdiv 53 1024.
Definition f_mul : f64 -> f64 -> f64 := SFmul 53 1024.
(** The literals [1.0], [2.0] and [0.5]. *)
Definition f_one : f64 := S754_finite false 4503599627370496 (-52).
Definition f_two : f64 := S754_finite false 4503599627370496 (-51).
Definition f_half : f64 := S754_finite false 4503599627370496 (-53).
(** [x >= y], [x > y], [x < y] *)
Definition f_ge (x y : f64) : bool := SFleb y x.
Definition f_gt (x y : f64) : bool := SFltb y x.
Definition f_lt (x y : f64) : bool := SFltb x y.

(** diff.rs:420-438 [HtmlProps::similarity] *)
Definition f_props_sim (x y : attrs) : f64 :=
  match x, y with
  | [], [] => f_one
  | _, _ =>
      let kx := qdedup (keys x) in
      let ky := qdedup (keys y) in
      let inter := length (List.filter (fun q => existsb (qname_eqb q) ky) kx) in
      let union := length kx + length ky in
      if Nat.eqb union 0 then f_one else f_div (of_count (2 * inter)) (of_count union)
  end.

Section Matching.
  Context {H K P T : Type}.
  Variable heqb : H -> H -> bool.
  Variable keqb : K -> K -> bool.
  (** [Properties::similarity] *)
  Variable fsim : P -> P -> f64.
  (** matching.rs:142-143 [similarity_threshold] *)
  Variable fthr : f64.
  Variables ta tb : dtree H K P T.

  (** matching.rs:678-718 [dice_coefficient] *)
  Definition f_dice (m : matching) (a b : nat) : f64 :=
    match t_desc ta a, t_desc tb b with
    | [], [] => f_one
    | da, db => f_div (f_mul f_two (of_count (dice_common ta tb m a b))) (of_count (length da + length db))
    end.

  (** matching.rs:463-479 *)
  Definition f_pos_candidate (m : matching) (a pb : nat) : option nat :=
    find (fun b => Nat.eqb (t_position tb b) (t_position ta a)
                   && f_ge (fsim (t_props ta a) (t_props tb b)) fthr)
         (List.filter (fun b => negb (contains_b m b) && keqb (t_kind tb b) (t_kind ta a))
                 (t_children tb pb)).

  (** matching.rs:497-531 *)
  Definition f_dice_step (m : matching) (a : nat) (best : option (nat * f64)) (b : nat)
    : option (nat * f64) :=
    if contains_b m b then best
    else if Nat.eqb (length (t_children tb b)) 0 then best
    else if negb (ancestry_compatible ta tb m a b) then best
    else if f_lt (fsim (t_props ta a) (t_props tb b)) fthr then best
    else
      let s := f_dice m a b in
      if f_ge s fthr && match best with None => true | Some (_, s0) => f_gt s s0 end
      then Some (b, s) else best.
  Definition f_dice_best (m : matching) (idx : list nat) (a : nat) : option (nat * f64) :=
    fold_left (f_dice_step m a) (by_kind keqb tb idx (t_kind ta a)) None.

  (** matching.rs:545-556 *)
  Definition f_root_candidate (m : matching) (idx : list nat) (a : nat) : option nat :=
    find (fun b => negb (contains_b m b) && Nat.ltb 0 (length (t_children tb b))
                   && match t_parent tb b with None => true | Some _ => false end
                   && f_ge (fsim (t_props ta a) (t_props tb b)) fthr)
         (by_kind keqb tb idx (t_kind ta a)).

  (** matching.rs:446-568 *)
  Definition f_pass1_step (opa idx : list nat) (m : matching) (a : nat) : matching :=
    if contains_a m a || mem a opa then m
    else
      match match matched_parent_b ta m a with
            | Some pb => f_pos_candidate m a pb
            | None => None
            end with
      | Some b => m_add m a b
      | None =>
          match f_dice_best m idx a with
          | Some (b, _) => m_add m a b
          | None =>
              match t_parent ta a with
              | None => match f_root_candidate m idx a with
                        | Some b => m_add m a b
                        | None => m
                        end
              | Some _ => m
              end
          end
      end.

  (** matching.rs:594-616 *)
  Definition f_leaf_candidate (m : matching) (a pb : nat) : option nat :=
    let cands :=
      List.filter (fun b => negb (contains_b m b) && Nat.eqb (length (t_children tb b)) 0
                            && keqb (t_kind tb b) (t_kind ta a))
             (t_children tb pb) in
    match find (fun b => Nat.eqb (t_position tb b) (t_position ta a)
                         && heqb (t_hash tb b) (t_hash ta a)) cands with
    | Some b => Some b
    | None =>
        match find (fun b => heqb (t_hash tb b) (t_hash ta a)) cands with
        | Some b => Some b
        | None => find (fun b => Nat.eqb (t_position tb b) (t_position ta a)
                                 && f_ge (fsim (t_props ta a) (t_props tb b)) fthr) cands
        end
    end.

  (** matching.rs:632-660 *)
  Fixpoint f_leaf_global (m : matching) (a : nat) (l : list nat) (best : option nat) : option nat :=
    match l with
    | [] => best
    | b :: l' =>
        if contains_b m b then f_leaf_global m a l' best
        else if negb (Nat.eqb (length (t_children tb b)) 0) then f_leaf_global m a l' best
        else if negb (ancestry_compatible ta tb m a b) then f_leaf_global m a l' best
        else if heqb (t_hash tb b) (t_hash ta a) then Some b
        else if match best with None => true | Some _ => false end
                && f_ge (fsim (t_props ta a) (t_props tb b)) fthr
        then f_leaf_global m a l' (Some b)
        else f_leaf_global m a l' best
    end.

  (** matching.rs:572-672 *)
  Definition f_pass2_step (opa idx : list nat) (m : matching) (a : nat) : matching :=
    if contains_a m a || mem a opa then m
    else if negb (Nat.eqb (length (t_children ta a)) 0) then m
    else
      match match matched_parent_b ta m a with
            | Some pb => f_leaf_candidate m a pb
            | None => f_leaf_global m a (by_kind keqb tb idx (t_kind ta a)) None
            end with
      | Some b => m_add m a b
      | None => m
      end.

  (** matching.rs:396-673 [bottom_up_phase] *)
  Definition f_bottom_up (m : matching) : matching :=
    let opa := opaque_descendants ta in
    let opb := opaque_descendants tb in
    let idx := b_index tb m opb in
    let m1 := fold_left (f_pass1_step opa idx) (t_iter ta) m in
    fold_left (f_pass2_step opa idx) (t_iter ta) m1.
End Matching.

(** matching.rs:164-185 [compute_matching]; of the configuration, the top-down phase
    looks only at the least height. *)
Definition f_compute_matching {H K P T} (heqb : H -> H -> bool) (keqb : K -> K -> bool) (fsim : P -> P -> f64)
    (fthr : f64) (mh : nat) (ta tb : dtree H K P T) : outcome matching :=
  match top_down heqb keqb (mkCfg 0 0 mh) ta tb m_empty with
  | Some m => Val (f_bottom_up heqb keqb fsim fthr ta tb m)
  | None => Diverge
  end.

Section Diff.
  Context {H : Type}.
  Variable heqb : H -> H -> bool.
  Variable hcomb : hkind -> option string -> list H -> H.
  Variable h0 : H.

  (** diff.rs:1093-1113: threshold 0.5, least height 0 *)
  Definition f_html_matching (ta tb : dtree H hkind attrs string) : outcome matching :=
    let! m := f_compute_matching heqb hkind_eqb f_props_sim f_half 0 ta tb in
    Val (if hkind_eqb (t_kind ta (t_root ta)) (t_kind tb (t_root tb))
            && negb (contains_a m (t_root ta))
         then m_add m (t_root ta) (t_root tb) else m).

  (** diff.rs:1049-1181 [diff], as in HtmlDiff.v *)
  Definition f_diff_bodies (new : document) (old_arena : arena dnode) (ob nb : nat) : outcome (list patch) :=
    let! t := build_tree old_arena ob in
    let! ta := mk_dtree hcomb h0 (fun d => d) t 0 in
    let! tb := mk_dtree hcomb h0 tdata_of (doc_arena new) nb in
    let! m := f_html_matching ta tb in
    let ops := html_edit_script ta tb m in
    let! oc := opaque_contents heqb new ta tb (m_pairs m) in
    let! ps := convert_ops ops t tb m in
    match oc with
    | [] => Val ps
    | _ =>
        let! sh := shadow_new t 0 in
        let! ops := opaque_patches sh oc in
        Val (ps ++ ops)
    end.
  Definition f_diff (old new : document) : outcome (list patch) :=
    match body old, body new with
    | None, None => Val []
    | None, Some nb => insert_all (doc_arena new) (children (doc_arena new) nb) 0
    | Some ob, None =>
        Val (map (fun pos => PRemove [0; pos])
                 (rev (seq 0 (length (children (doc_arena old) ob)))))
    | Some ob, Some nb => f_diff_bodies new (doc_arena old) ob nb
    end.
End Diff.
