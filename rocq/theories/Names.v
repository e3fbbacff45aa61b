(** Names that the fuzz targets let through to the DOM:
    hotmeal/fuzz/fuzz_targets/common/mod.rs, 568-591.  The filter over patches is in
    Fuzz.v, with these two as variables. *)
From Coq Require Import NArith.
From Verif Require Import Base Stem Inputs.
Local Open Scope N_scope.

(** [char::is_control]: the category Cc *)
Definition is_control (c : N) : bool := (c <=? 31) || ((127 <=? c) && (c <=? 159)).

(** common/mod.rs:569-579 [is_valid_attr_name] *)
Definition valid_attr_text (s : text) : bool :=
  match s with [] => false | _ :: _ => true end
  && negb (contains (str "=") s) && negb (contains (str "<") s) && negb (contains (str ">") s)
  && negb (contains [34] s) && negb (contains (str "'") s) && negb (contains (str "/") s)
  && negb (starts_where is_ws s) && negb (existsb is_control s).

(** common/mod.rs:582-592 [is_valid_tag_name] *)
Definition valid_tag_text (s : text) : bool :=
  match s with [] => false | _ :: _ => true end
  && negb (contains (str "<") s) && negb (contains (str ">") s) && negb (contains (str "=") s)
  && negb (contains [34] s) && negb (contains (str "'") s) && negb (contains (str "/") s)
  && negb (existsb is_ws s) && negb (existsb is_control s).
