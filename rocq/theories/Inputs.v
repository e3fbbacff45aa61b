(** Which inputs the fuzz targets look at: hotmeal/fuzz/fuzz_targets/common/mod.rs,
    34-591.  The targets compare html5ever with a browser and leave out texts on
    which the two are known to differ.

    A [&str] is the list of its characters (Unicode scalar values); its bytes are
    [utf8] of it (Stem.v).  Byte positions that the code gets from [find] are
    positions of characters here ([find_bytes] in PropInputs.v: they are character
    boundaries, so slicing there does not panic).  Loops over bytes are loops over
    characters: the bytes they look for are ASCII.  [std::str::from_utf8] is a
    variable. *)
From Coq Require Import NArith Ascii.
From Verif Require Import Base Stem.
Local Open Scope string_scope.
Local Open Scope N_scope.

Notation text := (list N).
(** A literal. *)
Definition str (s : string) : text := map N_of_ascii (list_ascii_of_string s).

(** ** core *)

(** [str::starts_with] *)
Fixpoint starts (p s : text) : bool :=
  match p, s with
  | [], _ => true
  | x :: p', y :: s' => N.eqb x y && starts p' s'
  | _ :: _, [] => false
  end.
(** [str::find]: what comes before and what the found part begins. *)
Fixpoint split_at (p s : text) : option (text * text) :=
  if starts p s then Some ([], s)
  else match s with
       | [] => None
       | c :: s' => match split_at p s' with Some (x, y) => Some (c :: x, y) | None => None end
       end.
Definition find_pos (p s : text) : option nat := option_map (fun xy => length (fst xy)) (split_at p s).
(** [&s[s.find(p)..]] *)
Definition from_found (p s : text) : option text := option_map snd (split_at p s).
Definition contains (p s : text) : bool := match split_at p s with Some _ => true | None => false end.
(** [s.rfind(c)], and the slice from there *)
Fixpoint from_last (c : N) (s : text) : option text :=
  match s with
  | [] => None
  | x :: s' => match from_last c s' with
               | Some t => Some t
               | None => if N.eqb x c then Some s else None
               end
  end.
Definition ends (p s : text) : bool := starts (rev p) (rev s).
(** [str::to_ascii_lowercase] *)
Definition lower_n (c : N) : N := if (65 <=? c) && (c <=? 90) then c + 32 else c.
Definition lowered (s : text) : text := map lower_n s.
(** [char::is_whitespace]: the property White_Space *)
Definition is_ws (c : N) : bool :=
  ((9 <=? c) && (c <=? 13)) || existsb (N.eqb c) [32; 133; 160; 5760; 8232; 8233; 8239; 8287; 12288]
  || ((8192 <=? c) && (c <=? 8202)).
(** [str::trim_start_matches], [str::trim_start], [str::trim_end] *)
Fixpoint drop_while (f : N -> bool) (s : text) : text :=
  match s with
  | [] => []
  | c :: s' => if f c then drop_while f s' else s
  end.
Definition trim_start (s : text) : text := drop_while is_ws s.
Definition trim_end (s : text) : text := rev (drop_while is_ws (rev s)).
Definition starts_where (f : N -> bool) (s : text) : bool := match s with c :: _ => f c | [] => false end.
Definition is_digit (c : N) : bool := (48 <=? c) && (c <=? 57).
Definition is_alnum (c : N) : bool := is_digit c || ((65 <=? c) && (c <=? 90)) || ((97 <=? c) && (c <=? 122)).
Definition is (s : string) (c : N) : bool := existsb (N.eqb c) (str s).

(** ** Checks *)

Definition is_heading (c : N) : bool := (49 <=? c) && (c <=? 54).
Definition after_slash (prev : option N) : bool := match prev with Some c => N.eqb c 47 | None => false end.

(** mod.rs:168-188 [is_newline_charref] *)
Definition is_newline_charref (s : text) : bool :=
  if negb (starts (str "&#") s) then false
  else
    let after := skipn 2 s in
    if starts_where (is "xX") after then
      starts_where (is "aA") (drop_while (is "0") (skipn 1 after))
    else
      let stripped := drop_while (is "0") after in
      starts (str "10") stripped && negb (starts_where is_digit (skipn 2 stripped)).

(** mod.rs:147-163, for one tag: the text from [search_pos] on.  [html] and its
    lower case version have the same positions. *)
Fixpoint charref_after (fuel : nat) (tag html : text) : bool :=
  match fuel with
  | O => false
  | S f =>
      match find_pos tag (lowered html) with
      | None => false
      | Some i =>
          let after := skipn (i + length tag) html in
          match from_found (str ">") after with
          | Some (_ :: content) => is_newline_charref content || charref_after f tag after
          | _ => charref_after f tag after
          end
      end
  end.
(** mod.rs:141-165 [has_newline_charref_after_raw_text_tag] *)
Definition has_newline_charref (html : text) : bool :=
  existsb (fun tag => charref_after (S (length html)) (str tag) html) ["<textarea"; "<pre"; "<listing"].

(** mod.rs:192-230 [has_mismatched_heading_close] on the lower case text; [prev]:
    the character before, [st]: [open_headings], the last first. *)
Fixpoint headings (prev : option N) (st : list N) (s : text) : bool :=
  match s with
  | [] => false
  | c :: s' =>
      if starts (str "<h") s && starts_where is_digit (skipn 2 s) then
        headings (Some c)
          (if starts_where is_heading (skipn 2 s) && negb (after_slash prev) then firstn 1 (skipn 2 s) ++ st else st) s'
      else if starts (str "</h") s && starts_where is_heading (skipn 3 s) then
        match st with
        | [] => headings (Some c) [] s'
        | last :: st' => if starts_where (N.eqb last) (skipn 3 s) then headings (Some c) st' s' else true
        end
      else headings (Some c) st s'
  end.
Definition has_mismatched_heading (html : text) : bool := headings None [] (lowered html).

(** mod.rs:233-279 [has_custom_element]: the characters of a tag name, and the
    loop from a position on. *)
Definition in_name (c : N) : bool := is_alnum c || is ":_-" c.
Fixpoint take_while (f : N -> bool) (s : text) : text :=
  match s with
  | c :: s' => if f c then c :: take_while f s' else []
  | [] => []
  end.
Fixpoint custom (fuel : nat) (s : text) : bool :=
  match fuel, s with
  | S f, c :: s' =>
      if N.eqb c 60 && negb (Nat.eqb (length s') 0) then
        if starts_where (is "/!?") s' then custom f s'
        else
          let name := take_while in_name s' in
          if contains (str "-") name && Nat.ltb 1 (length name) && negb (starts (str "-") name) then true
          else custom f (skipn (length name) s')
      else custom f s'
  | _, _ => false
  end.
Definition has_custom_element (html : text) : bool := custom (S (length html)) html.

(** mod.rs:333-349: a text that ends in the middle of markup *)
Definition ends_in_markup (html : text) : bool :=
  match from_last 60 (trim_end html) with
  | Some t => (starts (str "<!") t && negb (ends (str "-->") t)) || negb (contains (str ">") t)
  | None => false
  end.
(** mod.rs:371-382 *)
Definition svg_title (l : text) : bool :=
  match find_pos (str "<svg") l, find_pos (str "<title") l with
  | Some s, Some t => Nat.ltb s t
  | _, _ => false
  end.
(** mod.rs:387-397 *)
Definition foreign_html (l : text) : bool :=
  match match from_found (str "<math") l with Some t => Some t | None => from_found (str "<svg") l end with
  | Some t => match find_pos (str "<html") t with Some k => Nat.ltb 0 k | None => false end
  | None => false
  end.
(** mod.rs:404-418 *)
Definition math_breakout (l : text) : bool :=
  match from_found (str "<math") l with
  | Some t => existsb (fun w => contains (str w) t) ["<li"; "<div"; "<p>"; "<p "; "<table"]
  | None => false
  end.
(** mod.rs:454-464 *)
Definition html_attributes (l : text) : bool :=
  match from_found (str "<html") l with
  | Some t => let after := skipn 5 t in
              negb (starts (str ">") after) && negb (starts (str ">") (trim_start after))
  | None => false
  end.
(** mod.rs:500-518 *)
Fixpoint nested_lt (in_tag has_lt : bool) (s : text) : bool :=
  match s with
  | [] => false
  | c :: s' =>
      if N.eqb c 60 then if in_tag then nested_lt true true s' else nested_lt true false s'
      else if N.eqb c 62 && in_tag then if has_lt then true else nested_lt false has_lt s'
      else nested_lt in_tag has_lt s'
  end.
(** mod.rs:524-528 *)
Definition is_c0 (c : N) : bool :=
  ((1 <=? c) && (c <=? 8)) || ((11 <=? c) && (c <=? 12)) || ((14 <=? c) && (c <=? 31)).

(** mod.rs:290-532 [is_valid_for_browser_parity] *)
Definition valid_for_parity (html : text) : bool :=
  let l := lowered html in
  if Nat.eqb (length html) 0 then false
  else if contains [0] html then false
  else if starts_where is_ws html then false
  else if contains [65279] html then false
  else if contains [13] html then false
  else if ends_in_markup html then false
  else if contains (str "<!d") l then false
  else if svg_title l then false
  else if foreign_html l then false
  else if math_breakout l then false
  else if contains (str "<details") l then false
  else if has_newline_charref html then false
  else if has_mismatched_heading html then false
  else if html_attributes l then false
  else if contains (str "<template") l then false
  else if contains (str "<select") l then false
  else if contains (str "<!doctype") l then false
  else if has_custom_element html then false
  else if nested_lt false false html then false
  else if existsb is_c0 html then false
  else true.

(** ** Inputs of the targets *)

(** [str::len], [str::get(..n)], [str::get(n..)], [str::get(m..n)]: bytes *)
Definition blen (s : text) : nat := String.length (utf8 s).
Fixpoint upto (s : text) (n : nat) : option text :=
  match n, s with
  | O, _ => Some []
  | _, [] => None
  | _, c :: s' => let w := String.length (enc c) in
                  if Nat.leb w n then option_map (cons c) (upto s' (n - w)) else None
  end.
Fixpoint onwards (s : text) (n : nat) : option text :=
  match n, s with
  | O, _ => Some s
  | _, [] => None
  | _, c :: s' => let w := String.length (enc c) in
                  if Nat.leb w n then onwards s' (n - w) else None
  end.
Definition between (s : text) (m n : nat) : option text :=
  match upto s n with Some t => onwards t m | None => None end.
Definition or_empty (o : option text) : text := match o with Some t => t | None => [] end.

(** mod.rs:55-128: the second text, from the first and the three control bytes
    ([kind] is the first modulo 8).  [len] is not 0. *)
Definition mutated (html : text) (kind p1 p2 : nat) : text :=
  let len := blen html in
  match kind with
  | 0%nat => match upto html (Nat.max (p1 mod len) 1) with Some t => t | None => html end
  | 1%nat => or_empty (onwards html (p1 mod len))
  | 2%nat => let x := (p1 mod len)%nat in
             let y := ((p1 + p2) mod len)%nat in
             or_empty (upto html (Nat.min x y)) ++ or_empty (onwards html (Nat.max x y))
  | 3%nat => let pos := (p1 mod (len + 1))%nat in
             let ins := match (p2 mod 4)%nat with
                        | 0%nat => "<div>" | 1%nat => "</div>" | 2%nat => "<span>x</span>" | _ => "text"
                        end in
             or_empty (upto html pos) ++ str ins ++ or_empty (onwards html pos)
  | 4%nat => let x := (p1 mod len)%nat in
             let y := Nat.min (Nat.max ((p1 + p2) mod len) (x + 1)) len in
             html ++ or_empty (between html x y)
  | 5%nat => let mid := (p1 mod (Nat.max len 1))%nat in
             or_empty (onwards html mid) ++ or_empty (upto html mid)
  | 6%nat => <[ (p1 mod len)%nat := N.of_nat (p2 mod 26) + 97 ]> html
  | _ => html ++ str match (p2 mod 4)%nat with
                     | 0%nat => "<p>new</p>" | 1%nat => "<b>bold</b>" | 2%nat => "<!-- comment -->" | _ => " extra text"
                     end
  end.

Fixpoint same_text (x y : text) : bool :=
  match x, y with
  | [], [] => true
  | a :: x', b :: y' => N.eqb a b && same_text x' y'
  | _, _ => false
  end.

Section Prepare.
  (** [std::str::from_utf8] *)
  Variable from_utf8 : string -> option text.

  (** mod.rs:37-136 [derive_html_pair] *)
  Definition derive_html_pair (data : string) : option (text * text) :=
    match data with
    | String b0 (String b1 (String b2 rest)) =>
        if Nat.ltb (String.length data) 8 then None
        else match from_utf8 rest with
             | None => None
             | Some [] => None
             | Some html =>
                 let b := mutated html (nat_of_ascii b0 mod 8) (nat_of_ascii b1) (nat_of_ascii b2) in
                 if same_text html b && negb (Nat.eqb (length b) 0) then None else Some (html, b)
             end
    | _ => None
    end.

  (** mod.rs:537-546 [prepare_single_html_input] *)
  Definition prepare_single_html_input (data : string) : option text :=
    match from_utf8 data with
    | Some html => if valid_for_parity html then Some html else None
    | None => None
    end.

  (** mod.rs:551-565 [prepare_html_inputs] *)
  Definition prepare_html_inputs (data : string) : option (text * text) :=
    match derive_html_pair data with
    | None => None
    | Some (x, y) =>
        if negb (valid_for_parity x) || negb (valid_for_parity y) then None
        else if Nat.eqb (length (trim_end (trim_start x))) 0 || Nat.eqb (length (trim_end (trim_start y))) 0 then None
        else Some (x, y)
    end.
End Prepare.
