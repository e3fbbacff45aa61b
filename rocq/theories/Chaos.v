(** The generator of the fuzz target apply_structured.rs in its mode "Chaos":
    hotmeal/fuzz/fuzz_targets/common/dom_generator.rs, 15-290, 1572-1581 and
    2819-2911.  (The mode "Extended" is not modelled.)

    [E] is the state of [arbitrary::Unstructured]; the crate is not part of the
    repository.  Its [int_in_range], [bool::arbitrary] and the derived choice of
    a variant are variables; [choose] and [ratio] are defined by the first, as in
    the crate.  A failing call leaves the state as it was.  Texts are lists of
    characters. *)
From Coq Require Import NArith Ascii.
From Verif Require Import Base Inputs.
Local Open Scope string_scope.
Local Open Scope N_scope.
Local Open Scope list_scope.

(** ** Values *)

(** dom_generator.rs:182-186 [ChaosAttr] *)
Record cattr := mkCA { ca_name : text; ca_value : option text }.
(** dom_generator.rs:190-195 [ChaosElement], 241-246 [ChaosNode] *)
Inductive cnode :=
| CText (t : text)
| CComment (t : text)
| CElem (tag : text) (ats : list cattr) (cs : list cnode) (void : bool).
(** dom_generator.rs:2819-2826 [Doctype] *)
Inductive doctype := DtNone | DtHtml5 | DtStrict | DtTransitional | DtXhtml.

(** ** HTML *)

(** [str::replace] of a character *)
Definition replaced (c : N) (by_ : text) (s : text) : text := flat_map (fun x => if N.eqb x c then by_ else [x]) s.
(** dom_generator.rs:1572-1581 [html_escape_text], [html_escape_attr] *)
Definition escape_text (s : text) : text := replaced 60 (str "&lt;") (replaced 38 (str "&amp;") s).
Definition escape_attr (s : text) : text :=
  replaced 62 (str "&gt;") (replaced 60 (str "&lt;") (replaced 34 (str "&quot;") (replaced 38 (str "&amp;") s))).

(** dom_generator.rs:258 [t.0.replace("--", "- -").trim_end_matches('-')] *)
Fixpoint spaced (s : text) : text :=
  match s with
  | a :: ((b :: s') as s1) => if N.eqb a 45 && N.eqb b 45 then 45 :: 32 :: 45 :: spaced s' else a :: spaced s1
  | _ => s
  end.
Definition safe_comment (s : text) : text := rev (drop_while (N.eqb 45) (rev (spaced s))).

(** dom_generator.rs:267-274 *)
Definition attr_html (a : cattr) : text :=
  32 :: ca_name a ++ match ca_value a with Some v => str "=""" ++ escape_attr v ++ [34] | None => [] end.

(** dom_generator.rs:248-290 [ChaosNode::to_html] *)
Fixpoint to_html (depth : nat) (n : cnode) : text :=
  if Nat.ltb 6 depth then []
  else
    match n with
    | CText t => escape_text t
    | CComment t => str "<!--" ++ safe_comment t ++ str "-->"
    | CElem tag ats cs void =>
        60 :: tag ++ flat_map attr_html ats ++
        if void then [62] else [62] ++ flat_map (to_html (S depth)) cs ++ str "</" ++ tag ++ [62]
    end.

(** dom_generator.rs:2828-2844 [Doctype::as_str] *)
Definition doctype_str (d : doctype) : text :=
  match d with
  | DtNone => []
  | DtHtml5 => str "<!DOCTYPE html>"
  | DtStrict => str "<!DOCTYPE HTML PUBLIC ""-//W3C//DTD HTML 4.01//EN"" ""http://www.w3.org/TR/html4/strict.dtd"">"
  | DtTransitional =>
      str "<!DOCTYPE HTML PUBLIC ""-//W3C//DTD HTML 4.01 Transitional//EN"" ""http://www.w3.org/TR/html4/loose.dtd"">"
  | DtXhtml => str "<!DOCTYPE html PUBLIC ""-//W3C//DTD XHTML 1.0 Strict//EN"" ""http://www.w3.org/TR/xhtml1/DTD/xhtml1-strict.dtd"">"
  end.

(** dom_generator.rs:2895-2911 [chaos_nodes_to_html] *)
Definition chaos_page (nodes : list cnode) (d : doctype) (add_invalid_nesting : bool) : text :=
  let inner := flat_map (to_html 0) (firstn 6 nodes) in
  let inner :=
    match inner with
    | [] => []
    | _ => if add_invalid_nesting
           then str "<p>Unclosed paragraph" ++ inner ++ str "<div>Inside P which browsers will auto-close</div>" ++
                str "<span>Unclosed span<div>Block in span</div>"
           else inner
    end in
  doctype_str d ++ str "<html><body>" ++ inner ++ str "</body></html>".

(** ** Generation *)

(** dom_generator.rs:215-218 *)
Definition void_tags : list text :=
  map str ["area"; "base"; "br"; "col"; "embed"; "hr"; "img"; "input"; "link"; "meta"; "param"; "source"; "track"; "wbr"].
Fixpoint text_eqb (s t : text) : bool :=
  match s, t with
  | [], [] => true
  | x :: s', y :: t' => N.eqb x y && text_eqb s' t'
  | _, _ => false
  end.

Section Gen.
  Context {E : Type}.
  Definition gen (A : Type) := E -> option (A * E).
  Definition gret {A} (x : A) : gen A := fun u => Some (x, u).
  Definition gbind {A B} (g : gen A) (k : A -> gen B) : gen B :=
    fun u => match g u with Some (x, u') => k x u' | None => None end.
  Notation "'draw' x <- g ; k" := (gbind g (fun x => k)) (at level 200, x name, g at level 100, k at level 200).
  Fixpoint grepeat {A} (n : nat) (g : gen A) : gen (list A) :=
    match n with
    | O => gret []
    | S n' => draw x <- g; draw l <- grepeat n' g; gret (x :: l)
    end.

  Variable int_in_range : N -> N -> gen N.
  Variable arb_bool : gen bool.
  Variable arb_variant : gen N.

  (** [Unstructured::choose] of a list that is not empty *)
  Definition choose {A} (l : list A) (d : A) : gen A :=
    draw i <- int_in_range 0 (N.of_nat (length l) - 1); gret (nth (N.to_nat i) l d).
  (** [Unstructured::ratio] *)
  Definition ratio (n d : N) : gen bool := draw x <- int_in_range 1 d; gret (x <=? n).
  Definition letter (base : N) : gen N := draw x <- int_in_range 0 25; gret (base + x).
  Definition digit : gen N := draw x <- int_in_range 0 9; gret (48 + x).
  Definition count (lo hi : N) : gen nat := draw x <- int_in_range lo hi; gret (N.to_nat x).

  (** dom_generator.rs:19-49 [ArbitraryTagName] *)
  Definition tag_first : gen N :=
    draw x <- int_in_range 0 52;
    if x <=? 25 then letter 97 else if x <=? 51 then letter 65 else gret 95.
  Definition tag_rest : gen N :=
    draw x <- int_in_range 0 65;
    if x <=? 25 then letter 97 else if x <=? 51 then letter 65 else if x <=? 61 then digit
    else gret (if x =? 62 then 45 else if x =? 63 then 95 else if x =? 64 then 46 else 58).
  Definition arb_tag : gen text :=
    draw len <- count 1 20; draw c <- tag_first; draw l <- grepeat (len - 1) tag_rest; gret (c :: l).

  (** dom_generator.rs:55-116 [ArbitraryAttrName] *)
  Definition aria_attrs : list text :=
    map str ["aria-label"; "aria-hidden"; "aria-expanded"; "aria-selected"; "aria-disabled"; "aria-describedby";
             "aria-labelledby"; "aria-live"; "aria-atomic"; "aria-busy"].
  Definition data_char : gen N :=
    draw x <- int_in_range 0 27; if x <=? 25 then letter 97 else gret (if x =? 26 then 45 else 95).
  Definition attr_first : gen N := draw x <- int_in_range 0 51; if x <=? 25 then letter 97 else letter 65.
  Definition attr_rest : gen N :=
    draw x <- int_in_range 0 65;
    if x <=? 25 then letter 97 else if x <=? 51 then letter 65 else if x <=? 61 then digit
    else gret (if x =? 62 then 45 else if x =? 63 then 95 else if x =? 64 then 58 else 46).
  Definition arb_attr_name : gen text :=
    draw data <- ratio 1 5;
    if data then draw len <- count 1 10; draw l <- grepeat len data_char; gret (str "data-" ++ l)
    else
      draw aria <- ratio 1 5;
      if aria then choose aria_attrs []
      else draw len <- count 1 15; draw c <- attr_first; draw l <- grepeat (len - 1) attr_rest; gret (c :: l).

  (** dom_generator.rs:122-141 [ArbitraryAttrValue] *)
  Definition value_char : gen N :=
    draw x <- int_in_range 0 40;
    if x <=? 25 then letter 97 else if x <=? 35 then digit
    else gret (if x =? 36 then 32 else if x =? 37 then 45 else if x =? 38 then 95 else if x =? 39 then 47 else 46).
  Definition arb_attr_value : gen text := draw len <- count 0 50; grepeat len value_char.

  (** dom_generator.rs:147-180 [ArbitraryText].  The arm for the digits comes
      first, and has a guard that draws. *)
  Definition unicode_samples : list N :=
    [233; 241; 252; 248; 229; 20013; 25991; 26085; 26412; 945; 946; 947; 948; 960; 8594; 8592; 8593; 8595; 8226;
     128512; 127881; 128640; 128175].
  Definition text_char : gen N :=
    draw x <- int_in_range 0 60;
    if x <=? 25 then letter 97 else if x <=? 51 then letter 65
    else fun u =>
      match int_in_range 52 61 u with
      | Some (_, u') => digit u'
      | None =>
          (if x =? 52 then gret 32 else if x =? 53 then gret 9 else if x =? 54 then gret 10 else if x =? 55 then gret 60
           else if x =? 56 then gret 62 else if x =? 57 then gret 38 else if x =? 58 then gret 34 else if x =? 59 then gret 39
           else if x =? 60 then choose unicode_samples 32 else gret 32) u
      end.
  Definition arb_text : gen text := draw len <- count 0 100; grepeat len text_char.

  (** dom_generator.rs:182-186, derived *)
  Definition arb_attr : gen cattr :=
    draw n <- arb_attr_name; draw b <- arb_bool;
    if b then draw v <- arb_attr_value; gret (mkCA n (Some v)) else gret (mkCA n None).

  (** dom_generator.rs:205-238, 241-246 (derived).  The recursion is not bounded
      by the code but by the data; [None] if [fuel] does not suffice. *)
  Fixpoint arb_node (fuel : nat) : gen cnode :=
    match fuel with
    | O => fun _ => None
    | S f =>
        draw k <- arb_variant;
        if k =? 0 then draw t <- arb_text; gret (CText t)
        else if k =? 1 then draw t <- arb_text; gret (CComment t)
        else
          draw tag <- arb_tag;
          draw n <- count 0 5;
          draw ats <- grepeat n arb_attr;
          draw void <- (if existsb (text_eqb (lowered tag)) void_tags then gret true else ratio 1 20);
          if void then gret (CElem tag ats [] true)
          else draw m <- count 0 4; draw cs <- grepeat m (arb_node f); gret (CElem tag ats cs false)
    end.
End Gen.
