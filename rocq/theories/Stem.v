(** Model of hotmeal/src/stem.rs, of the conversion of the parser's strings into
    stems (dom.rs:1142-1159), and of [into_owned] of patches (diff.rs:1912-2020).
    Everywhere else a stem is the string it stands for; [PropStem.v] justifies that.

    Memory is a function from addresses to bytes.  A [&str] is an address and a
    length; its text is what memory holds there.  Lifetimes - which in Rust make
    sure that the memory is still there - are not modelled: what is proved about
    borrowed stems is for the memory they were made from. *)
From Coq Require Import NArith.
From Verif Require Import Base Arena Dom.
Local Open Scope string_scope.

(** ** UTF-8 *)

Definition byte (n : N) : ascii := ascii_of_N n.

(** The encoding of one Unicode scalar value. *)
Definition enc (c : N) : string :=
  (if c <? 128 then String (byte c) ""
   else if c <? 2048 then String (byte (192 + c / 64)) (String (byte (128 + c mod 64)) "")
   else if c <? 65536 then
     String (byte (224 + c / 4096)) (String (byte (128 + (c / 64) mod 64)) (String (byte (128 + c mod 64)) ""))
   else
     String (byte (240 + c / 262144)) (String (byte (128 + (c / 4096) mod 64))
       (String (byte (128 + (c / 64) mod 64)) (String (byte (128 + c mod 64)) ""))))%N.

(** Surrogates are not excluded; nothing below needs it. *)
Definition scalar (c : N) : Prop := (c < 1114112)%N.

Fixpoint utf8 (cs : list N) : string :=
  match cs with
  | [] => ""
  | c :: cs' => enc c ++ utf8 cs'
  end.

(** 128..191: a byte that does not start a character *)
Definition is_cont (b : ascii) : bool := ((128 <=? N_of_ascii b) && (N_of_ascii b <? 192))%N.

(** core: [str::is_char_boundary] *)
Definition is_char_boundary (s : string) (i : nat) : bool :=
  Nat.eqb i 0 || Nat.eqb i (String.length s) ||
  match String.get i s with Some b => negb (is_cont b) | None => false end.

(** core: [&s[i..j]] panics off the boundaries. *)
Definition str_slice (s : string) (i j : nat) : outcome string :=
  if Nat.leb i j && is_char_boundary s i && is_char_boundary s j then Val (substring i (j - i) s) else Panic.

(** dom.rs:833-839, character by character. *)
Definition escape_text_chars (cs : list N) : string :=
  String.concat "" (map (fun c => if (c =? 38)%N then "&amp;" else if (c =? 60)%N then "&lt;" else enc c) cs).
(** dom.rs:867-875 *)
Definition escape_attr_chars (cs : list N) : string :=
  String.concat "" (map (fun c => if (c =? 38)%N then "&amp;" else if (c =? 34)%N then "&quot;"
                                  else if (c =? 60)%N then "&lt;" else if (c =? 62)%N then "&gt;" else enc c) cs).

(** ** Stems *)

Definition memory := nat -> ascii.
Record slice := mkSlice { sl_start : nat; sl_len : nat }.
Fixpoint load (m : memory) (a n : nat) : string :=
  match n with 0 => "" | S n' => String (m a) (load m (S a) n') end.
Definition text_at (m : memory) (s : slice) : string := load m (sl_start s) (sl_len s).

(** stem.rs:14-20.  A [CompactString] is its text. *)
Inductive stem := Borrowed (s : slice) | Owned (s : string).

(** stem.rs:23-25, 66-70 *)
Definition stem_new : stem := Owned "".
(** stem.rs:27-32, 72-91 *)
Definition as_str (m : memory) (s : stem) : string :=
  match s with Borrowed b => text_at m b | Owned o => o end.
(** stem.rs:34-40 *)
Definition stem_is_empty (m : memory) (s : stem) : bool := String.eqb (as_str m s) "".
Definition stem_len (m : memory) (s : stem) : nat := String.length (as_str m s).
(** stem.rs:42-55 *)
Definition push_str (m : memory) (s : stem) (x : string) : stem :=
  match s with
  | Owned e => Owned (e ++ x)
  | Borrowed b => Owned (text_at m b ++ x)
  end.
(** stem.rs:58-63 *)
Definition stem_into_owned (m : memory) (s : stem) : stem :=
  match s with Borrowed b => Owned (text_at m b) | Owned o => Owned o end.
(** stem.rs:93-97 *)
Definition stem_eqb (m : memory) (x y : stem) : bool := String.eqb (as_str m x) (as_str m y).
(** stem.rs:113-117: what the hasher is given *)
Definition stem_hash {A} (hash_str : string -> A) (m : memory) (s : stem) : A := hash_str (as_str m s).

(** dom.rs:1144-1159 [tendril_to_stem_with_input].  [input] is what was given to
    the parser's sink, [t] the bytes of the tendril. *)
Definition tendril_to_stem (m : memory) (input t : slice) : outcome stem :=
  let t_start := sl_start t in
  let t_end := t_start + sl_len t in
  let input_start := sl_start input in
  let input_end := input_start + sl_len input in
  if Nat.leb input_start t_start && Nat.leb t_end input_end then
    let offset := t_start - input_start in
    let! _ := str_slice (text_at m input) offset (offset + sl_len t) in
    Val (Borrowed (mkSlice (input_start + offset) (sl_len t)))
  else Val (Owned (text_at m t)).

(** ** Patches with stems (diff.rs:94-281) *)

Definition sattr : Type := qname * stem.
Inductive scontent :=
| SCElem (tag : string) (ats : list sattr) (cs : list scontent)
| SCText (s : stem)
| SCComment (s : stem).
Record sprop := mkSP { sp_name : prop_key; sp_value : option stem }.
Inductive spatch :=
| SInsertElement (at_ : path) (tag : string) (ats : list sattr) (cs : list scontent) (slot : option nat)
| SInsertText (at_ : path) (text : stem) (slot : option nat)
| SInsertComment (at_ : path) (text : stem) (slot : option nat)
| SRemove (node : path)
| SSetText (p : path) (text : stem)
| SSetAttribute (p : path) (name : qname) (value : stem)
| SRemoveAttribute (p : path) (name : qname)
| SMove (from to : path) (slot : option nat)
| SUpdateProps (p : path) (changes : list sprop)
| SOpaqueChanged (p : path) (content : stem).

(** What the patches say, given the memory. *)
Definition read_attr (m : memory) (a : sattr) : attr := (fst a, as_str m (snd a)).
Fixpoint read_content (m : memory) (c : scontent) : icontent :=
  match c with
  | SCElem tag ats cs => ICElem tag (map (read_attr m) ats) (map (read_content m) cs)
  | SCText s => ICText (as_str m s)
  | SCComment s => ICComment (as_str m s)
  end.
Definition read_prop (m : memory) (c : sprop) : prop_change := mkPC (sp_name c) (option_map (as_str m) (sp_value c)).
Definition read_patch (m : memory) (p : spatch) : patch :=
  match p with
  | SInsertElement at_ tag ats cs slot => PInsertElement at_ tag (map (read_attr m) ats) (map (read_content m) cs) slot
  | SInsertText at_ s slot => PInsertText at_ (as_str m s) slot
  | SInsertComment at_ s slot => PInsertComment at_ (as_str m s) slot
  | SRemove p => PRemove p
  | SSetText p s => PSetText p (as_str m s)
  | SSetAttribute p q s => PSetAttribute p q (as_str m s)
  | SRemoveAttribute p q => PRemoveAttribute p q
  | SMove f t slot => PMove f t slot
  | SUpdateProps p ch => PUpdateProps p (map (read_prop m) ch)
  | SOpaqueChanged p s => POpaqueChanged p (as_str m s)
  end.

(** diff.rs:1917-1922 *)
Definition attr_into_owned (m : memory) (a : sattr) : sattr := (fst a, stem_into_owned m (snd a)).
(** diff.rs:1927-1941 *)
Fixpoint content_into_owned (m : memory) (c : scontent) : scontent :=
  match c with
  | SCElem tag ats cs => SCElem tag (map (attr_into_owned m) ats) (map (content_into_owned m) cs)
  | SCText s => SCText (stem_into_owned m s)
  | SCComment s => SCComment (stem_into_owned m s)
  end.
(** diff.rs:1946-1951 *)
Definition prop_into_owned (m : memory) (c : sprop) : sprop := mkSP (sp_name c) (option_map (stem_into_owned m) (sp_value c)).
(** diff.rs:1956-2019 *)
Definition patch_into_owned (m : memory) (p : spatch) : spatch :=
  match p with
  | SInsertElement at_ tag ats cs slot =>
      SInsertElement at_ tag (map (attr_into_owned m) ats) (map (content_into_owned m) cs) slot
  | SInsertText at_ s slot => SInsertText at_ (stem_into_owned m s) slot
  | SInsertComment at_ s slot => SInsertComment at_ (stem_into_owned m s) slot
  | SRemove p => SRemove p
  | SSetText p s => SSetText p (stem_into_owned m s)
  | SSetAttribute p q s => SSetAttribute p q (stem_into_owned m s)
  | SRemoveAttribute p q => SRemoveAttribute p q
  | SMove f t slot => SMove f t slot
  | SUpdateProps p ch => SUpdateProps p (map (prop_into_owned m) ch)
  | SOpaqueChanged p s => SOpaqueChanged p (stem_into_owned m s)
  end.
