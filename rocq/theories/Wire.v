(** The binary format in which patches and events travel from the server to the
    browser: [facet_postcard::to_vec] / [from_slice] (hotmeal-server/src/lib.rs:
    73-81, 155-156; hotmeal-wasm/src/lib.rs:143-180) on the types of
    hotmeal/src/diff.rs:26-281 and hotmeal-server/src/lib.rs:58-69.

    facet-postcard is an external crate; this file follows the postcard wire
    format: unsigned integers as varints (7 bits per byte, least significant
    first, high bit set except in the last byte), strings and sequences with
    their length in front, [Option] as a byte 0 or 1, enum variants as the
    varint of their position, structs field by field.  Newtypes marked
    [transparent] ([NodePath], [NodeRef], [LocalNameProxy]) and the two-variant
    string [Stem] ([cow]) are written as what they contain.

    Bytes are characters.  Numbers are [nat] in the model of patches; their Rust
    types are [u32], so a decoder rejects larger ones. *)
From stdpp Require Import list_numbers.
From Coq Require Import NArith Ascii.
From Verif Require Import Base Arena Dom Server.
Local Open Scope string_scope.

(** ** Numbers, strings, sequences *)

Fixpoint enc_varint (fuel : nat) (n : N) : string :=
  match fuel with
  | 0 => ""
  | S f => if N.ltb n 128 then String (ascii_of_N n) ""
           else String (ascii_of_N (n mod 128 + 128)) (enc_varint f (n / 128))
  end.
(** At most [fuel] bytes. *)
Fixpoint dec_varint (fuel : nat) (s : string) : option (N * string) :=
  match fuel, s with
  | S f, String c s' =>
      let b := N_of_ascii c in
      if N.ltb b 128 then Some (b, s')
      else match dec_varint f s' with
           | Some (m, r) => Some ((b - 128 + 128 * m)%N, r)
           | None => None
           end
  | _, _ => None
  end.

Definition parser (A : Type) := string -> option (A * string).
Definition pret {A} (x : A) : parser A := fun s => Some (x, s).
Definition pbind {A B} (p : parser A) (k : A -> parser B) : parser B :=
  fun s => match p s with Some (x, r) => k x r | None => None end.
Notation "'get' x <- p ; k" := (pbind p (fun x => k)) (at level 200, x name, p at level 100, k at level 200).
Definition pmap {A B} (f : A -> B) (p : parser A) : parser B := get x <- p; pret (f x).
Definition pnone {A} : parser A := fun _ => None.

(** [u32]: five bytes, [usize] (lengths): ten bytes. *)
Definition enc_u32 (n : nat) : string := enc_varint 5 (N.of_nat n).
Definition dec_u32 : parser nat :=
  get n <- dec_varint 5; if N.ltb n (2 ^ 32) then pret (N.to_nat n) else pnone.
Definition enc_len (n : nat) : string := enc_varint 10 (N.of_nat n).
Definition dec_len : parser N :=
  get n <- dec_varint 10; if N.ltb n (2 ^ 64) then pret n else pnone.

Fixpoint take_bytes (n : N) (s : string) : option (string * string) :=
  if N.eqb n 0 then Some ("", s)
  else match s with
       | EmptyString => None
       | String c s' => match take_bytes (n - 1) s' with
                        | Some (a, r) => Some (String c a, r)
                        | None => None
                        end
       end.
Definition enc_str (s : string) : string := enc_len (String.length s) ++ s.
Definition dec_str : parser string := get n <- dec_len; take_bytes n.

Fixpoint cat (l : list string) : string := match l with [] => "" | s :: l' => s ++ cat l' end.
Definition enc_list {A} (e : A -> string) (l : list A) : string := enc_len (length l) ++ cat (map e l).
(** [fuel] bounds the number of elements; each takes at least one byte. *)
Fixpoint dec_n {A} (d : parser A) (fuel : nat) (n : N) : parser (list A) :=
  if N.eqb n 0 then pret []
  else match fuel with
       | 0 => pnone
       | S f => get x <- d; get l <- dec_n d f (n - 1); pret (x :: l)
       end.
Definition dec_list {A} (d : parser A) : parser (list A) :=
  get n <- dec_len; fun s => dec_n d (String.length s) n s.

Definition enc_opt {A} (e : A -> string) (o : option A) : string :=
  match o with None => String (ascii_of_N 0) "" | Some x => String (ascii_of_N 1) (e x) end.
Definition dec_opt {A} (d : parser A) : parser (option A) := fun s =>
  match s with
  | EmptyString => None
  | String c s' => if N.eqb (N_of_ascii c) 0 then Some (None, s')
                   else if N.eqb (N_of_ascii c) 1 then pmap Some d s' else None
  end.

(** Variant number. *)
Definition enc_tag (n : nat) : string := enc_u32 n.

(** ** Patches *)

(** diff.rs:60-77 [From<&QualName> for QualNameProxy]: an empty prefix is
    written as none; 47-57: an empty prefix is read as none. *)
Definition no_empty (o : option string) : option string :=
  match o with Some "" => None | _ => o end.
Definition enc_qname (q : qname) : string :=
  enc_opt enc_str (no_empty (q_prefix q)) ++ enc_str (q_ns q) ++ enc_str (q_local q).
Definition dec_qname : parser qname :=
  get p <- dec_opt dec_str; get n <- dec_str; get l <- dec_str; pret (mkQ (no_empty p) n l).

(** diff.rs:80-85 [AttrPair] *)
Definition enc_attr (a : attr) : string := enc_qname (fst a) ++ enc_str (snd a).
Definition dec_attr : parser attr := get q <- dec_qname; get v <- dec_str; pret (q, v).
Definition enc_attrs (l : attrs) : string := enc_list enc_attr l.
Definition dec_attrs : parser attrs := dec_list dec_attr.

(** diff.rs:100-107 [PropKey], 203-211 [PropChange] *)
Definition enc_key (k : prop_key) : string :=
  match k with PText => enc_tag 0 | PAttr q => enc_tag 1 ++ enc_qname q end.
Definition dec_key : parser prop_key :=
  get t <- dec_u32; match t with 0 => pret PText | 1 => pmap PAttr dec_qname | _ => pnone end.
Definition enc_change (c : prop_change) : string := enc_key (pc_name c) ++ enc_opt enc_str (pc_value c).
Definition dec_change : parser prop_change := get k <- dec_key; get v <- dec_opt dec_str; pret (mkPC k v).

(** diff.rs:158 [NodePath], 182 [NodeRef] *)
Definition enc_path (p : path) : string := enc_list enc_u32 p.
Definition dec_path : parser path := dec_list dec_u32.

(** diff.rs:186-199 [InsertContent] *)
Fixpoint enc_content (c : icontent) : string :=
  match c with
  | ICElem tag ats cs => enc_tag 0 ++ enc_str tag ++ enc_attrs ats ++ enc_len (length cs) ++ cat (map enc_content cs)
  | ICText s => enc_tag 1 ++ enc_str s
  | ICComment s => enc_tag 2 ++ enc_str s
  end.
Fixpoint dec_content (fuel : nat) : parser icontent :=
  match fuel with
  | 0 => pnone
  | S f =>
      get t <- dec_u32;
      match t with
      | 0 => get tag <- dec_str; get ats <- dec_attrs; get cs <- dec_list (dec_content f); pret (ICElem tag ats cs)
      | 1 => pmap ICText dec_str
      | 2 => pmap ICComment dec_str
      | _ => pnone
      end
  end.
(** Contents nest at most as deep as there are bytes. *)
Definition dec_contents : parser (list icontent) := fun s => dec_list (dec_content (String.length s)) s.

(** diff.rs:214-281 [Patch] *)
Definition enc_patch (p : patch) : string :=
  match p with
  | PInsertElement at_ tag ats cs slot =>
      enc_tag 0 ++ enc_path at_ ++ enc_str tag ++ enc_attrs ats ++ enc_list enc_content cs ++ enc_opt enc_u32 slot
  | PInsertText at_ text slot => enc_tag 1 ++ enc_path at_ ++ enc_str text ++ enc_opt enc_u32 slot
  | PInsertComment at_ text slot => enc_tag 2 ++ enc_path at_ ++ enc_str text ++ enc_opt enc_u32 slot
  | PRemove node => enc_tag 3 ++ enc_path node
  | PSetText p text => enc_tag 4 ++ enc_path p ++ enc_str text
  | PSetAttribute p name value => enc_tag 5 ++ enc_path p ++ enc_qname name ++ enc_str value
  | PRemoveAttribute p name => enc_tag 6 ++ enc_path p ++ enc_qname name
  | PMove from to slot => enc_tag 7 ++ enc_path from ++ enc_path to ++ enc_opt enc_u32 slot
  | PUpdateProps p changes => enc_tag 8 ++ enc_path p ++ enc_list enc_change changes
  | POpaqueChanged p content => enc_tag 9 ++ enc_path p ++ enc_str content
  end.
Definition dec_patch : parser patch :=
  get t <- dec_u32;
  match t with
  | 0 => get a <- dec_path; get tag <- dec_str; get ats <- dec_attrs; get cs <- dec_contents;
         get sl <- dec_opt dec_u32; pret (PInsertElement a tag ats cs sl)
  | 1 => get a <- dec_path; get s <- dec_str; get sl <- dec_opt dec_u32; pret (PInsertText a s sl)
  | 2 => get a <- dec_path; get s <- dec_str; get sl <- dec_opt dec_u32; pret (PInsertComment a s sl)
  | 3 => get a <- dec_path; pret (PRemove a)
  | 4 => get a <- dec_path; get s <- dec_str; pret (PSetText a s)
  | 5 => get a <- dec_path; get q <- dec_qname; get v <- dec_str; pret (PSetAttribute a q v)
  | 6 => get a <- dec_path; get q <- dec_qname; pret (PRemoveAttribute a q)
  | 7 => get a <- dec_path; get b <- dec_path; get sl <- dec_opt dec_u32; pret (PMove a b sl)
  | 8 => get a <- dec_path; get l <- dec_list dec_change; pret (PUpdateProps a l)
  | 9 => get a <- dec_path; get s <- dec_str; pret (POpaqueChanged a s)
  | _ => pnone
  end.

(** [facet_postcard::to_vec(&owned_patches)], hotmeal-server/src/lib.rs:155 *)
Definition to_blob (ps : list patch) : string := enc_list enc_patch ps.
(** [facet_postcard::from_slice(patches_blob)], hotmeal-wasm/src/lib.rs:146, 178.
    Bytes after the value are ignored. *)
Definition from_blob (blob : string) : option (list patch) :=
  match dec_list dec_patch blob with Some (ps, _) => Some ps | None => None end.

(** ** Events, hotmeal-server/src/lib.rs:58-82 *)

(** [LiveReloadEvent] as it is sent: the patches are already bytes. *)
Inductive wire_event := WReload | WPatches (route blob : string) | WHeadChanged (route : string).
Definition to_wire (e : event) : wire_event :=
  match e with
  | EvReload => WReload
  | EvPatches r ps => WPatches r (to_blob ps)
  | EvHeadChanged r => WHeadChanged r
  end.
Definition to_postcard (e : wire_event) : string :=
  match e with
  | WReload => enc_tag 0
  | WPatches r b => enc_tag 1 ++ enc_str r ++ enc_str b
  | WHeadChanged r => enc_tag 2 ++ enc_str r
  end.
Definition from_postcard (s : string) : option wire_event :=
  match (get t <- dec_u32;
         match t with
         | 0 => pret WReload
         | 1 => get r <- dec_str; get b <- dec_str; pret (WPatches r b)
         | 2 => pmap WHeadChanged dec_str
         | _ => pnone
         end) s with
  | Some (e, _) => Some e
  | None => None
  end.
