(** How the Rust code fills the tables that Matching.v reads: the loops over the nodes
    in post-order, the lazily filled caches, and what the hasher is fed.  HtmlDiff.v
    computes hashes, heights, positions and descendants by recursion instead; PropHash.v
    shows that the tables agree with it. *)
From Coq Require Import NArith Ascii.
From Verif Require Import Base Arena Matching Dom HtmlDiff.

(** ** What the hasher is fed *)

(** The calls a [Hasher] receives.  [WDisc]: the discriminant of an enum
    ([derive(Hash)]); [WStr]: [str::hash]; [WHash]: [u64::hash] of a child's hash. *)
Inductive write (H : Type) := WDisc (n : nat) | WU32 (n : N) | WStr (s : string) | WHash (h : H).
Arguments WDisc {H}. Arguments WU32 {H}. Arguments WStr {H}. Arguments WHash {H}.

Section Writes.
  Context {H : Type}.
  (** [impl Hash for LocalName] writes one [u32] that depends on the name. *)
  Variable atom : string -> N.

  (** dom.rs:986-991 [derive(Hash)] *)
  Definition ns_disc (n : nspace) : nat :=
    match n with NsHtml => 0 | NsSvg => 1 | NsMathMl => 2 end.
  (** diff.rs:380-389 [derive(Hash)] *)
  Definition kind_writes (k : hkind) : list (write H) :=
    match k with
    | KElem t ns => [WDisc 0; WU32 (atom t); WDisc (ns_disc ns)]
    | KText => [WDisc 1]
    | KComment => [WDisc 2]
    end.
  (** diff.rs:605-615 and 928-942: kind, text if there is one, hashes of the children *)
  Definition node_writes (k : hkind) (t : option string) (hs : list H) : list (write H) :=
    kind_writes k ++ match t with Some s => [WStr s] | None => [] end ++ map WHash hs.
End Writes.

(** string_cache 0.9 (the crate behind [LocalName]; its source is not in the
    repository): names of at most 7 bytes are kept in the atom itself, the lowest
    byte being [16 * length + 1], and are hashed as [((data >> 32) ^ data) as u32].
    Other names (and those known at compile time) have some other [u32]. *)
Fixpoint le_bytes (l : list N) : N :=
  match l with [] => 0 | b :: l' => (b + 256 * le_bytes l')%N end.
Definition bytes_of (s : string) : list N := map N_of_ascii (list_ascii_of_string s).
Definition inline_data (s : string) : N :=
  le_bytes ((16 * N.of_nat (String.length s) + 1)%N :: bytes_of s).
Definition inline_hash (s : string) : N :=
  (N.lxor (N.shiftr (inline_data s) 32) (inline_data s) mod 2 ^ 32)%N.
Definition atom_hash (known : string -> bool) (other : string -> N) (s : string) : N :=
  if negb (known s) && Nat.leb (String.length s) 7 then inline_hash s else other s.

(** ** The loops *)

Definition upd {A} (f : nat -> A) (i : nat) (x : A) : nat -> A := fun j => if Nat.eqb i j then x else f j.

Section Loops.
  Context {H : Type}.
  Variable hcomb : hkind -> option string -> list H -> H.
  Variable h0 : H.

  (** diff.rs:507-518 [DiffNodeData], without the cached position (below) *)
  Record dnd := mkDND { dd_hash : H; dd_kind : hkind; dd_props : attrs; dd_text : option string; dd_height : nat }.
  (** diff.rs:533-534 [nodes: HashMap<NodeId, DiffNodeData>] *)
  Definition dmap := nat -> option dnd.

  (** diff.rs:545-583, first pass; [doc.get] panics on a freed id, which does not occur
      among descendants *)
  Definition first_pass (a : arena dnode) (nodes : dmap) (i : nat) : dmap :=
    match data a i with
    | Some (mkD (NElem t l) ns) => upd nodes i (Some (mkDND h0 (KElem t ns) l None 0))
    | Some (mkD (NText s) _) => upd nodes i (Some (mkDND h0 KText [] (Some s) 0))
    | Some (mkD (NComment s) _) => upd nodes i (Some (mkDND h0 KComment [] (Some s) 0))
    | Some (mkD NDocument _) | None => nodes
    end.
  (** [filter_map(|c| nodes.get(c))] *)
  Definition found (nodes : dmap) (l : list nat) : list dnd :=
    flat_map (fun c => match nodes c with Some d => [d] | None => [] end) l.
  (** diff.rs:588-627, second pass *)
  Definition second_pass (a : arena dnode) (nodes : dmap) (i : nat) : dmap :=
    let cs := children a i in
    let h := match cs with [] => 0 | _ => 1 + fold_right Nat.max 0 (map dd_height (found nodes cs)) end in
    match nodes i with
    | Some d => upd nodes i (Some (mkDND (hcomb (dd_kind d) (dd_text d) (map dd_hash (found nodes cs)))
                                         (dd_kind d) (dd_props d) (dd_text d) h))
    | None => nodes
    end.
  (** diff.rs:539-635 [DiffableDocument::new] *)
  Definition diffable_new (doc : document) : outcome (nat * dmap) :=
    match body doc with
    | None => Fail NoBody
    | Some b =>
        let a := doc_arena doc in
        let! it := ofuel (descendants a b) in
        let! po := ofuel (post_order a b) in
        Val (b, fold_left (second_pass a) po (fold_left (first_pass a) it (fun _ => None)))
    end.
  (** diff.rs:647-681, 711-713 *)
  Definition d_hash (nodes : dmap) (i : nat) : H := match nodes i with Some d => dd_hash d | None => h0 end.
  Definition d_height (nodes : dmap) (i : nat) : nat := match nodes i with Some d => dd_height d | None => 0 end.

  (** diff.rs:923-952 [recompute_hashes] on the tree of the old body; the hash field of
      the nodes is kept in the table [tab], at first [NodeHash(0)] everywhere. *)
  Definition rehash (t : arena tdata) (tab : nat -> H) (i : nat) : nat -> H :=
    match data t i with
    | Some d => upd tab i (hcomb (td_kind d) (td_text d) (map tab (children t i)))
    | None => tab
    end.
  Definition recompute_hashes (t : arena tdata) (root : nat) : outcome (nat -> H) :=
    let! po := ofuel (post_order t root) in
    Val (fold_left (rehash t) po (fun _ => h0)).
End Loops.
Arguments dnd : clear implicits.
Arguments dmap : clear implicits.

(** ** Lazily filled caches *)

(** matching.rs:316-326 [LazyDescendantMap::get_or_compute], and the cache of
    [position] in diff.rs:688-709: look up, else compute and store. *)
Definition get_or_compute {A} (f : nat -> A) (cache : nat -> option A) (i : nat) : A * (nat -> option A) :=
  match cache i with
  | Some x => (x, cache)
  | None => (f i, upd cache i (Some (f i)))
  end.
Fixpoint queries {A} (f : nat -> A) (cache : nat -> option A) (l : list nat) : list A :=
  match l with
  | [] => []
  | i :: l' => let '(x, cache') := get_or_compute f cache i in x :: queries f cache' l'
  end.
