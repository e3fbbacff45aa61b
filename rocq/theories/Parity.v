(** When the native applier (dom.rs:493-700) and the browser's
    (hotmeal-wasm/src/lib.rs:387-669) are meant to do the same: what a patch must
    meet in the state it is applied in.  No model of code; the statements of
    PropParity.v are about these patches. *)
From Verif Require Import Base Arena Matching Chawathe Dom HtmlDiff Browser Fuzz.
Local Open Scope string_scope.

Fixpoint distinctb (l : list string) : bool :=
  match l with
  | [] => true
  | x :: l' => negb (existsb (String.eqb x) l') && distinctb l'
  end.

Section Parity.
  (** Which names [createElement] and [setAttribute] accept. *)
  Variables valid_elem valid_attr : string -> bool.

  (** ** Names a browser takes and keeps as they are *)

  Definition ok_attrb (q : qname) : bool :=
    valid_attr (bname q) && String.eqb (lower (bname q)) (bname q) &&
    match q_prefix q with Some p => negb (String.eqb p "") | None => true end.
  Definition ok_namesb (l : list qname) : bool := forallb ok_attrb l && distinctb (map bname l).
  Definition ok_elemb (tag : string) (ats : attrs) : bool :=
    valid_elem tag && String.eqb (lower tag) tag && ok_namesb (keys ats).
  Fixpoint ok_contentb (c : icontent) : bool :=
    match c with
    | ICElem tag ats cs => ok_elemb tag ats && forallb ok_contentb cs
    | _ => true
    end.

  (** ** Attributes *)

  (** A name that no other attribute of the element has in a browser. *)
  Definition ok_key (l : attrs) (q : qname) : bool :=
    ok_attrb q && distinctb (map bname (keys (attr_set q "" l))).
  Definition change_names (ch : list prop_change) : list qname :=
    flat_map (fun c => match pc_name c with PAttr q => [q] | PText => [] end) ch.
  Definition ok_changes (l : attrs) (ch : list prop_change) : bool :=
    ok_namesb (keys l) && ok_namesb (change_names ch) &&
    forallb (fun c => match pc_name c with
                      | PText => false
                      | PAttr q => match pc_value c, attr_get q l with None, None => false | _, _ => true end
                      end) ch.

  (** ** Patches on which both do the same *)

  (** Without a slot the native insertion shifts what is at the place and the
      browser's replaces it (F13): nothing may be there. *)
  Definition slot_fine (a : arena dnode) (p pos : nat) (slot : option nat) : bool :=
    match slot with
    | Some k => negb (Nat.eqb k 0)
    | None => Nat.leb (length (children a p)) pos
    end.
  Definition place_fine (a : arena dnode) (sl : slots) (at_ : path) (slot : option nat) : bool :=
    match get_slot_parent a sl at_ with
    | Val (p, pos) => slot_fine a p pos slot
    | _ => true
    end.
  Definition found (a : arena dnode) (sl : slots) (q : path) (f : nkind -> bool) : bool :=
    match navigate_slot_path a sl q with
    | Val n => match node_kind a n with Some k => f k | None => true end
    | _ => true
    end.
  Definition fitb (a : arena dnode) (sl : slots) (p : patch) : bool :=
    match p with
    | PInsertElement at_ tag ats cs slot => ok_contentb (ICElem tag ats cs) && place_fine a sl at_ slot
    | PInsertText at_ _ slot | PInsertComment at_ _ slot => place_fine a sl at_ slot
    | PRemove q =>
        match q with
        | [k] => Nat.eqb k 0 ||
                 match slot_get sl k with
                 | Some n => match parent a n with None => Nat.ltb n (length a) | Some _ => false end
                 | None => false
                 end
        | _ => true
        end
    | PSetText q _ => found a sl q (fun k => match k with NText _ | NComment _ => true | _ => false end)
    | PSetAttribute q name _ | PRemoveAttribute q name =>
        found a sl q (fun k => match k with NElem _ l => ok_key l name | _ => true end)
    | PUpdateProps q ch => found a sl q (fun k => match k with NElem _ l => ok_changes l ch | _ => true end)
    | PMove from to slot =>
        match navigate_slot_path a sl from with
        | Val n =>
            match (if Nat.ltb 1 (length from) then replace_by_empty a n else Val (detach a n)) with
            | Val a1 => place_fine a1 sl to slot
            | _ => true
            end
        | _ => true
        end
    | POpaqueChanged _ _ => false
    end.

  (** Every patch suits the document that the native applier has made by then. *)
  Variable parse_inner : string -> list htree.
  Fixpoint suits (st : pstate) (ps : list patch) : bool :=
    match ps with
    | [] => true
    | p :: ps' =>
        fitb (fst st) (snd st) p &&
        match apply_patch parse_inner st p with
        | (st', Val tt) => suits st' ps'
        | _ => true
        end
    end.
End Parity.

(** The tree below a node of a native document, as [DomNode] (Fuzz.v), with all
    attributes. *)
Definition dom_view (a : arena dnode) (i : nat) : option domnode :=
  dom_node_f (fun _ l => sort_attrs (map (fun kv => (bname (fst kv), snd kv)) l)) (tree_fuel a) a i.
