(** Model of hotmeal/src/dom.rs: documents, serialization, patch application;
    and of the patch vocabulary of hotmeal/src/diff.rs:94-281. *)
From Verif Require Import Base Arena.
Open Scope string_scope.

(** ** Node data (dom.rs:955-991) *)

Inductive nkind :=
| NDocument
| NElem (tag : string) (ats : attrs)
| NText (s : string)
| NComment (s : string).

Record dnode := mkD { d_kind : nkind; d_ns : nspace }.

(** dom.rs:35-49 [Document]; the list of parse errors is not modelled. *)
Record document := mkDoc {
  doc_arena : arena dnode;
  doc_root : nat;
  doc_doctype : option string
}.

(** An HTML tree as a mathematical value; used for the content of patches,
    for the parser oracle and in specifications. *)
Inductive htree :=
| HElem (tag : string) (ns : nspace) (ats : attrs) (cs : list htree)
| HText (s : string)
| HComment (s : string).

(** ** Patches (diff.rs:94-281) *)

Inductive prop_key := PText | PAttr (q : qname).
Record prop_change := mkPC { pc_name : prop_key; pc_value : option string }.
Definition path := list nat.

(** diff.rs:186-199 [InsertContent] *)
Inductive icontent :=
| ICElem (tag : string) (ats : attrs) (cs : list icontent)
| ICText (s : string)
| ICComment (s : string).

Inductive patch :=
| PInsertElement (at_ : path) (tag : string) (ats : attrs) (cs : list icontent)
                 (slot : option nat)
| PInsertText (at_ : path) (text : string) (slot : option nat)
| PInsertComment (at_ : path) (text : string) (slot : option nat)
| PRemove (node : path)
| PSetText (p : path) (text : string)
| PSetAttribute (p : path) (name : qname) (value : string)
| PRemoveAttribute (p : path) (name : qname)
| PMove (from to : path) (slot : option nat)
| PUpdateProps (p : path) (changes : list prop_change)
| POpaqueChanged (p : path) (content : string).

(** ** Attribute vectors *)

(** [attrs.iter().find(|(k, _)| k == q).map(|(_, v)| v)] *)
Fixpoint attr_get (q : qname) (l : attrs) : option string :=
  match l with
  | [] => None
  | (k, v) :: l' => if qname_eqb k q then Some v else attr_get q l'
  end.

(** dom.rs:269-279 / 575-581: overwrite the first attribute of that name, or
    push at the end. *)
Fixpoint attr_set (q : qname) (v : string) (l : attrs) : attrs :=
  match l with
  | [] => [(q, v)]
  | (k, w) :: l' => if qname_eqb k q then (k, v) :: l' else (k, w) :: attr_set q v l'
  end.

(** dom.rs:284 / 590: [retain(|(k, _)| k != name)]. *)
Definition attr_remove (q : qname) (l : attrs) : attrs :=
  List.filter (fun kv => negb (qname_eqb (fst kv) q)) l.

(** dom.rs:649-668: rebuild the attribute vector from the changes. *)
Definition rebuild_attrs (old : attrs) (changes : list prop_change) : attrs :=
  flat_map (fun c =>
    match pc_name c with
    | PText => []
    | PAttr q =>
        [(q, match pc_value c with
             | Some v => v
             | None => match attr_get q old with Some v => v | None => "" end
             end)]
    end) changes.

(** ** Document accessors *)

Definition node_kind (a : arena dnode) (i : nat) : option nkind :=
  match data a i with Some d => Some (d_kind d) | None => None end.

Definition has_tag (a : arena dnode) (t : string) (i : nat) : bool :=
  match node_kind a i with
  | Some (NElem t' _) => String.eqb t' t
  | _ => false
  end.

(** dom.rs:178-186 [body]; dom.rs:189-197 [head]. *)
Definition body_in (a : arena dnode) (root : nat) : option nat :=
  find (has_tag a "body") (children a root).
Definition body (d : document) : option nat := body_in (doc_arena d) (doc_root d).
Definition head (d : document) : option nat :=
  find (has_tag (doc_arena d) "head") (children (doc_arena d) (doc_root d)).

Definition elem (t : string) (l : attrs) (n : nspace) : dnode := mkD (NElem t l) n.
Definition text_node (s : string) : dnode := mkD (NText s) NsHtml.
Definition comment_node (s : string) : dnode := mkD (NComment s) NsHtml.

(** ** Serialization (dom.rs:370-409, 822-953) *)

(** dom.rs:925-943 *)
Definition is_void_element (t : string) : bool :=
  existsb (String.eqb t)
    ["area"; "base"; "br"; "col"; "embed"; "hr"; "img"; "input"; "link"; "meta";
     "param"; "source"; "track"; "wbr"].

(** dom.rs:951-953 *)
Definition is_raw_text_element (t : string) : bool :=
  existsb (String.eqb t) ["script"; "style"; "noscript"].

Definition esc_text_char (c : ascii) : string :=
  if Ascii.eqb c "&" then "&amp;"
  else if Ascii.eqb c "<" then "&lt;"
  else String c "".

Definition quote_char : ascii := Ascii.ascii_of_nat 34.
Definition quote : string := String quote_char "".

Definition esc_attr_char (c : ascii) : string :=
  if Ascii.eqb c "&" then "&amp;"
  else if Ascii.eqb c quote_char then "&quot;"
  else if Ascii.eqb c "<" then "&lt;"
  else if Ascii.eqb c ">" then "&gt;"
  else String c "".

Fixpoint str_flat_map (f : ascii -> string) (s : string) : string :=
  match s with
  | EmptyString => ""
  | String c s' => f c ++ str_flat_map f s'
  end.

(** dom.rs:833-839 *)
Definition escape_text : string -> string := str_flat_map esc_text_char.
(** dom.rs:867-875 *)
Definition escape_attr : string -> string := str_flat_map esc_attr_char.

(** dom.rs:858-876 *)
Definition ser_attr (kv : attr) : string :=
  let '(q, v) := kv in
  " " ++ match q_prefix q with Some p => p ++ ":" | None => "" end
      ++ q_local q ++ "=" ++ quote ++ escape_attr v ++ quote.

Definition ser_attrs (l : attrs) : string := String.concat "" (map ser_attr l).

(** dom.rs:822-847 [serialize_node], 849-901 [serialize_element],
    904-921 [serialize_node_raw]: one function, [raw] telling which of the two
    node serializers is called.  [None]: out of fuel. *)
Fixpoint ser_f (fuel : nat) (a : arena dnode) (raw : bool) (i : nat) : option string :=
  match fuel with
  | 0 => None
  | S f =>
      match node_kind a i with
      | None => Some ""
      | Some NDocument => Some ""
      | Some (NText s) => Some (if raw then s else escape_text s)
      | Some (NComment s) => Some ("<!--" ++ s ++ "-->")
      | Some (NElem t ats) =>
          if is_void_element t then Some ("<" ++ t ++ ser_attrs ats ++ ">")
          else
            match
              (fix go (l : list nat) : option string :=
                 match l with
                 | [] => Some ""
                 | c :: l' =>
                     match ser_f f a (is_raw_text_element t) c, go l' with
                     | Some x, Some y => Some (x ++ y)
                     | _, _ => None
                     end
                 end) (children a i)
            with
            | Some inner => Some ("<" ++ t ++ ser_attrs ats ++ ">" ++ inner ++ "</" ++ t ++ ">")
            | None => None
            end
      end
  end.

Fixpoint ser_list (fuel : nat) (a : arena dnode) (l : list nat) : option string :=
  match l with
  | [] => Some ""
  | c :: l' => match ser_f fuel a false c, ser_list fuel a l' with
               | Some x, Some y => Some (x ++ y)
               | _, _ => None
               end
  end.

Definition serialize_node (a : arena dnode) (i : nat) : option string :=
  ser_f (tree_fuel a) a false i.

(** dom.rs:403-409 *)
Definition serialize_inner_html (a : arena dnode) (i : nat) : option string :=
  ser_list (tree_fuel a) a (children a i).

(** dom.rs:391-400 *)
Definition to_body_html (d : document) : option string :=
  match body d with
  | None => Some ""
  | Some b => serialize_inner_html (doc_arena d) b
  end.

(** dom.rs:383-387, 370-379 *)
Definition to_html_without_doctype (d : document) : option string :=
  serialize_node (doc_arena d) (doc_root d).
Definition to_html (d : document) : option string :=
  match to_html_without_doctype d with
  | None => None
  | Some s => Some (match doc_doctype d with
                    | Some t => "<!DOCTYPE " ++ t ++ ">"
                    | None => ""
                    end ++ s)
  end.

Close Scope string_scope.

(** ** Patch application *)

(** [HashMap<u32, NodeId>] *)
Definition slots := list (nat * nat).
Fixpoint slot_get (s : slots) (k : nat) : option nat :=
  match s with
  | [] => None
  | (k', v) :: s' => if Nat.eqb k' k then Some v else slot_get s' k
  end.
Definition slot_set (s : slots) (k v : nat) : slots := (k, v) :: s.

(** dom.rs:413-436 [navigate_slot_path] *)
Fixpoint navigate (a : arena dnode) (cur : nat) (p : path) : outcome nat :=
  match p with
  | [] => Val cur
  | idx :: p' => match children a cur !! idx with
                 | Some c => navigate a c p'
                 | None => Fail (PathOutOfBounds idx)
                 end
  end.
Definition navigate_slot_path (a : arena dnode) (sl : slots) (p : path) : outcome nat :=
  match p with
  | [] => Fail EmptyPath
  | slot :: rel => match slot_get sl slot with
                   | Some r => navigate a r rel
                   | None => Fail (SlotNotFound slot)
                   end
  end.

(** dom.rs:440-454 [get_slot_parent] *)
Definition get_slot_parent (a : arena dnode) (sl : slots) (p : path) : outcome (nat * nat) :=
  if Nat.ltb (length p) 2 then Fail EmptyPath
  else
    let! n := navigate_slot_path a sl (removelast p) in
    Val (n, List.last p 0).

(** dom.rs:761-768 and diff.rs:1403-1411 / 1498-1506: append [n] copies of a
    placeholder. *)
Fixpoint fill_gaps {D} (n : nat) (d : D) (a : arena D) (p : nat) : outcome (arena D) :=
  match n with
  | 0 => Val a
  | S n' => let '(a1, i) := new_node a d in
            let! a2 := append a1 p i in
            fill_gaps n' d a2 p
  end.

(** dom.rs:742-780 [insert_at_position] *)
Definition insert_at_position (a : arena dnode) (p pos n : nat) : outcome (arena dnode) :=
  let! a1 := fill_gaps (pos - length (children a p)) (text_node "") a p in
  match children a1 p !! pos with
  | None => append a1 p n
  | Some next => insert_before a1 next n
  end.

(** The mutable state of [apply_patch]: arena and slot map.  On [Err] the
    document keeps the mutations made so far, hence the pair. *)
Definition pstate := (arena dnode * slots)%type.
Definition presult := (pstate * outcome unit)%type.

Definition plift (st : pstate) (o : outcome (arena dnode)) : presult :=
  match o with
  | Val a => ((a, snd st), Val tt)
  | Fail e => (st, Fail e)
  | Panic => (st, Panic)
  | Diverge => (st, Diverge)
  end.

(** dom.rs:702-740 [insert_at] *)
Definition insert_at (a : arena dnode) (sl : slots) (at_ : path) (n : nat)
    (slot : option nat) : presult :=
  match get_slot_parent a sl at_ with
  | Val (p, pos) =>
      let '(a1, sl1) :=
        match slot with
        | None => (a, sl)
        | Some k => match children a p !! pos with
                    | Some displaced => (detach a displaced, slot_set sl k displaced)
                    | None => (a, sl)
                    end
        end in
      plift (a1, sl1) (insert_at_position a1 p pos n)
  | Fail e => ((a, sl), Fail e)
  | Panic => ((a, sl), Panic)
  | Diverge => ((a, sl), Diverge)
  end.

(** dom.rs:782-820 [create_insert_content] (patch content) *)
Fixpoint create_content (a : arena dnode) (c : icontent) : outcome (arena dnode * nat) :=
  match c with
  | ICText s => Val (new_node a (text_node s))
  | ICComment s => Val (new_node a (comment_node s))
  | ICElem t ats cs =>
      let '(a1, n) := new_node a (elem t ats NsHtml) in
      let! a2 :=
        (fix go (a : arena dnode) (l : list icontent) : outcome (arena dnode) :=
           match l with
           | [] => Val a
           | c :: l' =>
               let! (a', i) := create_content a c in
               let! a'' := append a' n i in
               go a'' l'
           end) a1 cs in
      Val (a2, n)
  end.

Fixpoint create_contents (a : arena dnode) (n : nat) (l : list icontent)
  : outcome (arena dnode) :=
  match l with
  | [] => Val a
  | c :: l' =>
      let! (a', i) := create_content a c in
      let! a'' := append a' n i in
      create_contents a'' n l'
  end.

(** dom.rs:327-359 [clone_subtree_from]; the source subtree is given as a
    value. *)
Fixpoint clone_tree (a : arena dnode) (t : htree) : outcome (arena dnode * nat) :=
  match t with
  | HText s => Val (new_node a (mkD (NText s) NsHtml))
  | HComment s => Val (new_node a (mkD (NComment s) NsHtml))
  | HElem t ns ats cs =>
      let '(a1, n) := new_node a (mkD (NElem t ats) ns) in
      let! a2 :=
        (fix go (a : arena dnode) (l : list htree) : outcome (arena dnode) :=
           match l with
           | [] => Val a
           | c :: l' =>
               let! (a', i) := clone_tree a c in
               let! a'' := append a' n i in
               go a'' l'
           end) a1 cs in
      Val (a2, n)
  end.

Fixpoint clone_under (a : arena dnode) (n : nat) (l : list htree) : outcome (arena dnode) :=
  match l with
  | [] => Val a
  | c :: l' =>
      let! (a', i) := clone_tree a c in
      let! a'' := append a' n i in
      clone_under a'' n l'
  end.

Definition detach_all (a : arena dnode) (l : list nat) : arena dnode :=
  fold_left detach l a.

Definition set_kind (a : arena dnode) (i : nat) (k : nkind) : arena dnode :=
  match data a i with
  | Some d => set_data a i (mkD k (d_ns d))
  | None => a
  end.

Definition with_node (st : pstate) (p : path) (f : nat -> presult) : presult :=
  match navigate_slot_path (fst st) (snd st) p with
  | Val n => f n
  | Fail e => (st, Fail e)
  | Panic => (st, Panic)
  | Diverge => (st, Diverge)
  end.

(** Replace a node by an empty text node (dom.rs:554-559, 608-613). *)
Definition replace_by_empty (a : arena dnode) (n : nat) : outcome (arena dnode) :=
  let '(a1, e) := new_node a (text_node "") in
  let! a2 := insert_before a1 n e in
  Val (detach a2 n).

Section Apply.
  (** html5ever is not modelled: [parse_inner s] stands for the children of
      the [div] found by parsing [<html><body><div>s</div></body></html>]
      (dom.rs:683-694). *)
  Variable parse_inner : string -> list htree.

  (** dom.rs:493-700 [apply_patch] *)
  Definition apply_patch (st : pstate) (p : patch) : presult :=
    let '(a, sl) := st in
    match p with
    | PInsertElement at_ tag ats cs slot =>
        let '(a1, n) := new_node a (elem tag ats NsHtml) in
        match create_contents a1 n cs with
        | Val a2 => insert_at a2 sl at_ n slot
        | Fail e => ((a1, sl), Fail e)
        | Panic => ((a1, sl), Panic)
        | Diverge => ((a1, sl), Diverge)
        end
    | PInsertText at_ s slot =>
        let '(a1, n) := new_node a (text_node s) in insert_at a1 sl at_ n slot
    | PInsertComment at_ s slot =>
        let '(a1, n) := new_node a (comment_node s) in insert_at a1 sl at_ n slot
    | PRemove q => with_node st q (fun n => plift st (replace_by_empty a n))
    | PSetText q s =>
        with_node st q (fun n =>
          match node_kind a n with
          | Some (NText _) => ((set_kind a n (NText s), sl), Val tt)
          | Some (NComment _) => ((set_kind a n (NComment s), sl), Val tt)
          | _ => (st, Fail NotATextNode)
          end)
    | PSetAttribute q name v =>
        with_node st q (fun n =>
          match node_kind a n with
          | Some (NElem t l) => ((set_kind a n (NElem t (attr_set name v l)), sl), Val tt)
          | _ => (st, Fail NotAnElement)
          end)
    | PRemoveAttribute q name =>
        with_node st q (fun n =>
          match node_kind a n with
          | Some (NElem t l) => ((set_kind a n (NElem t (attr_remove name l)), sl), Val tt)
          | _ => (st, Fail NotAnElement)
          end)
    | PMove from to slot =>
        with_node st from (fun n =>
          let moved := if Nat.ltb 1 (length from) then replace_by_empty a n
                       else Val (detach a n) in
          match moved with
          | Val a1 => insert_at a1 sl to n slot
          | Fail e => (st, Fail e)
          | Panic => (st, Panic)
          | Diverge => (st, Diverge)
          end)
    | PUpdateProps q changes =>
        with_node st q (fun n =>
          let text_change :=
            find (fun c => match pc_name c with PText => true | PAttr _ => false end) changes in
          match node_kind a n with
          | Some (NText _) =>
              match text_change with
              | Some c => match pc_value c with
                          | Some v => ((set_kind a n (NText v), sl), Val tt)
                          | None => (st, Val tt)
                          end
              | None => (st, Val tt)
              end
          | Some (NComment _) =>
              match text_change with
              | Some c => match pc_value c with
                          | Some v => ((set_kind a n (NComment v), sl), Val tt)
                          | None => (st, Val tt)
                          end
              | None => (st, Val tt)
              end
          | Some (NElem t l) =>
              ((set_kind a n (NElem t (rebuild_attrs l changes)), sl), Val tt)
          | _ => (st, Val tt)
          end)
    | POpaqueChanged q content =>
        with_node st q (fun n =>
          let a1 := detach_all a (children a n) in
          plift (a1, sl) (clone_under a1 n (parse_inner content)))
    end.

  (** dom.rs:468-470: the loop, stopping at the first error. *)
  Fixpoint apply_all (st : pstate) (ps : list patch) : presult :=
    match ps with
    | [] => (st, Val tt)
    | p :: ps' =>
        match apply_patch st p with
        | (st', Val tt) => apply_all st' ps'
        | r => r
        end
    end.

  (** dom.rs:201-217 [ensure_body] *)
  Definition ensure_body (d : document) : outcome (document * nat) :=
    match body d with
    | Some b => Val (d, b)
    | None =>
        let '(a1, b) := new_node (doc_arena d) (elem "body" [] NsHtml) in
        let! a2 := append a1 (doc_root d) b in
        Val (mkDoc a2 (doc_root d) (doc_doctype d), b)
    end.

  (** dom.rs:476-481 [init_patch_slots] *)
  Definition init_patch_slots (d : document) : outcome (document * slots) :=
    let! (d', b) := ensure_body d in Val (d', [(0, b)]).

  (** dom.rs:457-473 [apply_patches]; the document as left behind and the
      result. *)
  Definition apply_patches (d : document) (ps : list patch) : document * outcome unit :=
    match ps with
    | [] => (d, Val tt)
    | _ =>
        match init_patch_slots d with
        | Val (d', sl) =>
            let '((a, _), r) := apply_all (doc_arena d', sl) ps in
            (mkDoc a (doc_root d') (doc_doctype d'), r)
        | Fail e => (d, Fail e)
        | Panic => (d, Panic)
        | Diverge => (d, Diverge)
        end
    end.
End Apply.
