(** Model of the browser client, hotmeal-wasm/src/lib.rs: applying patches to the
    DOM of a browser through web-sys.

    The browser's DOM is an external component; what the code uses of it is
    modelled after the DOM standard, on the same arena of nodes as the native
    document:
    - an element stores its attributes under their qualified names; the model
      keeps them as attributes without prefix and namespace;
    - [createElement], [setAttribute] and [removeAttribute] turn names to ASCII
      lower case (the first always, the others on elements in the HTML namespace)
      and the first two throw on invalid names;
    - [replaceChild] and [appendChild] throw when the node contains the parent.
    Not modelled: the separate content of [template] elements, custom elements,
    event listeners (they run on [OpaqueChanged]) and mutation observers.

    JavaScript errors are values of [JsValue]; the model maps them to the errors
    of Base.v. *)
From Verif Require Import Base Arena Dom.
Local Open Scope string_scope.

(** ASCII lower case. *)
Definition lower_char (c : ascii) : ascii :=
  let n := Ascii.nat_of_ascii c in
  if Nat.leb 65 n && Nat.leb n 90 then Ascii.ascii_of_nat (n + 32) else c.
Fixpoint lower (s : string) : string :=
  match s with
  | EmptyString => EmptyString
  | String c s' => String (lower_char c) (lower s')
  end.

(** lib.rs:402-405, 411-414, 730-733, 752-755, 794-797: the name given to the
    DOM, empty prefixes dropped. *)
Definition bname (q : qname) : string :=
  match q_prefix q with
  | Some p => if String.eqb p "" then q_local q else p ++ ":" ++ q_local q
  | None => q_local q
  end.
(** lib.rs:586-590 (UpdateProps): empty prefixes are not dropped. *)
Definition bname_up (q : qname) : string :=
  match q_prefix q with
  | Some p => p ++ ":" ++ q_local q
  | None => q_local q
  end.

(** The attribute of that name in a browser. *)
Definition flat (n : string) : qname := mkQ None "" n.
(** The attributes of a parsed element as a browser stores them. *)
Definition battrs (l : attrs) : attrs := map (fun kv => (flat (bname (fst kv)), snd kv)) l.

(** [removeAttribute] takes the first attribute of that name away. *)
Fixpoint attr_drop (q : qname) (l : attrs) : attrs :=
  match l with
  | [] => []
  | (k, v) :: l' => if qname_eqb k q then l' else (k, v) :: attr_drop q l'
  end.

Definition in_case (ns : nspace) (s : string) : string :=
  match ns with NsHtml => lower s | _ => s end.

(** lib.rs:91-98 [Slots::take] *)
Definition slot_take (sl : slots) (k : nat) : slots :=
  List.filter (fun e => negb (Nat.eqb (fst e) k)) sl.

Section Browser.
  (** Which names [createElement] and [setAttribute] accept. *)
  Variables valid_elem valid_attr : string -> bool.
  (** The browser's HTML parser: the nodes of [template.content] after
      [template.innerHTML = s]. *)
  Variable parse_template : string -> list htree.

  (** [Element.setAttribute] on the attributes of an element; [None]: throws. *)
  Definition b_set_attr (ns : nspace) (l : attrs) (n v : string) : option attrs :=
    if valid_attr n then Some (attr_set (flat (in_case ns n)) v l) else None.
  (** [Element.removeAttribute] *)
  Definition b_remove_attr (ns : nspace) (l : attrs) (n : string) : attrs :=
    attr_drop (flat (in_case ns n)) l.

  (** lib.rs:721-738 [create_element_with_attrs] *)
  Fixpoint b_set_attrs (ns : nspace) (l : attrs) (new : attrs) : option attrs :=
    match new with
    | [] => Some l
    | (q, v) :: new' =>
        match b_set_attr ns l (bname q) v with
        | Some l' => b_set_attrs ns l' new'
        | None => None
        end
    end.
  Definition b_create_element (tag : string) (ats : attrs) : option dnode :=
    if valid_elem tag then
      match b_set_attrs NsHtml [] ats with
      | Some l => Some (mkD (NElem (lower tag) l) NsHtml)
      | None => None
      end
    else None.

  (** lib.rs:784-823 [serialize_insert_content]; lib.rs:749-770 builds the same
      string for the element itself. *)
  Definition b_ser_attr (kv : attr) : string :=
    " " ++ bname (fst kv) ++ "=" ++ quote ++ escape_attr (snd kv) ++ quote.
  Fixpoint b_ser_content (c : icontent) : string :=
    match c with
    | ICElem tag ats cs =>
        "<" ++ tag ++ String.concat "" (map b_ser_attr ats) ++ ">"
        ++ String.concat "" (map b_ser_content cs) ++ "</" ++ tag ++ ">"
    | ICText s => escape_text s
    | ICComment s => "<!--" ++ s ++ "-->"
    end.

  (** lib.rs:739-781 [create_element_via_html] *)
  Definition b_via_html (a : arena dnode) (tag : string) (ats : attrs) (cs : list icontent)
    : outcome (arena dnode * nat) :=
    match parse_template (b_ser_content (ICElem tag ats cs)) with
    | t :: _ => clone_tree a t
    | [] => Fail DomException
    end.

  (** [parent.appendChild(node)] *)
  Definition dom_append (a : arena dnode) (p n : nat) : outcome (arena dnode) :=
    match append a p n with Panic => Fail DomException | r => r end.

  (** lib.rs:825-845 [create_insert_content].  Nodes made before an error are
      left out of the arena: nothing refers to them. *)
  Fixpoint b_create (a : arena dnode) (c : icontent) : outcome (arena dnode * nat) :=
    match c with
    | ICText s => Val (new_node a (text_node s))
    | ICComment s => Val (new_node a (comment_node s))
    | ICElem tag ats cs =>
        match b_create_element tag ats with
        | Some d =>
            let '(a1, n) := new_node a d in
            let! a2 :=
              (fix go (a : arena dnode) (l : list icontent) : outcome (arena dnode) :=
                 match l with
                 | [] => Val a
                 | c :: l' =>
                     let! (a', i) := b_create a c in
                     let! a'' := dom_append a' n i in
                     go a'' l'
                 end) a1 cs in
            Val (a2, n)
        | None => b_via_html a tag ats cs
        end
    end.

  (** [parent.replaceChild(node, existing)], where [existing] is a child of
      [parent]. *)
  Definition replace_child (a : arena dnode) (p n existing : nat) : outcome (arena dnode) :=
    if Nat.eqb n p then Fail DomException
    else match is_ancestor a n p with
         | None => Diverge
         | Some true => Fail DomException
         | Some false =>
             if Nat.eqb n existing then Val a
             else let! a1 := insert_before a existing n in Val (detach a1 existing)
         end.

  (** lib.rs:671-719 [insert_at_position] *)
  Definition b_insert_at_position (a : arena dnode) (sl : slots) (p n pos : nat)
      (slot : option nat) : presult :=
    match children a p !! pos with
    | Some existing =>
        match replace_child a p n existing with
        | Val a' => ((a', match slot with Some k => slot_set sl k existing | None => sl end), Val tt)
        | r => plift (a, sl) r
        end
    | None =>
        match fill_gaps (pos - length (children a p)) (text_node "") a p with
        | Val a1 => plift (a1, sl) (dom_append a1 p n)
        | r => plift (a, sl) r
        end
    end.

  (** [Node.textContent = s] *)
  Definition set_text_content (a : arena dnode) (n : nat) (s : string) : outcome (arena dnode) :=
    match node_kind a n with
    | Some (NText _) => Val (set_kind a n (NText s))
    | Some (NComment _) => Val (set_kind a n (NComment s))
    | Some (NElem _ _) =>
        let a1 := detach_all a (children a n) in
        if String.eqb s "" then Val a1
        else let '(a2, i) := new_node a1 (text_node s) in dom_append a2 n i
    | _ => Val a
    end.

  (** lib.rs:566-600, the part on attributes.  [existing] is a map from names to
      values, with the last value of a name; its keys are removed, then the
      changes are set in order.  On an exception the element keeps the
      attributes set so far. *)
  Fixpoint last_value (n : string) (l : attrs) : option string :=
    match l with
    | [] => None
    | (k, v) :: l' =>
        match last_value n l' with
        | Some w => Some w
        | None => if String.eqb (q_local k) n then Some v else None
        end
    end.
  Definition b_clear (ns : nspace) (l : attrs) : attrs :=
    fold_left (b_remove_attr ns) (nodup string_dec (map (fun kv => q_local (fst kv)) l)) l.
  Fixpoint b_set_changes (ns : nspace) (existing l : attrs) (changes : list prop_change) : attrs * bool :=
    match changes with
    | [] => (l, true)
    | c :: cs =>
        match pc_name c with
        | PText => b_set_changes ns existing l cs
        | PAttr q =>
            let v := match pc_value c with
                     | Some v => v
                     | None => match last_value (bname_up q) existing with Some v => v | None => "" end
                     end in
            match b_set_attr ns l (bname_up q) v with
            | Some l' => b_set_changes ns existing l' cs
            | None => (l, false)
            end
        end
    end.

  Section Root.
    (** The element patches are applied to: [document.body] or a mount point. *)
    Variable root : nat.

    (** lib.rs:375-385 [get_slot_root] *)
    Definition get_slot_root (sl : slots) (k : nat) : outcome nat :=
      if Nat.eqb k 0 then Val root
      else match slot_get sl k with Some n => Val n | None => Fail (SlotNotFound k) end.

    (** lib.rs:847-898 [find_node], [navigate_within_node] *)
    Definition find_node (a : arena dnode) (sl : slots) (p : path) : outcome nat :=
      match p with
      | [] => Fail EmptyPath
      | k :: rel => let! r := get_slot_root sl k in navigate a r rel
      end.

    Definition with_found (st : pstate) (p : path) (f : nat -> presult) : presult :=
      match find_node (fst st) (snd st) p with
      | Val n => f n
      | Fail e => (st, Fail e)
      | Panic => (st, Panic)
      | Diverge => (st, Diverge)
      end.

    (** Put an empty text in the place of a node, if it has a parent
        (lib.rs:424-427, 435-438, 618-621). *)
    Definition vacate (a : arena dnode) (n : nat) : outcome (arena dnode) :=
      match parent a n with
      | Some _ => replace_by_empty a n
      | None => Val a
      end.

    (** lib.rs:441-564: the three kinds of insertion.  [make] creates the node,
        after the parent was found. *)
    Definition b_insert (st : pstate) (at_ : path) (slot : option nat)
        (make : arena dnode -> outcome (arena dnode * nat)) : presult :=
      if Nat.ltb (length at_) 2 then (st, Fail EmptyPath)
      else
        with_found st (removelast at_) (fun p =>
          match node_kind (fst st) p with
          | Some (NElem _ _) =>
              match make (fst st) with
              | Val (a1, n) => b_insert_at_position a1 (snd st) p n (List.last at_ 0) slot
              | Fail e => (st, Fail e)
              | Panic => (st, Panic)
              | Diverge => (st, Diverge)
              end
          | _ => (st, Fail NotAnElement)
          end).

    (** lib.rs:387-669 [apply_patch] *)
    Definition b_apply_patch (st : pstate) (p : patch) : presult :=
      let '(a, sl) := st in
      match p with
      | PSetText q s => with_found st q (fun n => plift st (set_text_content a n s))
      | PSetAttribute q name v =>
          with_found st q (fun n =>
            match data a n with
            | Some (mkD (NElem t l) ns) =>
                match b_set_attr ns l (bname name) v with
                | Some l' => ((set_kind a n (NElem t l'), sl), Val tt)
                | None => (st, Fail DomException)
                end
            | _ => (st, Fail NotAnElement)
            end)
      | PRemoveAttribute q name =>
          with_found st q (fun n =>
            match data a n with
            | Some (mkD (NElem t l) ns) =>
                ((set_kind a n (NElem t (b_remove_attr ns l (bname name))), sl), Val tt)
            | _ => (st, Fail NotAnElement)
            end)
      | PRemove q =>
          match q with
          | [] => (st, Panic)
          | k :: rel =>
              if negb (Nat.eqb k 0) && Nat.eqb (length rel) 0 then ((a, slot_take sl k), Val tt)
              else with_found st q (fun n => plift st (vacate a n))
          end
      | PInsertElement at_ tag ats cs slot =>
          b_insert st at_ slot (fun a => b_create a (ICElem tag ats cs))
      | PInsertText at_ s slot => b_insert st at_ slot (fun a => Val (new_node a (text_node s)))
      | PInsertComment at_ s slot => b_insert st at_ slot (fun a => Val (new_node a (comment_node s)))
      | PUpdateProps q changes =>
          with_found st q (fun n =>
            let texted :=
              match find (fun c => match pc_name c with PText => true | PAttr _ => false end) changes with
              | Some c => match pc_value c with
                          | Some v => set_text_content a n v
                          | None => Val a
                          end
              | None => Val a
              end in
            match texted with
            | Val a1 =>
                match data a1 n with
                | Some (mkD (NElem t l) ns) =>
                    let '(l', ok) := b_set_changes ns l (b_clear ns l) changes in
                    ((set_kind a1 n (NElem t l'), sl), if ok then Val tt else Fail DomException)
                | _ => ((a1, sl), Val tt)
                end
            | r => plift st r
            end)
      | PMove from to slot =>
          let taken :=
            match from with
            | [k] => match slot_get sl k with
                     | Some n => Val (a, slot_take sl k, n)
                     | None => Fail (SlotNotFound k)
                     end
            | _ => let! n := find_node a sl from in let! a1 := vacate a n in Val (a1, sl, n)
            end in
          match taken with
          | Val (a1, sl1, n) =>
              let st1 := (a1, sl1) in
              if Nat.ltb (length to) 2 then (st1, Fail EmptyPath)
              else
                with_found st1 (removelast to) (fun p =>
                  match node_kind a1 p with
                  | Some (NElem _ _) => b_insert_at_position a1 sl1 p n (List.last to 0) slot
                  | _ => (st1, Fail NotAnElement)
                  end)
          | Fail e => (st, Fail e)
          | Panic => (st, Panic)
          | Diverge => (st, Diverge)
          end
      | POpaqueChanged q _ =>
          with_found st q (fun n =>
            match node_kind a n with
            | Some (NElem _ _) => (st, Val tt)
            | _ => (st, Fail NotAnElement)
            end)
      end.

    (** lib.rs:346-373 [apply_patches_with_slots_on_root] *)
    Fixpoint b_apply_all (st : pstate) (ps : list patch) : presult :=
      match ps with
      | [] => (st, Val tt)
      | p :: ps' =>
          match b_apply_patch st p with
          | (st', Val tt) => b_apply_all st' ps'
          | r => r
          end
      end.
  End Root.

  (** lib.rs:126-141 [apply_patches]: on [document.body], with fresh slots. *)
  Definition browser_apply (d : document) (ps : list patch) : document * outcome unit :=
    match body d with
    | None => (d, Fail NoBody)
    | Some b =>
        let '((a, _), r) := b_apply_all b (doc_arena d, []) ps in
        (mkDoc a (doc_root d) (doc_doctype d), r)
    end.
End Browser.
