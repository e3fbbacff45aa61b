(** Model of hotmeal/src/diff.rs: HTML properties, the two diffable trees, the
    shadow tree, the conversion of edit operations to patches, and [diff]. *)
From Verif Require Import Base Arena Matching Chawathe Dom.

(** ** [HtmlProps] (diff.rs:406-496) *)

Fixpoint qdedup (l : list qname) : list qname :=
  match l with
  | [] => []
  | q :: l' => if existsb (qname_eqb q) l' then qdedup l' else q :: qdedup l'
  end.

Definition keys (l : attrs) : list qname := map fst l.

(** diff.rs:420-438 [similarity], as numerator and denominator.  [HashSet]s
    are duplicate-free lists. *)
Definition props_sim (x y : attrs) : ratio :=
  match x, y with
  | [], [] => (1, 1)
  | _, _ =>
      let kx := qdedup (keys x) in
      let ky := qdedup (keys y) in
      (2 * length (List.filter (fun q => existsb (qname_eqb q) ky) kx),
       length kx + length ky)
  end.

Fixpoint qlist_eqb (x y : list qname) : bool :=
  match x, y with
  | [], [] => true
  | a :: x', b :: y' => qname_eqb a b && qlist_eqb x' y'
  | _, _ => false
  end.

(** diff.rs:447-462: do the common keys come in a different order? *)
Definition order_differs (x y : attrs) : bool :=
  negb (qlist_eqb (List.filter (fun q => existsb (qname_eqb q) (keys y)) (keys x))
                  (List.filter (fun q => existsb (qname_eqb q) (keys x)) (keys y))).

(** diff.rs:464-487: the loop over the attributes of the new side; [forced]
    is [forced_one].  [PropValue::Same] is [None], [Different v] is [Some v]. *)
Fixpoint props_diff_loop (x : attrs) (od forced : bool) (y : attrs) : list prop_change :=
  match y with
  | [] => []
  | (k, v) :: y' =>
      let same := match attr_get k x with Some w => String.eqb w v | None => false end in
      let force := od && same && negb forced in
      mkPC (PAttr k) (if same && negb force then None else Some v)
      :: props_diff_loop x od (forced || force) y'
  end.

(** diff.rs:440-487 [diff] *)
Definition props_diff (x y : attrs) : list prop_change :=
  props_diff_loop x (order_differs x y) false y.

Definition props_empty (x : attrs) : bool := match x with [] => true | _ => false end.
Definition any_different (c : list prop_change) : bool :=
  existsb (fun p => match pc_value p with Some _ => true | None => false end) c.

(** ** Trees to diff *)

(** cinereus/src/tree.rs:21-38 [NodeData] without the cached hash; the hash is
    computed by [hash_f] below. *)
Record tdata := mkTD { td_kind : hkind; td_props : attrs; td_text : option string }.

(** diff.rs:542-566, 876-913: kind, properties and text of a DOM node.
    [NodeKind::Document] never occurs below a body; both Rust functions skip
    it, here it gets the data of a text-less comment. *)
Definition tdata_of (d : dnode) : tdata :=
  match d_kind d with
  | NElem t l => mkTD (KElem t (d_ns d)) l None
  | NText s => mkTD KText [] (Some s)
  | NComment s => mkTD KComment [] (Some s)
  | NDocument => mkTD KComment [] None
  end.

Definition opaque_attr : string := "data-hotmeal-opaque".
(** diff.rs:720-728, 815-822 *)
Definition is_opaque_props (l : attrs) : bool :=
  existsb (fun kv => String.eqb (q_local (fst kv)) opaque_attr) l.

Section Hash.
  (** The hash of a node from its kind, text and child hashes (rapidhash is
      not modelled), and [NodeHash::default()]. *)
  Context {H : Type}.
  Variable heqb : H -> H -> bool.
  Variable hcomb : hkind -> option string -> list H -> H.
  Variable h0 : H.

  Section Tree.
    Context {D : Type}.
    Variable td : D -> tdata.

    (** diff.rs:585-627 (second pass of [DiffableDocument::new]) and 923-952
        [recompute_hashes].  Rust fills the hashes in post-order, here each is
        computed by recursion. *)
    Fixpoint hash_f (fuel : nat) (a : arena D) (i : nat) : H :=
      match fuel, data a i with
      | S f, Some d =>
          hcomb (td_kind (td d)) (td_text (td d)) (map (hash_f f a) (children a i))
      | _, _ => h0
      end.

    Definition dkind (a : arena D) (i : nat) : hkind :=
      match data a i with Some d => td_kind (td d) | None => KComment end.
    Definition dprops (a : arena D) (i : nat) : attrs :=
      match data a i with Some d => td_props (td d) | None => [] end.
    Definition dtext (a : arena D) (i : nat) : option string :=
      match data a i with Some d => td_text (td d) | None => None end.

    (** [impl DiffTree] for the wrapper of [Tree] (diff.rs:764-822) and for
        [DiffableDocument] (diff.rs:631-729): the same accessors over the
        respective arena. *)
    Definition mk_dtree (a : arena D) (root : nat)
      : outcome (dtree H hkind attrs string) :=
      let! it := ofuel (descendants a root) in
      let! po := ofuel (post_order a root) in
      Val {| t_root := root;
             t_hash := hash_f (tree_fuel a) a;
             t_kind := dkind a;
             t_props := dprops a;
             t_text := dtext a;
             t_parent := parent a;
             t_children := children a;
             t_position := position a;
             t_height := fun i => match height a i with Some h => h | None => 0 end;
             t_iter := it;
             t_post := po;
             t_desc := fun i => match descendants a i with Some l => l | None => [] end;
             t_opaque := fun i => is_opaque_props (dprops a i) |}.
  End Tree.

  (** diff.rs:865-917 [add_arena_children]: copy the subtree below [src] under
      [p], node ids in pre-order.  [Tree::add_child] (tree.rs:344-348) is
      [new_node] followed by [append]. *)
  Fixpoint add_children (fuel : nat) (doc : arena dnode) (t : arena tdata) (p src : nat)
    : outcome (arena tdata) :=
    match fuel with
    | 0 => Diverge
    | S f =>
        (fix go (l : list nat) (t : arena tdata) : outcome (arena tdata) :=
           match l with
           | [] => Val t
           | c :: l' =>
               match data doc c with
               | None => Panic
               | Some d =>
                   match d_kind d with
                   | NDocument => go l' t
                   | NElem _ _ =>
                       let '(t1, n) := new_node t (tdata_of d) in
                       let! t2 := append t1 p n in
                       let! t3 := add_children f doc t2 n c in
                       go l' t3
                   | _ =>
                       let '(t1, n) := new_node t (tdata_of d) in
                       let! t2 := append t1 p n in
                       go l' t2
                   end
               end
           end) (children doc src) t
    end.

  (** diff.rs:826-863 [build_tree_from_arena] for a document with a body: the
      root gets the body's tag and namespace and NO attributes. *)
  Definition build_tree (doc : arena dnode) (b : nat) : outcome (arena tdata) :=
    match data doc b with
    | None => Panic
    | Some d =>
        add_children (tree_fuel doc) doc
          [mkNode (mkTD (td_kind (tdata_of d)) [] None) None []] 0 b
    end.

  (** ** The shadow tree (diff.rs:1191-1527) *)

  Record shadow := mkSh { sh_arena : arena tdata; sh_super : nat; sh_next : nat }.

  Definition marker : tdata := mkTD KComment [] None.

  (** diff.rs:1201-1233 *)
  Definition shadow_new (t : arena tdata) (root : nat) : outcome shadow :=
    let '(a1, super) := new_node t marker in
    let '(a2, slot0) := new_node a1 marker in
    let! a3 := append a2 super slot0 in
    let! a4 := append (detach a3 root) slot0 root in
    Val (mkSh a4 super 1).

  (** diff.rs:1236-1238 *)
  Definition get_slot (s : shadow) (k : nat) : option nat :=
    children (sh_arena s) (sh_super s) !! k.

  (** diff.rs:1241-1247 *)
  Definition slot0_content (s : shadow) : outcome nat :=
    let! n := oget (get_slot s 0) in
    oget (children (sh_arena s) n !! 0).

  Definition pos_in (a : arena tdata) (p c : nat) : nat :=
    match index_of c (children a p) with Some k => k | None => 0 end.

  (** diff.rs:1257-1287 [compute_path]; [acc] is the part already collected,
      outermost first. *)
  Fixpoint path_loop (fuel : nat) (s : shadow) (cur : nat) (acc : path) : outcome path :=
    match fuel with
    | 0 => Diverge
    | S f =>
        match parent (sh_arena s) cur with
        | None => Val acc
        | Some p =>
            if match parent (sh_arena s) p with
               | Some g => Nat.eqb g (sh_super s)
               | None => false
               end
            then Val (pos_in (sh_arena s) (sh_super s) p :: acc)
            else path_loop f s p (pos_in (sh_arena s) p cur :: acc)
        end
    end.
  Definition compute_path (s : shadow) (n : nat) : outcome path :=
    path_loop (chain_fuel (sh_arena s)) s n [].

  (** diff.rs:1297-1301 *)
  Definition ref_with_position (s : shadow) (p pos : nat) : outcome path :=
    let! q := compute_path s p in Val (q ++ [pos]).

  (** diff.rs:1304-1330 [create_slot], [detach_to_slot] *)
  Definition detach_to_slot (s : shadow) (n : nat) : outcome (shadow * nat) :=
    let k := sh_next s in
    let '(a1, slot) := new_node (sh_arena s) marker in
    let! a2 := append a1 (sh_super s) slot in
    let! slot' := oget (children a2 (sh_super s) !! k) in
    let! a3 := append (detach a2 n) slot' n in
    Val (mkSh a3 (sh_super s) (S k), k).

  Definition sh_with (s : shadow) (a : arena tdata) : shadow :=
    mkSh a (sh_super s) (sh_next s).

  (** diff.rs:1333-1342 *)
  Definition detach_with_placeholder (s : shadow) (n : nat) : outcome shadow :=
    let '(a1, e) := new_node (sh_arena s) (mkTD KText [] None) in
    let! a2 := insert_before a1 n e in
    Val (sh_with s (detach a2 n)).

  (** diff.rs:1345-1354 *)
  Definition sh_is_ancestor (s : shadow) (anc n : nat) : outcome bool :=
    ofuel (is_ancestor (sh_arena s) anc n).

  (** diff.rs:1358-1387 *)
  Definition replace_with_placeholder (s : shadow) (n : nat) : outcome shadow :=
    let '(a1, e) := new_node (sh_arena s) (mkTD KText [] None) in
    let! a2 := insert_before a1 n e in
    let! a3 :=
      (fix go (l : list nat) (a : arena tdata) : outcome (arena tdata) :=
         match l with
         | [] => Val a
         | c :: l' => let! a' := append (detach a c) e c in go l' a'
         end) (children a2 n) a2 in
    Val (sh_with s (detach a3 n)).

  Definition gap : tdata := mkTD KText [] (Some EmptyString).

  (** diff.rs:1391-1424 [insert_at_position] *)
  Definition sh_insert (s : shadow) (p pos n : nat) : outcome (shadow * option nat) :=
    let displace (a : arena tdata) (occ : nat) :=
      let! a1 := insert_before a occ n in
      let! (s1, k) := detach_to_slot (sh_with s a1) occ in
      Val (s1, Some k) in
    match children (sh_arena s) p !! pos with
    | Some occ => displace (sh_arena s) occ
    | None =>
        let! a1 := fill_gaps (pos - length (children (sh_arena s) p)) gap (sh_arena s) p in
        match children a1 p !! pos with
        | Some occ => displace a1 occ
        | None => let! a2 := append a1 p n in Val (sh_with s a2, None)
        end
    end.

  (** diff.rs:1428-1526 [move_to_position] *)
  Definition sh_move (s : shadow) (n p pos : nat) : outcome (shadow * option nat) :=
    let! anc := sh_is_ancestor s n p in
    let! s1 :=
      if anc then replace_with_placeholder s n
      else
        let slot_root :=
          match parent (sh_arena s) n with
          | Some q => match parent (sh_arena s) q with
                      | Some g => Nat.eqb g (sh_super s)
                      | None => false
                      end
          | None => false
          end in
        if slot_root then Val (sh_with s (detach (sh_arena s) n))
        else detach_with_placeholder s n in
    let displace (a : arena tdata) (occ : nat) :=
      if Nat.eqb occ n then Val (sh_with s1 a, None)
      else
        let! a1 := insert_before a occ n in
        let! (s2, k) := detach_to_slot (sh_with s1 a1) occ in
        Val (s2, Some k) in
    match children (sh_arena s1) p !! pos with
    | Some occ => displace (sh_arena s1) occ
    | None =>
        let! a1 := fill_gaps (pos - length (children (sh_arena s1) p)) gap (sh_arena s1) p in
        match children a1 p !! pos with
        | Some occ => displace a1 occ
        | None => let! a2 := append a1 p n in Val (sh_with s1 a2, None)
        end
    end.

  (** ** Conversion of edit operations (diff.rs:1537-1853) *)

  Definition hop := edit_op hkind string (list prop_change).

  (** diff.rs:1856-1909 [extract_content_from_tree_b]: the children part. *)
  Fixpoint extract_children (fuel : nat) (tb : dtree H hkind attrs string)
      (skip : nat -> bool) (b : nat) : outcome (list icontent) :=
    match fuel with
    | 0 => Diverge
    | S f =>
        (fix go (l : list nat) : outcome (list icontent) :=
           match l with
           | [] => Val []
           | c :: l' =>
               if skip c then go l'
               else
                 let! x :=
                   match t_kind tb c with
                   | KElem tag _ =>
                       let! cs := extract_children f tb skip c in
                       Val (ICElem tag (t_props tb c) cs)
                   | KText => Val (ICText match t_text tb c with
                                          | Some s => s | None => EmptyString end)
                   | KComment => Val (ICComment match t_text tb c with
                                                | Some s => s | None => EmptyString end)
                   end in
                 let! xs := go l' in
                 Val (x :: xs)
           end) (t_children tb b)
    end.

  Record cstate := mkCS { cs_shadow : shadow; cs_b2s : slots; cs_out : list patch }.

  Definition emit (s : cstate) (sh : shadow) (p : patch) : cstate :=
    mkCS sh (cs_b2s s) (cs_out s ++ [p]).

  (** [b_to_shadow.get(&b).copied().unwrap_or_else(|| shadow.slot0_content())] *)
  Definition shadow_parent (s : cstate) (b : nat) : outcome nat :=
    match slot_get (cs_b2s s) b with
    | Some n => Val n
    | None => slot0_content (cs_shadow s)
    end.

  (** diff.rs:1757-1787: move the children of an ancestor next to it, last
      child first.  [l] lists (index, child), already reversed. *)
  Fixpoint reparent_loop (l : list (nat * nat)) (par pos : nat) (s : cstate)
    : outcome cstate :=
    match l with
    | [] => Val s
    | (i, c) :: l' =>
        let! from := compute_path (cs_shadow s) c in
        let cp := pos + 1 + i in
        let! sh1 := detach_with_placeholder (cs_shadow s) c in
        let! a2 := match children (sh_arena sh1) par !! cp with
                   | Some sib => insert_before (sh_arena sh1) sib c
                   | None => append (sh_arena sh1) par c
                   end in
        let sh2 := sh_with sh1 a2 in
        let! to := ref_with_position sh2 par cp in
        reparent_loop l' par pos (emit s sh2 (PMove from to None))
    end.

  Definition convert_op (tb : dtree H hkind attrs string) (ins : list nat)
      (s : cstate) (op : hop) : outcome cstate :=
    let sh := cs_shadow s in
    match op with
    | UpdateProperties a _ changes =>
        let! p := compute_path sh a in
        Val (emit s sh (PUpdateProps p changes))
    | Insert b pb pos kind =>
        let! sp := shadow_parent s pb in
        let '(a1, n) := new_node (sh_arena sh) (mkTD kind (t_props tb b) (t_text tb b)) in
        let! (sh1, slot) := sh_insert (sh_with sh a1) sp pos n in
        let b2s := slot_set (cs_b2s s) b n in
        let! at_ := ref_with_position sh1 sp pos in
        let text := match t_text tb b with Some t => t | None => EmptyString end in
        let! p :=
          match kind with
          | KElem tag _ =>
              let! cs := extract_children (S (length (t_iter tb))) tb
                           (fun c => match slot_get b2s c with
                                     | Some _ => true
                                     | None => mem c ins
                                     end) b in
              Val (PInsertElement at_ tag (t_props tb b) cs slot)
          | KText => Val (PInsertText at_ text slot)
          | KComment => Val (PInsertComment at_ text slot)
          end in
        Val (mkCS sh1 b2s (cs_out s ++ [p]))
    | Delete a =>
        let! p := compute_path sh a in
        let! sh1 := detach_with_placeholder sh a in
        Val (emit s sh1 (PRemove p))
    | Move a b pb pos =>
        let! sp := shadow_parent s pb in
        let! anc := sh_is_ancestor sh a sp in
        let! s1 :=
          if anc then
            let! par := oget (parent (sh_arena sh) a) in
            let cs := children (sh_arena sh) a in
            reparent_loop (rev (combine (seq 0 (length cs)) cs)) par
                          (pos_in (sh_arena sh) par a) s
          else Val s in
        let! from := compute_path (cs_shadow s1) a in
        let! (sh2, slot) := sh_move (cs_shadow s1) a sp pos in
        let! to := ref_with_position sh2 sp pos in
        Val (mkCS sh2 (slot_set (cs_b2s s1) b a) (cs_out s1 ++ [PMove from to slot]))
    | SetText a _ t =>
        let! p := compute_path sh a in
        Val (emit s sh (PSetText p t))
    end.

  Fixpoint convert_loop (tb : dtree H hkind attrs string) (ins : list nat)
      (s : cstate) (ops : list hop) : outcome cstate :=
    match ops with
    | [] => Val s
    | op :: ops' => let! s' := convert_op tb ins s op in convert_loop tb ins s' ops'
    end.

  Definition insert_nodes (ops : list hop) : list nat :=
    flat_map (fun op => match op with Insert b _ _ _ => [b] | _ => [] end) ops.

  Definition b2s_of (pairs : list (nat * nat)) : slots :=
    fold_left (fun s p => slot_set s (snd p) (fst p)) pairs [].

  (** diff.rs:1537-1853 [convert_ops_with_shadow] *)
  Definition convert_ops (ops : list hop) (t : arena tdata)
      (tb : dtree H hkind attrs string) (m : matching) : outcome (list patch) :=
    let! sh := shadow_new t 0 in
    let! s := convert_loop tb (insert_nodes ops) (mkCS sh (b2s_of (m_pairs m)) []) ops in
    Val (cs_out s).

  (** ** [diff] (diff.rs:1049-1181) *)

  (** diff.rs:1003-1031 [create_insert_content]; [filter_map] as a
      list-valued function. *)
  Fixpoint insert_content (fuel : nat) (a : arena dnode) (i : nat) : option (list icontent) :=
    match fuel with
    | 0 => None
    | S f =>
        match node_kind a i with
        | Some (NElem t l) =>
            match
              (fix go (cs : list nat) : option (list icontent) :=
                 match cs with
                 | [] => Some []
                 | c :: cs' => match insert_content f a c, go cs' with
                               | Some x, Some y => Some (x ++ y)
                               | _, _ => None
                               end
                 end) (children a i)
            with
            | Some cs => Some [ICElem t l cs]
            | None => None
            end
        | Some (NText s) => Some [ICText s]
        | Some (NComment s) => Some [ICComment s]
        | _ => Some []
        end
    end.

  (** diff.rs:956-1000 [create_insert_patch] *)
  Definition create_insert_patch (a : arena dnode) (i pos : nat) : outcome patch :=
    match node_kind a i with
    | Some (NElem t l) =>
        let! c := ofuel (insert_content (tree_fuel a) a i) in
        match c with
        | [ICElem _ _ cs] => Val (PInsertElement [0; pos] t l cs None)
        | _ => Panic
        end
    | Some (NText s) => Val (PInsertText [0; pos] s None)
    | Some (NComment s) => Val (PInsertComment [0; pos] s None)
    | Some NDocument => Fail NoBody
    | None => Panic
    end.

  Fixpoint insert_all (a : arena dnode) (l : list nat) (pos : nat) : outcome (list patch) :=
    match l with
    | [] => Val []
    | c :: l' =>
        let! p := create_insert_patch a c pos in
        let! ps := insert_all a l' (S pos) in
        Val (p :: ps)
    end.

  (** diff.rs:1126-1149: content of the [OpaqueChanged] patches. *)
  Fixpoint opaque_contents (new : document) (ta tb : dtree H hkind attrs string)
      (pairs : list (nat * nat)) : outcome (list (nat * string)) :=
    match pairs with
    | [] => Val []
    | (x, y) :: l =>
        if negb (t_opaque tb y) then opaque_contents new ta tb l
        else if heqb (t_hash ta x) (t_hash tb y) then opaque_contents new ta tb l
        else
          let! s := ofuel (serialize_inner_html (doc_arena new) y) in
          let! r := opaque_contents new ta tb l in
          Val ((x, s) :: r)
    end.

  Fixpoint opaque_patches (sh : shadow) (l : list (nat * string)) : outcome (list patch) :=
    match l with
    | [] => Val []
    | (x, s) :: l' =>
        let! p := compute_path sh x in
        let! ps := opaque_patches sh l' in
        Val (POpaqueChanged p s :: ps)
    end.

  Definition diff_config : config := mkCfg 1 2 0.

  Definition html_matching (ta tb : dtree H hkind attrs string) : outcome matching :=
    let! m := compute_matching heqb hkind_eqb props_sim diff_config ta tb in
    Val (if hkind_eqb (t_kind ta (t_root ta)) (t_kind tb (t_root tb))
            && negb (contains_a m (t_root ta))
         then m_add m (t_root ta) (t_root tb) else m).

  Definition html_edit_script (ta tb : dtree H hkind attrs string) (m : matching) : list hop :=
    generate_edit_script String.eqb props_empty props_diff any_different
      (@length prop_change) (@length attr) ta tb m.

  Definition diff_bodies (new : document) (old_arena : arena dnode) (ob nb : nat)
    : outcome (list patch) :=
    let! t := build_tree old_arena ob in
    let! ta := mk_dtree (fun d => d) t 0 in
    let! tb := mk_dtree tdata_of (doc_arena new) nb in
    let! m := html_matching ta tb in
    let ops := html_edit_script ta tb m in
    let! oc := opaque_contents new ta tb (m_pairs m) in
    let! ps := convert_ops ops t tb m in
    match oc with
    | [] => Val ps
    | _ =>
        let! sh := shadow_new t 0 in
        let! ops := opaque_patches sh oc in
        Val (ps ++ ops)
    end.

  Definition diff (old new : document) : outcome (list patch) :=
    match body old, body new with
    | None, None => Val []
    | None, Some nb => insert_all (doc_arena new) (children (doc_arena new) nb) 0
    | Some ob, None =>
        Val (map (fun pos => PRemove [0; pos])
                 (rev (seq 0 (length (children (doc_arena old) ob)))))
    | Some ob, Some nb => diff_bodies new (doc_arena old) ob nb
    end.
End Hash.
