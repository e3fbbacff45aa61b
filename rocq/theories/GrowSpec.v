(** Content added to a page and taken away from it, with edits in place elsewhere:
    what the diff should be (C67). *)
From stdpp Require Import list_numbers.
From Verif Require Import Base Arena Matching Chawathe Dom HtmlDiff DomTree BuildProofs RestyleProofs InPlaceSpec.

(** A reading of what happened to the children of an element, from the first to
    the last: [Both pl rest]: the next child is in both lists, with [pl] for its
    own children; [New]: it is only in the new list; [Gone]: only in the old one. *)
Inductive plan :=
| Done
| Both (below rest : plan)
| New (rest : plan)
| Gone (rest : plan).

(** The paths of a pair of nodes in the old and in the new tree, and the trees there. *)
Definition pairing := ((path * path) * (htree * htree))%type.

(** All pairs, place by place, of two trees that differ at most in attributes. *)
Fixpoint mirror (p q : path) (h h' : htree) {struct h} : list pairing :=
  ((p, q), (h, h')) ::
  match h, h' with
  | HElem _ _ _ cs, HElem _ _ _ cs' =>
      (fix go (k : nat) (cs cs' : list htree) : list pairing :=
         match cs, cs' with
         | c :: cs1, c' :: cs1' => mirror (p ++ [k]) (q ++ [k]) c c' ++ go (S k) cs1 cs1'
         | _, _ => []
         end) 0 cs cs'
  | _, _ => []
  end.

(** The pairs that a plan gives: [k] and [k'] are the indices of the next children. *)
Fixpoint pairs_in (pl : plan) (p q : path) (k k' : nat) (cs cs' : list htree) : list pairing :=
  match pl, cs, cs' with
  | Both below rest, c :: cs1, c' :: cs1' =>
      (if same_bare c c' then mirror (p ++ [k]) (q ++ [k']) c c'
       else ((p ++ [k], q ++ [k']), (c, c')) ::
            pairs_in below (p ++ [k]) (q ++ [k']) 0 0 (hchildren c) (hchildren c')) ++
      pairs_in rest p q (S k) (S k') cs1 cs1'
  | New rest, _, _ :: cs1' => pairs_in rest p q k (S k') cs cs1'
  | Gone rest, _ :: cs1, _ => pairs_in rest p q (S k) k' cs1 cs'
  | _, _, _ => []
  end.
Definition pairs_by (pl : plan) (p q : path) (h h' : htree) : list pairing :=
  if same_bare h h' then mirror p q h h'
  else ((p, q), (h, h')) :: pairs_in pl p q 0 0 (hchildren h) (hchildren h').

(** Half of the attribute names are common. *)
Definition alike_namesb (l l' : attrs) : bool :=
  Nat.leb (length l + length l') (4 * length (List.filter (fun q => existsb (qname_eqb q) (keys l')) (keys l))).
Definition similar (h h' : htree) : bool :=
  same_label h h' && match h, h' with HElem _ _ l _, HElem _ _ l' _ => alike_namesb l l' | _, _ => true end.

(** The plan accounts for all children.  A child that is in both lists is the same
    but for attributes, or it is similar and has kept its index. *)
Fixpoint fits_in (pl : plan) (k k' : nat) (cs cs' : list htree) : bool :=
  match pl, cs, cs' with
  | Done, [], [] => true
  | Both below rest, c :: cs1, c' :: cs1' =>
      (same_bare c c' || Nat.eqb k k' && similar c c' && fits_in below 0 0 (hchildren c) (hchildren c')) &&
      fits_in rest (S k) (S k') cs1 cs1'
  | New rest, _, _ :: cs1' => fits_in rest k (S k') cs cs1'
  | Gone rest, _ :: cs1, _ => fits_in rest (S k) k' cs1 cs'
  | _, _, _ => false
  end.

(** The trees that are only in the new page, and only in the old one. *)
Fixpoint added_in (pl : plan) (cs cs' : list htree) : list htree :=
  match pl, cs, cs' with
  | Both below rest, c :: cs1, c' :: cs1' =>
      (if same_bare c c' then [] else added_in below (hchildren c) (hchildren c')) ++ added_in rest cs1 cs1'
  | New rest, _, c' :: cs1' => c' :: added_in rest cs cs1'
  | Gone rest, _ :: cs1, _ => added_in rest cs1 cs'
  | _, _, _ => []
  end.
Fixpoint removed_in (pl : plan) (cs cs' : list htree) : list htree :=
  match pl, cs, cs' with
  | Both below rest, c :: cs1, c' :: cs1' =>
      (if same_bare c c' then [] else removed_in below (hchildren c) (hchildren c')) ++ removed_in rest cs1 cs1'
  | New rest, _, _ :: cs1' => removed_in rest cs cs1'
  | Gone rest, c :: cs1, _ => c :: removed_in rest cs1 cs'
  | _, _, _ => []
  end.
Definition added (pl : plan) (h h' : htree) : list htree :=
  if same_bare h h' then [] else added_in pl (hchildren h) (hchildren h').
Definition removed (pl : plan) (h h' : htree) : list htree :=
  if same_bare h h' then [] else removed_in pl (hchildren h) (hchildren h').

(** All nodes of a tree, with what is below them. *)
Fixpoint nodes (h : htree) : list htree :=
  h :: match h with HElem _ _ _ cs => flat_map nodes cs | _ => [] end.

(** No node that is gone has the tag (or is a text, or a comment) like a new one. *)
Definition apart (pl : plan) (h h' : htree) : bool :=
  forallb (fun u => forallb (fun v => negb (same_label u v)) (flat_map nodes (added pl h h')))
    (flat_map nodes (removed pl h h')).

Definition path_eqb (p q : path) : bool := if decide (p = q) then true else false.

(** The old node at [p], the new node at [q] have an equal counterpart. *)
Definition kept_old (l : list pairing) (p : path) : bool :=
  existsb (fun e => let '((p', _), (u, v)) := e in path_eqb p p' && same_bare u v) l.
Definition kept_new (l : list pairing) (q : path) : bool :=
  existsb (fun e => let '((_, q'), (u, v)) := e in path_eqb q q' && same_bare u v) l.

(** Two equal trees facing one another are a pair, or both have equal counterparts elsewhere. *)
Definition no_twins_by (pl : plan) (h h' : htree) : bool :=
  let l := pairs_by pl [] [] h h' in
  forallb (fun e => let '((p, q), (u, v)) := e in
             if existsb (fun e' => let '((p', q'), _) := e' in path_eqb p p' && path_eqb q q') l then true
             else if same_bare u v then kept_old l p && kept_new l q else true)
    (facing h h').

(** At least half of the nodes have equal counterparts. *)
Definition half_same (pl : plan) (h h' : htree) : bool :=
  Nat.leb (hsize h + hsize h')
    (4 * length (List.filter (fun e : pairing => same_bare (fst (snd e)) (snd (snd e))) (pairs_by pl [] [] h h'))).

(** [pl] reads the change from [h] to [h'] without ambiguity. *)
Definition clear_change (pl : plan) (h h' : htree) : bool :=
  fits_in pl 0 0 (hchildren h) (hchildren h') && apart pl h h' && no_twins_by pl h h' && half_same pl h h'.

(** A pair whose index among its siblings has changed. *)
Definition shifted (e : pairing) : bool :=
  let '((p, q), _) := e in negb (Nat.eqb (List.last p 0) (List.last q 0)).

(** A pair with another text or other attributes. *)
Definition rewritten (e : pairing) : bool :=
  let '(_, (h, h')) := e in
  match h, h' with
  | HText s, HText s' => negb (String.eqb s s')
  | HComment s, HComment s' => negb (String.eqb s s')
  | HElem _ _ l _, HElem _ _ l' _ => if attrs_eq_dec l l' then false else true
  | _, _ => false
  end.

(** The kinds of patches. *)
Definition an_insert (p : patch) : bool :=
  match p with PInsertElement _ _ _ _ _ | PInsertText _ _ _ | PInsertComment _ _ _ => true | _ => false end.
Definition a_remove (p : patch) : bool := match p with PRemove _ => true | _ => false end.
Definition a_move (p : patch) : bool := match p with PMove _ _ _ => true | _ => false end.
Definition a_rewrite (p : patch) : bool := match p with PSetText _ _ | PUpdateProps _ _ => true | _ => false end.

(** A body without attributes. *)
Definition page (ts : list htree) : htree := HElem "body" NsHtml [] ts.

(** One insertion for each node that is new, one removal for each node that is
    gone, one move for each pair whose index has changed, and one further patch
    for each pair with another text or other attributes. *)
Definition patches_count (pl : plan) (h h' : htree) (ps : list patch) : Prop :=
  length (List.filter an_insert ps) = list_sum (map hsize (added pl h h')) /\
  length (List.filter a_remove ps) = list_sum (map hsize (removed pl h h')) /\
  length (List.filter a_move ps) = length (List.filter shifted (pairs_by pl [] [] h h')) /\
  length (List.filter a_rewrite ps) = length (List.filter rewritten (pairs_by pl [] [] h h')) /\
  length ps = length (List.filter an_insert ps) + length (List.filter a_remove ps) +
              length (List.filter a_move ps) + length (List.filter a_rewrite ps).
