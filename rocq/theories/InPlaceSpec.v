(** Edits in place: what the diff of two trees of one shape should be (C63). *)
From stdpp Require Import list_numbers.
From Verif Require Import Base Arena Matching Chawathe Dom HtmlDiff DomTree BuildProofs RestyleProofs.

Definition hopaque (h : htree) : bool :=
  match h with HElem _ _ l _ => is_opaque_props l | _ => false end.

(** The tree without attributes. *)
Fixpoint bare (h : htree) : htree :=
  match h with
  | HElem tag ns _ cs => HElem tag ns [] (map bare cs)
  | _ => h
  end.

Definition htree_eq_dec : forall h h' : htree, {h = h'} + {h <> h'}.
Proof.
  fix F 1. intros [tag ns l cs|s|s] [tag' ns' l' cs'|s'|s']; try (right; discriminate).
  - destruct (string_dec tag tag') as [->|Hn]; [|right; by intros [= ]].
    assert ({ns = ns'} + {ns <> ns'}) as [->|Hn] by decide equality; [|right; by intros [= ]].
    destruct (attrs_eq_dec l l') as [->|Hn]; [|right; by intros [= ]].
    destruct (List.list_eq_dec F cs cs') as [->|Hn]; [by left|right; by intros [= ]].
  - destruct (string_dec s s') as [->|Hn]; [by left|right; by intros [= ]].
  - destruct (string_dec s s') as [->|Hn]; [by left|right; by intros [= ]].
Defined.

Definition same_bare (h h' : htree) : bool := if htree_eq_dec (bare h) (bare h') then true else false.
Lemma same_bare_eq h h' : same_bare h h' = true <-> bare h = bare h'.
Proof. unfold same_bare. by destruct (htree_eq_dec _ _). Qed.

(** Half of the names are common. *)
Definition alike_names (l l' : attrs) : Prop :=
  length l + length l' <= 4 * length (List.filter (fun q => existsb (qname_eqb q) (keys l')) (keys l)).

(** Texts and attributes may differ, and the content of opaque elements. *)
Inductive edited : htree -> htree -> Prop :=
| ed_text s s' : edited (HText s) (HText s')
| ed_comment s s' : edited (HComment s) (HComment s')
| ed_opaque tag ns l l' cs cs' :
    NoDup (keys l) -> NoDup (keys l') -> is_opaque_props l = true -> is_opaque_props l' = true ->
    edited (HElem tag ns l cs) (HElem tag ns l' cs')
| ed_elem tag ns l l' cs cs' :
    NoDup (keys l) -> NoDup (keys l') -> is_opaque_props l = false -> is_opaque_props l' = false ->
    (map bare cs = map bare cs' \/ alike_names l l') ->
    Forall2 edited cs cs' ->
    edited (HElem tag ns l cs) (HElem tag ns l' cs').

(** The places outside opaque content, in document order, with the old and the
    new tree there. *)
Fixpoint spots (p : path) (h h' : htree) {struct h} : list (path * (htree * htree)) :=
  (p, (h, h')) ::
  match h, h' with
  | HElem _ _ l cs, HElem _ _ _ cs' =>
      if is_opaque_props l then []
      else (fix go (k : nat) (cs cs' : list htree) : list (path * (htree * htree)) :=
              match cs, cs' with
              | c :: cs1, c' :: cs1' => spots (p ++ [k]) c c' ++ go (S k) cs1 cs1'
              | _, _ => []
              end) 0 cs cs'
  | _, _ => []
  end.
Fixpoint spots_in (p : path) (k : nat) (cs cs' : list htree) : list (path * (htree * htree)) :=
  match cs, cs' with
  | c :: cs1, c' :: cs1' => spots (p ++ [k]) c c' ++ spots_in p (S k) cs1 cs1'
  | _, _ => []
  end.
Lemma spots_elem p tag ns l cs tag' ns' l' cs' :
  spots p (HElem tag ns l cs) (HElem tag' ns' l' cs') =
  (p, (HElem tag ns l cs, HElem tag' ns' l' cs')) :: (if is_opaque_props l then [] else spots_in p 0 cs cs').
Proof.
  cbn [spots]. f_equal. destruct (is_opaque_props l); [done|]. generalize 0. revert cs'.
  induction cs as [|c cs IH]; intros [|c' cs'] k; [done|done|done|]. cbn [spots_in]. f_equal. apply IH.
Qed.

Inductive edit := EText (s : string) | EAttrs (l l' : attrs) | EContent (cs : list htree).

(** What differs at one place. *)
Definition own_edits (w : path * (htree * htree)) : list (path * edit) :=
  let '(p, (h, h')) := w in
  match h, h' with
  | HText s, HText s' => if string_dec s s' then [] else [(p, EText s')]
  | HComment s, HComment s' => if string_dec s s' then [] else [(p, EText s')]
  | HElem _ _ l _, HElem _ _ l' _ => if attrs_eq_dec l l' then [] else [(p, EAttrs l l')]
  | _, _ => []
  end.
Definition content_edits (w : path * (htree * htree)) : list (path * edit) :=
  let '(p, (h, h')) := w in
  if hopaque h && negb (same_bare h h') then [(p, EContent (hchildren h'))] else [].

(** The patch for an edit. *)
Definition edit_for (e : path * edit) (p : patch) : Prop :=
  match snd e with
  | EText s => p = PSetText (fst e) s
  | EAttrs l l' => update_for (fst e, (l, l')) p
  | EContent cs => p = POpaqueChanged (fst e) (ser_ts false cs)
  end.

(** Nothing but attributes changed at a place, or it is opaque. *)
Definition kept (w : path * (htree * htree)) : bool :=
  let '(_, (h, h')) := w in same_bare h h' || hopaque h.

Fixpoint hsize (h : htree) : nat :=
  match h with HElem _ _ _ cs => S (list_sum (map hsize cs)) | _ => 1 end.

Definition same_label (h h' : htree) : bool :=
  match h, h' with
  | HText _, HText _ => true
  | HComment _, HComment _ => true
  | HElem tag ns _ _, HElem tag' ns' _ _ => hkind_eqb (KElem tag ns) (KElem tag' ns')
  | _, _ => false
  end.

Fixpoint hat (h : htree) (p : path) : option htree :=
  match p with
  | [] => Some h
  | k :: p' => match hchildren h !! k with Some c => hat c p' | None => None end
  end.

(** Pairs of places, of the old and the new tree, outside opaque content, with
    pairwise the same labels on the way from the root. *)
Fixpoint facing (h h' : htree) {struct h} : list ((path * path) * (htree * htree)) :=
  (([], []), (h, h')) ::
  match h, h' with
  | HElem _ _ l cs, HElem _ _ l' cs' =>
      if is_opaque_props l || is_opaque_props l' then []
      else (fix go (i : nat) (cs : list htree) : list ((path * path) * (htree * htree)) :=
              match cs with
              | [] => []
              | c :: cs1 =>
                  flat_map (fun jc => if same_label c (snd jc)
                                      then map (fun e => ((i :: fst (fst e), fst jc :: snd (fst e)), snd e)) (facing c (snd jc))
                                      else [])
                    (zip (seq 0 (length cs')) cs') ++ go (S i) cs1
              end) 0 cs
  | _, _ => []
  end.

(** At path [p] nothing changed but attributes, or an opaque element is there. *)
Definition kept_at (h h' : htree) (p : path) : bool :=
  match hat h p, hat h' p with Some u, Some v => kept (p, (u, v)) | _, _ => false end.

(** A tree that changed, or whose counterpart did, has no twin in another
    place, and no ordinary element that changed faces an opaque one. *)
Definition no_twins (h h' : htree) : bool :=
  forallb (fun e => let '((p, q), (u, v)) := e in
             if decide (p = q) then true
             else if same_bare u v || hopaque u || hopaque v then kept_at h h' p && kept_at h h' q else true)
    (facing h h').

(** At least half of the nodes are kept. *)
Definition half_kept (h h' : htree) : Prop :=
  hsize h + hsize h' <= 4 * length (List.filter kept (spots [0] h h')).

(** No element with this tag outside opaque content. *)
Fixpoint lacks (tag : string) (ns : nspace) (h : htree) : bool :=
  match h with
  | HElem tag' ns' l cs => negb (hkind_eqb (KElem tag' ns') (KElem tag ns)) &&
      (is_opaque_props l || forallb (lacks tag ns) cs)
  | _ => true
  end.
