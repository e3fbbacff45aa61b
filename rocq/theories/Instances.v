(** Concrete documents and a collision-free hash, used in examples only (and to
    show that hypotheses about hashes can be met). *)
From Verif Require Import Base Arena Matching Chawathe Dom HtmlDiff.
Local Open Scope string_scope.

(** A hash that never collides: the hashed tree itself. *)
Inductive phash := PH (k : hkind) (t : option string) (hs : list phash) | PH0.

Fixpoint phash_eqb (x y : phash) : bool :=
  match x, y with
  | PH0, PH0 => true
  | PH k t hs, PH k' t' hs' =>
      hkind_eqb k k' && ostring_eqb t t' &&
      (fix go (l l' : list phash) : bool :=
         match l, l' with
         | [], [] => true
         | a :: l, b :: l' => phash_eqb a b && go l l'
         | _, _ => false
         end) hs hs'
  | _, _ => false
  end.

Lemma hkind_eqb_eq k k' : hkind_eqb k k' = true <-> k = k'.
Proof.
  destruct k as [t n| |], k' as [t' n'| |]; simpl; try (split; congruence).
  rewrite andb_true_iff, String.eqb_eq. destruct n, n'; simpl; split; intuition congruence.
Qed.

Lemma ostring_eqb_eq s t : ostring_eqb s t = true <-> s = t.
Proof. destruct s, t; simpl; rewrite ?String.eqb_eq; split; congruence. Qed.

Lemma phash_eqb_PH k t hs k' t' hs' :
  phash_eqb (PH k t hs) (PH k' t' hs') = true ->
  k = k' /\ t = t' /\ Forall2 (fun x y => phash_eqb x y = true) hs hs'.
Proof.
  simpl. rewrite !andb_true_iff, hkind_eqb_eq, ostring_eqb_eq. intros [[-> ->] Hl].
  split_and!; [done..|]. revert hs' Hl. induction hs as [|x hs IH]; intros [|y hs'] Hl; try done.
  rewrite andb_true_iff in Hl. destruct Hl. constructor; auto.
Qed.

(** A document with the given head and body children. *)
Definition mk_doc (h b : list htree) : document :=
  let a0 := [mkNode (elem "html" [] NsHtml) None [1; 2];
             mkNode (elem "head" [] NsHtml) (Some 0) [];
             mkNode (elem "body" [] NsHtml) (Some 0) []] in
  match clone_under a0 1 h with
  | Val a1 => match clone_under a1 2 b with
              | Val a2 => mkDoc a2 0 (Some "html")
              | _ => mkDoc a0 0 None
              end
  | _ => mkDoc a0 0 None
  end.

Definition ex_attr (k v : string) : attr := (mkQ None "" k, v).
Definition el (t : string) (cs : list htree) : htree := HElem t NsHtml [] cs.
Definition el_a (t : string) (l : attrs) (cs : list htree) : htree := HElem t NsHtml l cs.
Definition tx (s : string) : htree := HText s.

(** [diff] with the collision-free hash. *)
Definition pdiff : document -> document -> outcome (list patch) := diff phash_eqb PH PH0.

(** The two trees that are compared. *)
Definition old_tree (d : document) : outcome (dtree phash hkind attrs string) :=
  match body d with
  | Some b => let! t := build_tree (doc_arena d) b in mk_dtree PH PH0 (fun d => d) t 0
  | None => Panic
  end.
Definition new_tree (d : document) : outcome (dtree phash hkind attrs string) :=
  match body d with
  | Some b => mk_dtree PH PH0 tdata_of (doc_arena d) b
  | None => Panic
  end.

(** No fuel-free parser is modelled; the examples use none. *)
Definition no_parser (s : string) : list htree := [].

(** Applying the patches of [pdiff]. *)
Definition roundtrip (old new : document) : option string :=
  match pdiff old new with
  | Val ps => match apply_patches no_parser old ps with
              | (d, Val tt) => to_body_html d
              | _ => None
              end
  | _ => None
  end.

Definition ex_old : document := mk_doc [el "title" [tx "t"]]
  [el "p" [tx "one"]; el_a "div" [ex_attr "id" "x"] [el "b" [tx "two"]; tx "three"]; el "i" [tx "gone"]].
Definition ex_new : document := mk_doc [el "title" [tx "t"]]
  [el_a "div" [ex_attr "id" "y"] [tx "three"; el "b" [tx "two"]; el "u" []]; el "p" [tx "one!"]].

Example roundtrip_example :
  roundtrip ex_old ex_new = to_body_html ex_new /\
  to_body_html ex_old <> to_body_html ex_new.
Proof. vm_compute. split; [reflexivity|discriminate]. Qed.
