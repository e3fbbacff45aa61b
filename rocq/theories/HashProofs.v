(** Subtree hashes: fuel is irrelevant, and a hash that never collides gives the
    [no_collision] and [faithful_hashes] hypotheses used by the property theorems. *)
From Verif Require Import Base Arena Matching Dom HtmlDiff ArenaProofs TreeProofs DtreeProofs Instances.

(** Equal hashes mean equal kinds, equal texts, and children with equal hashes. *)
Definition faithful_hashes {H K P T} (heqb : H -> H -> bool) (ta tb : dtree H K P T) : Prop :=
  forall a b, a ∈ t_iter ta -> b ∈ t_iter tb -> heqb (t_hash ta a) (t_hash tb b) = true ->
    t_kind ta a = t_kind tb b /\ t_text ta a = t_text tb b /\
    Forall2 (fun x y => heqb (t_hash ta x) (t_hash tb y) = true) (t_children ta a) (t_children tb b).

Lemma faithful_no_collision {H K P T} (heqb : H -> H -> bool) (ta tb : dtree H K P T) :
  faithful_hashes heqb ta tb -> no_collision heqb ta tb.
Proof. intros F a b Ha Hb E. destruct (F a b Ha Hb E) as (? & _ & ?). done. Qed.

Section Hash.
  Context {H : Type}.
  Variable heqb : H -> H -> bool.
  Variable hcomb : hkind -> option string -> list H -> H.
  Variable h0 : H.

  (** The combination of kind, text and child hashes loses nothing. *)
  Definition collision_free : Prop := forall k t hs k' t' hs',
    heqb (hcomb k t hs) (hcomb k' t' hs') = true ->
    k = k' /\ t = t' /\ Forall2 (fun x y => heqb x y = true) hs hs'.

  Section Arena.
    Context {D : Type}.
    Variable td : D -> tdata.

    Fixpoint rhash (a : arena D) (r : rose) : H :=
      match r with
      | Rose i rs => hcomb (dkind td a i) (dtext td a i) (map (rhash a) rs)
      end.

    Lemma hash_f_spec (a : arena D) r f :
      wf a -> is_tree a r -> rid r < length a -> rheight r < f ->
      hash_f hcomb h0 td f a (rid r) = rhash a r.
    Proof.
      intros W. revert r. induction f as [|f IH]; intros [i rs] Ht Hi Hf; [lia|].
      apply is_tree_eq in Ht as [Hc Hts]. cbn [rid] in *. cbn [hash_f rhash].
      destruct (lookup_lt_is_Some_2 a i Hi) as [n Hn].
      unfold dkind, dtext. unfold data. rewrite Hn. simpl.
      f_equal. rewrite Hc, map_map. apply map_ext_in. intros s Hs.
      apply elem_of_list_In in Hs. apply IH.
      - by apply Hts.
      - eapply wf_child_lt; [done|]. rewrite Hc. by apply elem_of_list_fmap_1.
      - pose proof (rheight_child (Rose i rs) s Hs). lia.
    Qed.

    Lemma mk_dtree_hash (a : arena D) r t s :
      wf a -> rid r < length a -> is_tree a r -> mk_dtree hcomb h0 td a (rid r) = Val t ->
      subt s r -> t_hash t (rid s) = rhash a s.
    Proof.
      intros W Hr Ht E Hs. destruct (mk_dtree_fields _ _ _ _ _ _ E) as (_ & _ & _ & _ & _ & _ & _ & -> & _).
      assert (is_tree a s) as Hts by (by eapply is_tree_subt).
      apply hash_f_spec; [done|done| |by apply is_tree_height].
      clear E Hts t. induction Hs as [|s u r Hs IH Hu]; [done|]. apply IH.
      - eapply wf_child_lt; [done|]. rewrite (is_tree_children a r Ht). by apply elem_of_list_fmap_1.
      - by eapply is_tree_sub.
    Qed.
  End Arena.

  Lemma collision_free_faithful {D D'} (td : D -> tdata) (td' : D' -> tdata)
      (a : arena D) (a' : arena D') r r' t t' :
    collision_free ->
    wf a -> rid r < length a -> is_tree a r -> mk_dtree hcomb h0 td a (rid r) = Val t ->
    wf a' -> rid r' < length a' -> is_tree a' r' -> mk_dtree hcomb h0 td' a' (rid r') = Val t' ->
    faithful_hashes heqb t t'.
  Proof.
    intros CF W Hr Ht E W' Hr' Ht' E' x y Hx Hy Hh.
    destruct (mk_dtree_presents hcomb h0 td a r W Hr Ht) as (t1 & E1 & PR). rewrite E in E1.
    injection E1 as <-.
    destruct (mk_dtree_presents hcomb h0 td' a' r' W' Hr' Ht') as (t1 & E1 & PR'). rewrite E' in E1.
    injection E1 as <-.
    apply (pr_iter_subt t r PR) in Hx as (s & Hs & <-).
    apply (pr_iter_subt t' r' PR') in Hy as (s' & Hs' & <-).
    rewrite (mk_dtree_hash td a r t s) in Hh by done.
    rewrite (mk_dtree_hash td' a' r' t' s') in Hh by done.
    rewrite (pr_children t r PR s Hs), (pr_children t' r' PR' s' Hs').
    destruct (mk_dtree_fields _ _ _ _ _ _ E) as (_ & -> & _ & -> & _).
    destruct (mk_dtree_fields _ _ _ _ _ _ E') as (_ & -> & _ & -> & _).
    destruct s as [i rs], s' as [i' rs']. cbn [rhash] in Hh. cbn [rid rsub].
    apply CF in Hh as (-> & -> & HF). split; [done|]. split; [done|].
    assert (forall u, u ∈ rs -> t_hash t (rid u) = rhash td a u) as Hu.
    { intros u Hu. apply (mk_dtree_hash td a r); try done.
      eapply subt_trans; [|exact Hs]. eapply subt_step; [apply subt_refl|done]. }
    assert (forall u, u ∈ rs' -> t_hash t' (rid u) = rhash td' a' u) as Hu'.
    { intros u Hu'. apply (mk_dtree_hash td' a' r'); try done.
      eapply subt_trans; [|exact Hs']. eapply subt_step; [apply subt_refl|done]. }
    clear Hs Hs'. revert rs' Hu' HF. induction rs as [|u rs IH]; intros rs' Hu' HF.
    - destruct rs'; [constructor|inversion HF].
    - destruct rs' as [|u' rs']; inversion HF; subst. simpl. constructor.
      + rewrite Hu by left. by rewrite Hu' by left.
      + apply IH; [intros; apply Hu; by right|intros; apply Hu'; by right|done].
  Qed.
End Hash.

Lemma phash_collision_free : collision_free phash_eqb PH.
Proof. intros k t hs k' t' hs'. apply phash_eqb_PH. Qed.
