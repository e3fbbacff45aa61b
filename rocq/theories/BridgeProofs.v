(** Proofs about diffs in which one of the documents has no body. *)
From stdpp Require Import list_numbers.
From Verif Require Import Base Arena Dom HtmlDiff ArenaProofs ArenaOps DomTree ApplyProofs
  BuildProofs DiffTotal.

(** The tree a patch content stands for: the namespaces are gone. *)
Fixpoint plain (t : htree) : htree :=
  match t with
  | HElem tag _ ats cs => HElem tag NsHtml ats (map plain cs)
  | _ => t
  end.
Fixpoint ic_of (t : htree) : icontent :=
  match t with
  | HElem tag _ ats cs => ICElem tag ats (map ic_of cs)
  | HText s => ICText s
  | HComment s => ICComment s
  end.

Lemma ic_of_plain t : htree_of_ic (ic_of t) = plain t.
Proof.
  induction t as [sx|sx|tag ns ats cs IH] using htree_ind'; [done|done|]. cbn. f_equal.
  rewrite map_map. apply map_ext_in. intros c Hc. apply IH. by apply elem_of_list_In.
Qed.

Lemma ser_t_plain t : forall raw, ser_t raw (plain t) = ser_t raw t.
Proof.
  induction t as [sx|sx|tag ns ats cs IH] using htree_ind'; intros raw; [done|done|].
  cbn [plain]. rewrite !ser_t_elem. destruct (is_void_element tag); [done|].
  assert (forall r, ser_ts r (map plain cs) = ser_ts r cs) as E; [|by rewrite E].
  intros r. clear raw. induction cs as [|c cs IHc]; [done|]. cbn [map ser_ts].
  rewrite (IH c ltac:(left)), IHc; [done|]. intros c' Hc'. apply IH. by right.
Qed.

Lemma ser_ts_plain raw ts : ser_ts raw (map plain ts) = ser_ts raw ts.
Proof. induction ts as [|t ts IH]; [done|]. cbn [map ser_ts]. by rewrite ser_t_plain, IH. Qed.

Lemma insert_content_ic (a : arena dnode) h : forall i f, holds a h i -> hdepth h < f ->
  insert_content f a i = Some [ic_of h].
Proof.
  induction h as [sx|sx|tag ns ats cs IH] using htree_ind'; intros i f Hh Hd;
    (destruct f as [|f]; [lia|]); cbn [insert_content].
  - by destruct Hh as [-> _].
  - by destruct Hh as [-> _].
  - apply holds_elem in Hh as [Hk Hc]. unfold node_kind. rewrite Hk. cbn [d_kind ic_of].
    assert (forall c, c ∈ cs -> hdepth c < f) as Hdc.
    { intros c Hin. pose proof (hdepths_elem cs c Hin). unfold hdepths in *. cbn [hdepth] in Hd. lia. }
    match goal with |- match ?x with _ => _ end = _ => assert (x = Some (map ic_of cs)) as E; [|by rewrite E] end.
    clear Hk Hd. revert Hc. generalize (children a i). induction cs as [|c cs IHc]; intros l Hc.
    + by inversion Hc; subst.
    + inversion Hc as [|? j ? l' Hj Hl]; subst.
      rewrite (IH c ltac:(left) j f Hj (Hdc c ltac:(left))).
      rewrite (IHc ltac:(intros c' Hc'; apply IH; by right) ltac:(intros c' Hc'; apply Hdc; by right) l' Hl).
      done.
Qed.

Definition insert_patch (h : htree) (pos : nat) : patch :=
  match h with
  | HElem t _ l cs => PInsertElement [0; pos] t l (map ic_of cs) None
  | HText s => PInsertText [0; pos] s None
  | HComment s => PInsertComment [0; pos] s None
  end.
Fixpoint insert_patches (ts : list htree) (pos : nat) : list patch :=
  match ts with
  | [] => []
  | h :: ts' => insert_patch h pos :: insert_patches ts' (S pos)
  end.

Lemma insert_all_patches a ts l : wf a -> holds_list a ts l -> forall pos,
  insert_all a l pos = Val (insert_patches ts pos).
Proof.
  intros W Hl. induction Hl as [|h i ts l Hh Hl IH]; intros pos; [done|]. cbn [insert_all insert_patches].
  assert (create_insert_patch a i pos = Val (insert_patch h pos)) as ->; [|by cbn [obind]; rewrite IH].
  unfold create_insert_patch. pose proof (holds_depth _ _ _ W Hh) as Hd.
  destruct h as [tag ns ats cs|sx|sx].
  - rewrite (insert_content_ic a _ i _ Hh Hd). apply holds_elem in Hh as [Hk _].
    unfold node_kind. by rewrite Hk.
  - by destruct Hh as [-> _].
  - by destruct Hh as [-> _].
Qed.

Section Apply.
  Variable parse_inner : string -> list htree.

  (** Inserting at the end of the body is appending a copy. *)
  Lemma apply_insert_patch a b h :
    wf a -> b < length a ->
    exists a', apply_patch parse_inner (a, [(0, b)]) (insert_patch h (length (children a b)))
                 = ((a', [(0, b)]), Val tt) /\
      (let! (a1, i) := clone_tree a (plain h) in append a1 b i) = Val a' /\
      wf a' /\ length a < length a' /\
      (forall j, j < length a -> data a' j = data a j) /\
      (forall j, j < length a -> j <> b -> children a' j = children a j) /\
      children a' b = children a b ++ [length a].
  Proof.
    intros W Hb. destruct (clone_tree_all (plain h) a W) as (a1 & E1 & X & L1 & O1 & Hh1).
    pose proof (ex_wf _ _ X) as W1.
    assert (children a1 b = children a b) as Cb by by apply X.
    assert (~ above a1 (length a) b) as Hna.
    { intros (k & Hk & Hin). destruct (wf_chain a W b) as [k0 Hk0].
      assert (chain a1 b k0) as Hk1.
      { eapply chain_agree; [done|]. intros x Hx. apply X.
        destruct Hx as [->|Hx]; [done|by eapply chain_lt]. }
      rewrite (chain_det _ _ _ _ Hk Hk1) in Hin. destruct Hin as [Hin|Hin]; [lia|].
      pose proof (chain_lt _ _ _ _ W Hk0 Hin). lia. }
    destruct (append_full a1 b (length a)) as (a2 & E2 & K); [done|lia|lia|done|done|].
    exists a2.
    assert (forall q, q = [0; length (children a b)] ->
      insert_at a1 [(0, b)] q (length a) None = ((a2, [(0, b)]), Val tt)) as Hins.
    { intros q ->. unfold insert_at, get_slot_parent. cbn [length Nat.ltb Nat.leb removelast List.last].
      cbn [navigate_slot_path slot_get Nat.eqb navigate obind].
      unfold insert_at_position. rewrite Cb, Nat.sub_diag. cbn [fill_gaps obind].
      rewrite Cb. rewrite (proj2 (lookup_ge_None (children a b) (length (children a b)))) by lia.
      by rewrite E2. }
    split.
    { destruct h as [tag ns ats cs|sx|sx]; cbn [insert_patch apply_patch].
      - cbn [plain] in E1. rewrite clone_tree_elem in E1. unfold elem.
        change (new_node a (mkD (NElem tag ats) NsHtml)) with
          (fst (new_node a (mkD (NElem tag ats) NsHtml)), length a) in E1 |- *.
        cbv beta iota in E1 |- *.
        rewrite create_contents_clone. rewrite map_map.
        rewrite (map_ext (fun x => htree_of_ic (ic_of x)) plain) by apply ic_of_plain.
        destruct (clone_under _ _ _) as [a3| | |]; try done. cbn [obind] in E1. injection E1 as ->.
        by apply Hins.
      - cbn in E1. injection E1 as <-. cbn [new_node]. by apply Hins.
      - cbn in E1. injection E1 as <-. cbn [new_node]. by apply Hins. }
    split; [by rewrite E1|].
    split; [apply K|]. rewrite (lk_len _ _ _ _ _ K). split; [done|].
    split. { intros j Hj. rewrite (lk_data _ _ _ _ _ K). by apply X. }
    split.
    - intros j Hj Hn. rewrite (lk_children _ _ _ _ _ K). destruct (Nat.eqb_spec j b); [done|]. by apply X.
    - rewrite (lk_children _ _ _ _ _ K), Nat.eqb_refl, Cb. done.
  Qed.

  Lemma apply_insert_patches b : forall ts a,
    wf a -> b < length a ->
    exists a', apply_all parse_inner (a, [(0, b)]) (insert_patches ts (length (children a b)))
                 = ((a', [(0, b)]), Val tt) /\
      clone_under a b (map plain ts) = Val a'.
  Proof.
    induction ts as [|h ts IH]; intros a W Hb; [by exists a|].
    destruct (apply_insert_patch a b h W Hb) as (a1 & E1 & Ec & W1 & L1 & _ & _ & C1).
    destruct (IH a1 W1 ltac:(lia)) as (a2 & E2 & E3).
    exists a2. cbn [insert_patches apply_all map clone_under]. rewrite E1.
    rewrite C1, app_length in E2. cbn [length] in E2. rewrite Nat.add_1_r in E2.
    split; [done|]. destruct (clone_tree a (plain h)) as [[a' i]| | |]; try done. cbn [obind] in Ec |- *.
    rewrite Ec. cbn [obind]. done.
  Qed.

  (** Removing the children of the body from the last to the first leaves
      empty text nodes. *)
  Definition blank (a : arena dnode) (i : nat) : Prop :=
    node_kind a i = Some (NText "") /\ children a i = [].

  Lemma apply_removes b : forall n a,
    wf a -> b < length a -> n <= length (children a b) ->
    (forall i c, n <= i -> children a b !! i = Some c -> blank a c) ->
    exists a', apply_all parse_inner (a, [(0, b)]) (map (fun pos => PRemove [0; pos]) (rev (seq 0 n)))
                 = ((a', [(0, b)]), Val tt) /\
      wf a' /\ length a <= length a' /\
      (forall j, j < length a -> data a' j = data a j) /\
      (forall j, j < length a -> j <> b -> children a' j = children a j) /\
      (forall c, c ∈ children a' b -> blank a' c).
  Proof.
    induction n as [|n IH]; intros a W Hb Hn HB.
    { exists a. split; [done|]. split; [done|]. split; [lia|]. split; [done|]. split; [done|].
      intros c Hc. apply elem_of_list_lookup in Hc as [i Hi]. by apply (HB i); [lia|]. }
    destruct (lookup_lt_is_Some_2 (children a b) n ltac:(lia)) as [c Hc].
    assert (parent a c = Some b) as Pc. { apply (wf_pc a W). by eapply elem_of_list_lookup_2. }
    assert (c < length a) as Lc by by eapply parent_lt.
    destruct (replace_leaf_full a c (text_node "") W Lc) as (a1 & E1 & R).
    pose proof (rp_children _ _ _ _ R b n Pc Hc) as Cb1.
    destruct (IH a1) as (a2 & E2 & W2 & L2 & D2 & C2 & B2).
    { apply R. } { rewrite (rp_len _ _ _ _ R). lia. } { rewrite Cb1, insert_length. lia. }
    { intros i d Hi Hd. rewrite Cb1 in Hd.
      destruct (decide (i = n)) as [->|Hin].
      - rewrite list_lookup_insert in Hd by lia. injection Hd as <-. split.
        + unfold node_kind. by rewrite (rp_data_new _ _ _ _ R).
        + apply R.
      - rewrite list_lookup_insert_ne in Hd by done. destruct (HB i d ltac:(lia) Hd) as [Hk Hcd].
        assert (d < length a) as Ld. { eapply parent_lt. apply (wf_pc a W). by eapply elem_of_list_lookup_2. }
        split.
        + unfold node_kind. rewrite (rp_data _ _ _ _ R) by lia. done.
        + rewrite (rp_children_other _ _ _ _ R); [done|lia|]. intros E. rewrite Pc in E. injection E as <-.
          rewrite Hcd in Hc. done. }
    exists a2. rewrite seq_S, rev_app_distr. cbn [rev app map plus apply_all apply_patch].
    unfold with_node. cbn [fst snd navigate_slot_path slot_get Nat.eqb navigate]. rewrite Hc.
    change (replace_by_empty a c) with (replace_leaf a c (text_node "")). rewrite E1. cbn [plift snd].
    split; [done|]. split; [done|]. rewrite (rp_len _ _ _ _ R) in L2. split; [lia|].
    split. { intros j Hj. rewrite D2 by (rewrite (rp_len _ _ _ _ R); lia). apply (rp_data _ _ _ _ R). lia. }
    split; [|done]. intros j Hj Hjb. rewrite C2 by (rewrite ?(rp_len _ _ _ _ R); lia).
    apply (rp_children_other _ _ _ _ R); [lia|]. rewrite Pc. congruence.
  Qed.
End Apply.
