(** The browser applier on arbitrary patches: it settles and keeps a tree. *)
From Verif Require Import Base Arena Dom Browser ArenaProofs ArenaOps DomTree ApplyProofs ConvTotal.

Section Arena.
  Context {D : Type}.
  Lemma append_any (a : arena D) p c : wf a -> p < length a -> c < length a ->
    append a p c = Panic \/ exists a', append a p c = Val a' /\ wf a' /\ length a' = length a.
  Proof.
    intros W Hp Hc. unfold append. destruct (Nat.eqb_spec p c) as [->|Hne]; [by left|].
    destruct (is_ancestor_not_above a c p W (not_eq_sym Hne)) as [[E Hna]|[E _]]; rewrite E; [|by left].
    right. destruct (wf_chain _ W p) as (l & Hl). destruct (not_above_chain _ _ _ _ Hna Hl) as [_ Hcl].
    eexists. split; [reflexivity|]. split.
    - eapply (append_wf a p c l); try done. unfold append.
      destruct (Nat.eqb_spec p c); [done|]. by rewrite E.
    - unfold set_parent, set_children. by rewrite !alter_length, length_detach.
  Qed.
End Arena.

Section Total.
  Variables valid_elem valid_attr : string -> bool.
  Variable parse_template : string -> list htree.
  Notation create := (b_create valid_elem valid_attr parse_template).

  (** An operation on the arena that may throw but keeps a tree. *)
  Definition arena_ok (a : arena dnode) (o : outcome (arena dnode)) : Prop :=
    settled o /\ forall a', o = Val a' -> wf a' /\ length a <= length a'.

  Lemma dom_append_any a p n : wf a -> p < length a -> n < length a -> arena_ok a (dom_append a p n).
  Proof.
    intros W Hp Hn. unfold dom_append.
    destruct (append_any a p n W Hp Hn) as [E|(a' & E & W' & L)]; rewrite E; (split; [done|]); [done|].
    intros a'' [= <-]. by rewrite L.
  Qed.

  Lemma replace_child_any a p n e : wf a -> p < length a -> n < length a -> parent a e = Some p ->
    arena_ok a (replace_child a p n e).
  Proof.
    intros W Hp Hn He. unfold replace_child. destruct (Nat.eqb_spec n p) as [->|Hnp]; [by split|].
    destruct (is_ancestor_not_above a n p W Hnp) as [[E Hna]|[E _]]; rewrite E; [|by split].
    destruct (Nat.eqb_spec n e) as [->|Hne]; [split; [done|]; by intros a' [= <-]|].
    destruct (wf_chain _ W p) as (l & Hl). destruct (not_above_chain _ _ _ _ Hna Hl) as [_ Hcl].
    pose proof (insert_before_spec a e n p W (not_eq_sym Hne) Hnp He) as Ei. rewrite Ei. cbn [obind].
    split; [done|]. intros a' [= <-]. split.
    - apply wf_detach. eapply (insert_before_wf a e n p l); try done; congruence.
    - by rewrite length_detach, length_attach, length_detach.
  Qed.

  Lemma vacate_any a n : wf a -> n < length a -> arena_ok a (vacate a n).
  Proof.
    intros W Hn. unfold vacate. destruct (parent a n); [|split; [done|]; by intros a' [= <-]].
    destruct (replace_leaf_full a n (text_node "") W Hn) as (a' & E & R).
    unfold replace_leaf in E. unfold replace_by_empty. rewrite E. split; [done|]. intros a'' [= <-].
    split; [apply R|]. rewrite (rp_len _ _ _ _ R). lia.
  Qed.

  Lemma set_text_any a n s : wf a -> n < length a -> arena_ok a (set_text_content a n s).
  Proof.
    intros W Hn. unfold set_text_content. destruct (node_kind a n) as [[|t l|x|x]|];
      try (split; [done|]; intros a' [= <-]; by split; [try apply wf_set_kind|rewrite ?length_set_kind]).
    destruct (detach_all_wf (children a n) a W) as [W1 L1].
    destruct (String.eqb s ""); [split; [done|]; intros a' [= <-]; by rewrite L1|].
    change (new_node (detach_all a (children a n)) (text_node s)) with
      (fst (new_node (detach_all a (children a n)) (text_node s)), length (detach_all a (children a n))).
    cbn iota.
    destruct (dom_append_any (fst (new_node (detach_all a (children a n)) (text_node s))) n (length (detach_all a (children a n)))) as [H1 H2].
    { by apply wf_new. } { rewrite length_new. lia. } { rewrite length_new. lia. }
    split; [done|]. intros a' Ha. destruct (H2 a' Ha) as [H3 H4]. split; [done|]. rewrite length_new in H4. lia.
  Qed.

  (** Creation makes a node. *)
  Definition made (a : arena dnode) (o : outcome (arena dnode * nat)) : Prop :=
    settled o /\ forall a' n, o = Val (a', n) -> wf a' /\ length a <= length a' /\ n < length a'.

  Lemma made_new a d : wf a -> made a (Val (new_node a d)).
  Proof.
    intros W. split; [done|]. intros a' n [= <- <-]. change (wf (fst (new_node a d)) /\ length a <= length (fst (new_node a d)) /\ length a < length (fst (new_node a d))).
    rewrite length_new. split; [by apply wf_new|lia].
  Qed.

  Lemma b_create_any c : forall a, wf a -> made a (create a c).
  Proof.
    induction c as [s|s|t ats cs IH] using icontent_ind'; intros a W; cbn [b_create].
    1,2: by apply made_new.
    destruct (b_create_element valid_elem valid_attr t ats) as [d|].
    2:{ unfold b_via_html. destruct (parse_template _) as [|h hs]; [by split|].
        destruct (clone_tree_all h a W) as (a' & E & X & L & _). rewrite E. split; [done|].
        intros a'' n [= <- <-]. split; [apply X|]. lia. }
    change (new_node a d) with (fst (new_node a d), length a). cbn iota.
    pose proof (wf_new a d W) as W1. pose proof (length_new a d) as L1.
    set (a1 := fst (new_node a d)) in *. clearbody a1.
    match goal with |- made a (obind (?f a1 cs) _) => set (go := f) end.
    assert (G : forall l a2, (forall c, c ∈ l -> c ∈ cs) -> wf a2 -> length a < length a2 -> arena_ok a2 (go a2 l)).
    { induction l as [|c l IHl]; intros a2 Hl W2 L2.
      - split; [done|]. by intros a' [= <-].
      - change (arena_ok a2 (let! (a', i) := create a2 c in let! a'' := dom_append a' (length a) i in go a'' l)).
        destruct (IH c (Hl c (elem_of_list_here _ _)) a2 W2) as [S3 M3].
        destruct (create a2 c) as [[a3 i]| | |]; try done. cbn [obind].
        destruct (M3 a3 i eq_refl) as (W3 & L3 & Hi).
        destruct (dom_append_any a3 (length a) i W3) as [S4 M4]; [lia|done|].
        destruct (dom_append a3 (length a) i) as [a4| | |]; try done. cbn [obind].
        destruct (M4 a4 eq_refl) as [W4 L4].
        destruct (IHl a4) as [S5 M5]; [|done|lia|].
        { intros c' Hc'. apply Hl. by right. }
        split; [done|]. intros a5 E5. destruct (M5 a5 E5) as [W5 L5]. split; [done|lia]. }
    destruct (G cs a1) as [S6 M6]; [done|done|lia|].
    destruct (go a1 cs) as [a2| | |]; try done. cbn [obind]. destruct (M6 a2 eq_refl) as [W2 L2].
    split; [done|]. intros a' n [= <- <-]. split; [done|lia].
  Qed.

  Lemma b_put_any a sl p n pos slot : st_ok (a, sl) -> p < length a -> n < length a ->
    good (a, sl) (b_insert_at_position a sl p n pos slot).
  Proof.
    intros [W S] Hp Hn. cbn in W, S. unfold b_insert_at_position. destruct (children a p !! pos) as [e|] eqn:Ee.
    - apply elem_of_list_lookup_2 in Ee. apply (wf_pc _ W) in Ee as He.
      destruct (replace_child_any a p n e W Hp Hn He) as [Hs Ho].
      destruct (replace_child a p n e) as [a1| | |]; [|by apply good_refl|done..].
      destruct (Ho a1 eq_refl) as [W1 L1]. split; [split; [done|]|done]. cbn [fst snd].
      destruct slot as [k|]; [|by eapply slots_ok_mono].
      apply slots_ok_set; [by eapply slots_ok_mono|]. pose proof (wf_child_lt _ _ _ W Ee). lia.
    - destruct (fill_gaps_full (text_node "") (pos - length (children a p)) a p W Hp) as (a1 & E1 & Fl).
      rewrite E1. pose proof (fl_len _ _ _ _ _ Fl) as L1. pose proof (fl_wf _ _ _ _ _ Fl) as W1.
      destruct (dom_append_any a1 p n W1) as [Hs Ho]; [lia|lia|].
      assert (st_ok (a1, sl)) as [_ S1]. { split; [done|]. apply (slots_ok_mono a); [done|cbn; lia]. }
      destruct (dom_append a1 p n) as [a2| | |]; try done.
      + destruct (Ho a2 eq_refl) as [W2 L2]. split; [|cbn; split; [lia|done]]. split; [done|].
        apply (slots_ok_mono a1); [done|cbn; lia].
      + split; [by split|]. cbn. split; [lia|done].
  Qed.

  Lemma take_get sl k j v : slot_get (slot_take sl k) j = Some v -> slot_get sl j = Some v.
  Proof.
    induction sl as [|[i x] sl IH]; [done|]. unfold slot_take in *. cbn [List.filter fst].
    destruct (Nat.eqb_spec i k) as [->|Hne]; cbn [negb slot_get].
    - intros H. destruct (Nat.eqb_spec k j) as [->|]; [|by apply IH].
      exfalso. clear IH. revert H. induction sl as [|[i' x'] sl IH]; [done|]. cbn [List.filter fst].
      destruct (Nat.eqb_spec i' j); [done|]. cbn [negb slot_get]. by destruct (Nat.eqb_spec i' j).
    - destruct (Nat.eqb i j); [done|apply IH].
  Qed.

  Section Root.
    Variable root : nat.
    Notation bap := (b_apply_patch valid_elem valid_attr parse_template root).

    Lemma find_any a sl q : wf a -> slots_ok a sl -> root < length a ->
      settled (find_node root a sl q) /\ forall n, find_node root a sl q = Val n -> n < length a.
    Proof.
      intros W S Hr. destruct q as [|k q]; [by split|]. cbn [find_node]. unfold get_slot_root.
      assert (N : forall r, r < length a -> settled (navigate a r q) /\ forall n, navigate a r q = Val n -> n < length a).
      { intros r Hlt. split; [destruct (navigate_total a r q) as [(n & ->)|(e & ->)]; done|].
        intros n. by apply navigate_lt. }
      destruct (Nat.eqb k 0); cbn [obind]; [by apply N|].
      destruct (slot_get sl k) as [v|] eqn:E; cbn [obind]; [by apply N, (S k)|by split].
    Qed.

    Lemma with_any a sl q f : st_ok (a, sl) -> root < length a ->
      (forall n, n < length a -> good (a, sl) (f n)) -> good (a, sl) (with_found root (a, sl) q f).
    Proof.
      intros [W S] Hr Hf. unfold with_found. cbn [fst snd]. destruct (find_any a sl q W S Hr) as [Hs Hl].
      destruct (find_node root a sl q) as [n| | |]; [by apply Hf, Hl|by apply good_refl|done..].
    Qed.
    Lemma lift_any a sl o : st_ok (a, sl) -> arena_ok a o -> good (a, sl) (plift (a, sl) o).
    Proof.
      intros [W S] [Hs Ho]. destruct o as [a1| | |]; [|by apply good_refl|done..].
      destruct (Ho a1 eq_refl) as [W1 L1]. split; [|done]. split; [done|]. by apply (slots_ok_mono a).
    Qed.
    Lemma insert_any a sl at_ slot make : st_ok (a, sl) -> root < length a -> made a (make a) ->
      good (a, sl) (b_insert root (a, sl) at_ slot make).
    Proof.
      intros O Hr [Hs Hm]. unfold b_insert. destruct (Nat.ltb _ 2); [by apply good_refl|].
      apply with_any; [done|done|]. intros p Hp. cbn [fst snd].
      destruct (node_kind a p) as [[| | |]|]; try (by apply good_refl).
      destruct (make a) as [[a1 n]| | |]; [|by apply good_refl|done..].
      destruct (Hm a1 n eq_refl) as (W1 & L1 & Hn). destruct O as [W S].
      destruct (b_put_any a1 sl p n (List.last at_ 0) slot) as (G1 & G2 & G3); [|lia|done|].
      { split; [done|]. by apply (slots_ok_mono a). }
      split; [done|]. split; [cbn in *; lia|done].
    Qed.

    Lemma good_weaken a sl a1 sl1 r : length a <= length a1 -> good (a1, sl1) r -> good (a, sl) r.
    Proof. intros L (G1 & G2 & G3). split; [done|]. split; [cbn in *; lia|done]. Qed.

    Lemma b_apply_any a sl p : st_ok (a, sl) -> root < length a -> p <> PRemove [] -> good (a, sl) (bap (a, sl) p).
    Proof.
      intros O Hr Hp. pose proof O as [W S]. cbn in W, S.
      destruct p as [at_ tag ats cs slot|at_ s slot|at_ s slot|q|q s|q nm v|q nm|from to slot|q changes|q s];
        cbn [b_apply_patch].
      - apply insert_any; [done|done|]. by apply b_create_any.
      - apply insert_any; [done|done|]. by apply made_new.
      - apply insert_any; [done|done|]. by apply made_new.
      - destruct q as [|k rel]; [done|]. destruct (negb _ && _).
        + split; [|done]. split; [done|]. intros j v Hj. apply (S j). by apply take_get in Hj.
        + apply with_any; [done|done|]. intros n Hn. apply lift_any; [done|]. by apply vacate_any.
      - apply with_any; [done|done|]. intros n Hn. apply lift_any; [done|]. by apply set_text_any.
      - apply with_any; [done|done|]. intros n Hn. destruct (data a n) as [[[] ns]|]; try (by apply good_refl).
        destruct (b_set_attr _ _ _ _ _); [by apply good_set_kind|by apply good_refl].
      - apply with_any; [done|done|]. intros n Hn. destruct (data a n) as [[[] ns]|]; try (by apply good_refl).
        by apply good_set_kind.
      - match goal with |- good _ (match ?t with _ => _ end) => set (taken := t) end.
        assert (T : settled taken /\ forall a1 sl1 n, taken = Val (a1, sl1, n) ->
          st_ok (a1, sl1) /\ length a <= length a1 /\ n < length a1).
        { assert (T : settled (let! n := find_node root a sl from in let! a1 := vacate a n in Val (a1, sl, n)) /\
            forall a1 sl1 n, (let! n := find_node root a sl from in let! a1 := vacate a n in Val (a1, sl, n)) = Val (a1, sl1, n) ->
              st_ok (a1, sl1) /\ length a <= length a1 /\ n < length a1).
          { destruct (find_any a sl from W S Hr) as [Hs Hl].
            destruct (find_node root a sl from) as [n| | |]; try done. cbn [obind].
            destruct (vacate_any a n W (Hl n eq_refl)) as [Hv Ho]. pose proof (Hl n eq_refl).
            destruct (vacate a n) as [a1| | |]; try done. cbn [obind]. destruct (Ho a1 eq_refl) as [W1 L1].
            split; [done|]. intros a2 sl1 n' [= <- <- <-]. split; [|lia]. split; [done|]. by apply (slots_ok_mono a). }
          subst taken. destruct from as [|k [|k' from]]; [exact T| |exact T].
          destruct (slot_get sl k) as [v|] eqn:E; [|by split]. split; [done|].
          intros a1 sl1 n [= <- <- <-]. split; [|split; [done|by apply (S k)]].
          split; [done|]. intros j x Hj. apply (S j). by apply take_get in Hj. }
        destruct T as [Ts T]. clearbody taken. destruct taken as [[[a1 sl1] n]| | |]; [|by apply good_refl|done..].
        destruct (T a1 sl1 n eq_refl) as (O1 & L1 & Hn). apply (good_weaken a sl a1 sl1); [done|].
        destruct (Nat.ltb _ 2); [by apply good_refl|]. apply with_any; [done|lia|]. intros p Hlt.
        destruct (node_kind a1 p) as [[| | |]|]; try (by apply good_refl). by apply b_put_any.
      - apply with_any; [done|done|]. intros n Hn.
        match goal with |- good _ (match ?t with _ => _ end) => set (texted := t) end.
        assert (T : arena_ok a texted).
        { assert (arena_ok a (Val a)) by (split; [done|]; by intros a' [= <-]).
          subst texted. destruct (find _ changes) as [c|]; [|done]. destruct (pc_value c); [|done].
          by apply set_text_any. }
        clearbody texted. destruct T as [Ts T]. destruct texted as [a1| | |]; [|by apply good_refl|done..].
        destruct (T a1 eq_refl) as [W1 L1].
        assert (O1 : st_ok (a1, sl)) by (split; [done|by apply (slots_ok_mono a)]).
        apply (good_weaken a sl a1 sl); [done|]. destruct (data a1 n) as [[[] ns]|]; try (by apply good_refl).
        destruct (b_set_changes _ _ _ _ _) as [l' ok].
        destruct (good_set_kind a1 sl n (NElem tag l') O1) as (G1 & G2 & _). split; [done|]. split; [done|]. by destruct ok.
      - apply with_any; [done|done|]. intros n Hn. destruct (node_kind a n) as [[| | |]|]; by apply good_refl.
    Qed.

    Lemma b_apply_all_any ps : forall a sl, st_ok (a, sl) -> root < length a -> (forall p, p ∈ ps -> p <> PRemove []) ->
      good (a, sl) (b_apply_all valid_elem valid_attr parse_template root (a, sl) ps).
    Proof.
      induction ps as [|p ps IH]; intros a sl O Hr Hps; [by apply good_refl|]. cbn [b_apply_all].
      pose proof (b_apply_any a sl p O Hr (Hps p (elem_of_list_here _ _))) as G.
      destruct (bap (a, sl) p) as [[a1 sl1] o]. destruct G as (G1 & G2 & G3). cbn [fst snd] in *.
      destruct o as [[]| | |]; try done.
      apply (good_weaken a sl a1 sl1); [done|]. apply IH; [done|lia|]. intros p' Hp'. apply Hps. by right.
    Qed.
  End Root.
End Total.
