(** What the browser client does not touch: everything outside the element the
    patches are applied to. *)
From Verif Require Import Base Arena Matching Dom Browser ArenaProofs ArenaOps TreeProofs DomTree ApplyProofs FrameProofs
  BrowserProofs.
Local Open Scope string_scope.

Section Frame.
  Variables valid_elem valid_attr : string -> bool.
  Variable parse_template : string -> list htree.
  Variable a0 : arena dnode.
  Variable Out : nat -> Prop.
  Variable b : nat.
  Hypothesis Out_lt : forall j, Out j -> j < length a0.
  Hypothesis b_in : ~ Out b.
  Hypothesis b_lt : b < length a0.

  Notation framed := (framed a0 Out b).
  Notation bap := (b_apply_patch valid_elem valid_attr parse_template).

  Definition bsl (sl : slots) : Prop := forall k v, slot_get sl k = Some v -> ~ Out v /\ v <> b.
  Definition bok (r : presult) : Prop := framed (fst (fst r)) /\ bsl (snd (fst r)).

  Lemma find_in a sl q n : framed a -> bsl sl -> find_node b a sl q = Val n -> ~ Out n /\ (n = b -> q = [0]).
  Proof.
    intros Hf Hs. unfold find_node, get_slot_root. destruct q as [|k q]; [done|].
    destruct (Nat.eqb_spec k 0) as [->|Hk]; cbn [obind].
    - intros Hn. destruct (navigate_in _ _ _ a q b n Hf b_in Hn) as [H1 H2].
      split; [done|]. intros He. by destruct (H2 He) as [-> _].
    - destruct (slot_get sl k) as [r|] eqn:Er; cbn [obind]; [|done]. intros Hn.
      destruct (Hs k r Er) as [H1 H2]. destruct (navigate_in _ _ _ a q r n Hf H1 Hn) as [H3 H4].
      split; [done|]. intros He. by destruct (H4 He) as [_ ->].
  Qed.

  Lemma bok_refl a sl o : framed a -> bsl sl -> bok ((a, sl), o).
  Proof. by split. Qed.

  Lemma bok_with a sl q f : framed a -> bsl sl ->
    (forall n, ~ Out n -> (n = b -> q = [0]) -> bok (f n)) -> bok (with_found b (a, sl) q f).
  Proof.
    intros Hf Hs Hk. unfold with_found. cbn [fst snd].
    destruct (find_node b a sl q) as [n| | |] eqn:En; [|by apply bok_refl..].
    destruct (find_in a sl q n Hf Hs En). by apply Hk.
  Qed.

  Lemma bok_lift a sl o : framed a -> bsl sl -> (forall a', o = Val a' -> framed a') -> bok (plift (a, sl) o).
  Proof. intros Hf Hs Ho. destruct o; split; try done. by apply Ho. Qed.

  Lemma framed_dom_append a p c a' : framed a -> ~ Out p -> ~ Out c -> c <> b -> dom_append a p c = Val a' -> framed a'.
  Proof.
    intros Hf Hp Hc Hb. unfold dom_append. destruct (append a p c) as [a1| | |] eqn:E; try done.
    intros [= <-]. by apply (framed_append a0 Out b a p c).
  Qed.

  Lemma framed_replace_child a p n e a' : framed a -> ~ Out n -> n <> b -> ~ Out e -> e <> b ->
    replace_child a p n e = Val a' -> framed a'.
  Proof.
    intros Hf Hn Hb He Heb. unfold replace_child. destruct (Nat.eqb n p); [done|].
    destruct (is_ancestor a n p) as [[|]|]; try done. destruct (Nat.eqb n e); [by intros [= <-]|].
    destruct (insert_before a e n) as [a1| | |] eqn:E; cbn [obind]; try done. intros [= <-].
    apply framed_detach; [|done..]. by apply (framed_insert_before a0 Out b a e n).
  Qed.

  Lemma bok_put a sl p n pos slot : framed a -> bsl sl -> ~ Out p -> ~ Out n -> n <> b ->
    bok (b_insert_at_position a sl p n pos slot).
  Proof.
    intros Hf Hs Hp Hn Hb. unfold b_insert_at_position. destruct (children a p !! pos) as [e|] eqn:Ee.
    - apply elem_of_list_lookup_2 in Ee. destruct (fr_child _ _ _ _ Hf p e Hp Ee) as [He Heb].
      destruct (replace_child a p n e) as [a1| | |] eqn:E; [|by apply bok_lift..].
      split; cbn [fst snd]; [by apply (framed_replace_child a p n e)|].
      destruct slot as [k|]; [|done]. intros k' v'. cbn [slot_set slot_get].
      destruct (Nat.eqb k k'); [by intros [= <-]|apply Hs].
    - destruct (fill_gaps _ _ a p) as [a1| | |] eqn:E; [|by apply bok_lift..].
      pose proof (framed_fill a0 Out b Out_lt b_lt _ _ _ _ _ Hf Hp E) as Hf1.
      apply bok_lift; [done|done|]. intros a' Ha. by apply (framed_dom_append a1 p n).
  Qed.

  Lemma framed_b_create c : forall a a' n, framed a -> b_create valid_elem valid_attr parse_template a c = Val (a', n) ->
    framed a' /\ ~ Out n /\ n <> b.
  Proof.
    induction c as [s|s|t ats cs IH] using icontent_ind'; intros a a' n Hf; cbn [b_create].
    1,2: intros [= <- <-]; split_and!; [by apply (framed_new a0 Out b)|by apply (new_not_out a0 Out b)|by apply (new_ne_b a0 Out b)].
    destruct (b_create_element valid_elem valid_attr t ats) as [d|].
    2:{ unfold b_via_html. destruct (parse_template _) as [|h hs]; [done|]. intros E.
        by apply (framed_clone a0 Out b Out_lt b_lt h a a' n Hf). }
    change (new_node a d) with (fst (new_node a d), length a).
    assert (H1 : framed (fst (new_node a d))) by (by apply (framed_new a0 Out b)).
    assert (H2 : ~ Out (length a)) by (by apply (new_not_out a0 Out b)).
    assert (H3 : length a <> b) by (by apply (new_ne_b a0 Out b)).
    revert H1 H2 H3. generalize (fst (new_node a d)), (length a).
    clear Hf a. intros a1 m H1 H2 H3. revert a1 H1.
    induction cs as [|c cs IHcs]; intros a1 H1; cbn.
    - by intros [= <- <-].
    - destruct (b_create valid_elem valid_attr parse_template a1 c) as [[a2 i]| | |] eqn:E; cbn; try done.
      destruct (IH c ltac:(by left) _ _ _ H1 E) as (H4 & H5 & H6).
      destruct (dom_append a2 m i) as [a3| | |] eqn:E2; cbn; try done.
      apply IHcs; [intros x Hx; apply IH; by right|]. by apply (framed_dom_append a2 m i).
  Qed.

  Lemma bok_insert a sl at_ slot make : framed a -> bsl sl ->
    (forall a' n, make a = Val (a', n) -> framed a' /\ ~ Out n /\ n <> b) ->
    bok (b_insert b (a, sl) at_ slot make).
  Proof.
    intros Hf Hs Hm. unfold b_insert. destruct (Nat.ltb _ 2); [by apply bok_refl|].
    apply bok_with; [done|done|]. intros p Hp _. cbn [fst snd].
    destruct (node_kind a p) as [[]|]; try by apply bok_refl.
    destruct (make a) as [[a1 n]| | |] eqn:E; [|by apply bok_refl..].
    destruct (Hm a1 n eq_refl) as (H1 & H2 & H3). by apply bok_put.
  Qed.

  Lemma framed_set_text a n s a' : framed a -> ~ Out n -> set_text_content a n s = Val a' -> framed a'.
  Proof.
    intros Hf Hn. unfold set_text_content. destruct (node_kind a n) as [[| | |]|] eqn:Ek; try (by intros [= <-]).
    - assert (H1 : framed (detach_all a (children a n))).
      { apply framed_detach_all; [done|]. intros x Hx. by apply (fr_child _ _ _ _ Hf n). }
      destruct (String.eqb s ""); [by intros [= <-]|].
      set (a1 := detach_all a (children a n)) in *.
      change (new_node a1 (text_node s)) with (fst (new_node a1 (text_node s)), length a1). cbv beta iota.
      apply framed_dom_append; [by apply (framed_new a0 Out b)|done|by apply (new_not_out a0 Out b)|by apply (new_ne_b a0 Out b)].
    - intros [= <-]. by apply framed_set_kind; [..|rewrite Ek].
    - intros [= <-]. by apply framed_set_kind; [..|rewrite Ek].
  Qed.

  Lemma framed_vacate a n a' : framed a -> ~ Out n -> n <> b -> vacate a n = Val a' -> framed a'.
  Proof.
    intros Hf Hn Hb. unfold vacate. destruct (parent a n); [|by intros [= <-]].
    by apply (framed_replace a0 Out b Out_lt b_lt a n).
  Qed.

  Lemma bsl_take sl k : bsl sl -> bsl (slot_take sl k).
  Proof.
    intros Hs j v. destruct (decide (j = k)) as [->|Hj]; [by rewrite slot_take_same|].
    rewrite slot_take_other by done. apply Hs.
  Qed.

  Lemma bok_apply a sl p : framed a -> bsl sl -> p <> PRemove [0] -> bok (bap b (a, sl) p).
  Proof.
    intros Hf Hs Hp. destruct p as [at_ tag ats cs slot|at_ s slot|at_ s slot|q|q s|q n v|q n|q t slot|q ch|q s];
      cbn [b_apply_patch].
    - apply bok_insert; [done|done|]. intros a' n. by apply framed_b_create.
    - apply bok_insert; [done|done|]. intros a' n. change (Val (new_node a (text_node s))) with
        (b_create valid_elem valid_attr parse_template a (ICText s)). by apply framed_b_create.
    - apply bok_insert; [done|done|]. intros a' n. change (Val (new_node a (comment_node s))) with
        (b_create valid_elem valid_attr parse_template a (ICComment s)). by apply framed_b_create.
    - destruct q as [|k rel]; [by apply bok_refl|].
      destruct (negb (Nat.eqb k 0) && Nat.eqb (length rel) 0); [split; [done|by apply bsl_take]|].
      apply bok_with; [done|done|]. intros n Hn Hb. apply bok_lift; [done|done|]. intros a'.
      apply framed_vacate; [done|done|]. intros He. rewrite (Hb He) in Hp. done.
    - apply bok_with; [done|done|]. intros n Hn _. apply bok_lift; [done|done|]. intros a'. by apply framed_set_text.
    - apply bok_with; [done|done|]. intros m Hm _. destruct (data a m) as [[[] ns]|] eqn:Ed; try by apply bok_refl.
      destruct (b_set_attr _ _ _ _); [|by apply bok_refl]. apply bok_refl; [|done].
      by apply framed_set_kind; [..|unfold node_kind; rewrite Ed].
    - apply bok_with; [done|done|]. intros m Hm _. destruct (data a m) as [[[] ns]|] eqn:Ed; try by apply bok_refl.
      apply bok_refl; [|done]. by apply framed_set_kind; [..|unfold node_kind; rewrite Ed].
    - assert (forall a1 s1 n, framed a1 -> bsl s1 -> ~ Out n -> n <> b -> bok
        (if Nat.ltb (length t) 2 then ((a1, s1), Fail EmptyPath)
         else with_found b (a1, s1) (removelast t) (fun p =>
           match node_kind a1 p with
           | Some (NElem _ _) => b_insert_at_position a1 s1 p n (List.last t 0) slot
           | _ => ((a1, s1), Fail NotAnElement)
           end))) as Hput.
      { intros a1 s1 n F1 S1 Hn Hb. destruct (Nat.ltb _ 2); [by apply bok_refl|]. apply bok_with; [done|done|].
        intros p' Hp' _. destruct (node_kind a1 p') as [[]|]; try by apply bok_refl. by apply bok_put. }
      assert (bok match (let! n := find_node b a sl q in let! a1 := vacate a n in Val (a1, sl, n)) with
          | Val (a1, sl1, n) =>
              let st1 := (a1, sl1) in
              if Nat.ltb (length t) 2 then (st1, Fail EmptyPath)
              else with_found b st1 (removelast t) (fun p =>
                match node_kind a1 p with
                | Some (NElem _ _) => b_insert_at_position a1 sl1 p n (List.last t 0) slot
                | _ => (st1, Fail NotAnElement)
                end)
          | Fail e => ((a, sl), Fail e)
          | Panic => ((a, sl), Panic)
          | Diverge => ((a, sl), Diverge)
          end \/ exists k, q = [k]) as Hin.
      { assert ((exists k, q = [k]) \/ q <> [0]) as [?|Hq]; [|by right|].
        { destruct q as [|k [|]]; [by right|left; eauto|by right]. }
        left. destruct (find_node b a sl q) as [n| | |] eqn:En; cbn [obind]; try by apply bok_refl.
        destruct (find_in a sl q n Hf Hs En) as [Hn Hb].
        assert (n <> b) as Hnb by (intros He; by apply Hq, Hb).
        destruct (vacate a n) as [a1| | |] eqn:Ev; cbn [obind]; try by apply bok_refl.
        apply Hput; try done. by apply (framed_vacate a n). }
      destruct q as [|k [|k1 q]].
      + by apply bok_refl.
      + destruct (slot_get sl k) as [n|] eqn:Eg; [|by apply bok_refl]. destruct (Hs k n Eg).
        apply Hput; try done. by apply bsl_take.
      + destruct Hin as [Hin|[? [=]]]. exact Hin.
    - apply bok_with; [done|done|]. intros n Hn _. cbv zeta.
      match goal with |- context [match ?t with Val _ => _ | _ => _ end] => set (tx := t) end.
      assert (forall a1, tx = Val a1 -> framed a1) as Ht.
      { intros a1. unfold tx. destruct (find _ ch) as [c|]; [|by intros [= <-]].
        destruct (pc_value c); [|by intros [= <-]]. by apply framed_set_text. }
      destruct tx as [a1| | |]; try by apply bok_refl. specialize (Ht a1 eq_refl).
      destruct (data a1 n) as [[[] ns]|] eqn:Ed; try by apply bok_refl.
      destruct (b_set_changes _ _ _ _ _) as [l' ok]. apply bok_refl; [|done].
      by apply framed_set_kind; [..|unfold node_kind; rewrite Ed].
    - apply bok_with; [done|done|]. intros n Hn _. destruct (node_kind a n) as [[]|]; by apply bok_refl.
  Qed.

  Lemma bok_all ps : forall a sl, framed a -> bsl sl -> (forall p, p ∈ ps -> p <> PRemove [0]) ->
    bok (b_apply_all valid_elem valid_attr parse_template b (a, sl) ps).
  Proof.
    induction ps as [|p ps IH]; intros a sl Hf Hs Hp; cbn [b_apply_all]; [by split|].
    pose proof (bok_apply a sl p Hf Hs (Hp p ltac:(by left))) as H.
    destruct (bap b (a, sl) p) as [[a1 sl1] [[]|e| |]]; try done.
    destruct H. apply IH; try done. intros q Hq. apply Hp. by right.
  Qed.
End Frame.
