(** How many children the nodes of a browser's page can get (C68). *)
From Verif Require Import Base Arena Matching Chawathe Dom Browser HtmlDiff ArenaProofs ArenaOps DomTree ApplyProofs ConvTotal OpaqueProofs
  NumberProofs SinkProofs BrowserProofs BrowserTotal DtreeProofs ScriptProofs PayloadProofs RoundProofs AssembleProofs NestProofs PropBrowser PropPayload PropCount GrowScript.
Local Open Scope string_scope.

(** No node has got more children than it had, or than [F]. *)
Definition within {D} (F : nat) (a a' : arena D) : Prop :=
  forall j, length (children a' j) <= Nat.max (length (children a j)) F.

Lemma within_refl {D} F (a : arena D) : within F a a.
Proof. intros j. lia. Qed.
Lemma within_trans {D} F (a b c : arena D) : within F a b -> within F b c -> within F a c.
Proof. intros H1 H2 j. specialize (H1 j). specialize (H2 j). lia. Qed.
Lemma within_le {D} F F' (a b : arena D) : within F a b -> F <= F' -> within F' a b.
Proof. intros H L j. specialize (H j). lia. Qed.

Lemma remove_id_in i : forall l, i ∈ l -> length (remove_id i l) < length l.
Proof.
  induction l as [|x l IH]; intros Hi; [by apply elem_of_nil in Hi|]. unfold remove_id in *. cbn [List.filter].
  destruct (Nat.eqb_spec x i) as [->|Hne]; cbn [negb length].
  - pose proof (remove_id_length i l) as L. unfold remove_id in L. lia.
  - apply elem_of_cons in Hi as [->|Hi]; [done|]. specialize (IH Hi). lia.
Qed.

Lemma insert_before_list_in sib n l : sib ∈ l -> sib ∈ insert_before_list sib n l.
Proof.
  induction l as [|x l IH]; intros Hi; [by apply elem_of_nil in Hi|]. cbn [insert_before_list].
  destruct (Nat.eqb_spec x sib) as [->|Hne]; [right; left|]. apply elem_of_cons in Hi as [->|Hi]; [done|]. right. auto.
Qed.

Section Operations.
  Variables valid_elem valid_attr : string -> bool.
  Variable parse_template : string -> list htree.
  Notation create := (b_create valid_elem valid_attr parse_template).

  Lemma replace_child_le a p n e a' : wf a -> n < length a -> parent a e = Some p -> replace_child a p n e = Val a' ->
    forall j, length (children a' j) <= length (children a j).
  Proof.
    intros W Hn He. unfold replace_child. destruct (Nat.eqb_spec n p) as [->|Hnp]; [done|].
    destruct (is_ancestor_not_above a n p W Hnp) as [[E Hna]|[E _]]; rewrite E; [|done].
    destruct (Nat.eqb_spec n e) as [->|Hne]; [by intros [= <-]|].
    destruct (wf_chain _ W p) as (l & Hl). destruct (not_above_chain _ _ _ _ Hna Hl) as [_ Hcl].
    pose proof (insert_before_spec a e n p W (not_eq_sym Hne) Hnp He) as Ei. rewrite Ei. cbn [obind]. intros [= <-] j.
    rewrite children_detach by (eapply (insert_before_wf a e n p l); try done; congruence).
    rewrite children_attach by (rewrite length_detach; by eapply wf_parent_lt).
    destruct (Nat.eqb_spec j p) as [->|Hj].
    - assert (e ∈ children a p) as Hin by (by apply (wf_pc a W)).
      assert (e ∈ remove_id n (children a p)) as Hin' by (by apply elem_remove_id).
      pose proof (remove_id_in e _ (insert_before_list_in e n _ Hin')) as L1.
      pose proof (insert_before_length e n (remove_id n (children a p))) as L2.
      pose proof (remove_id_length n (children a p)) as L3. lia.
    - etransitivity; [apply remove_id_length|]. rewrite children_detach by done. apply remove_id_length.
  Qed.

  Lemma vacate_le a n a' : wf a -> n < length a -> vacate a n = Val a' ->
    forall j, length (children a' j) <= length (children a j).
  Proof.
    intros W Hn. unfold vacate. destruct (parent a n) as [p|] eqn:Ep; [|by intros [= <-]].
    destruct (replace_leaf_full a n (text_node "") W Hn) as (a2 & E & R).
    unfold replace_leaf in E. unfold replace_by_empty. rewrite E. intros [= <-] j.
    destruct (decide (j = length a)) as [->|Hj]; [rewrite (rp_new_leaf _ _ _ _ R); cbn; lia|].
    destruct (decide (j = p)) as [->|Hp].
    - assert (n ∈ children a p) as Hin by (by apply (wf_pc a W)). apply elem_of_list_lookup in Hin as (i & Hi).
      rewrite (rp_children _ _ _ _ R p i Ep Hi), insert_length. done.
    - rewrite (rp_children_other _ _ _ _ R j Hj); [done|congruence].
  Qed.

  Lemma detach_all_le l : forall a j, length (children (detach_all a l) j) <= length (children a j).
  Proof.
    unfold detach_all. induction l as [|x l IH]; intros a j; [done|]. cbn [fold_left]. etransitivity; [apply IH|]. apply detach_le.
  Qed.

  Lemma set_text_le a n s a' : wf a -> n < length a -> set_text_content a n s = Val a' -> within 1 a a'.
  Proof.
    intros W Hn. unfold set_text_content.
    destruct (node_kind a n) as [[|t l|x|x]|]; try (intros [= <-] j; rewrite ?children_set_kind; lia).
    destruct (String.eqb s ""); [intros [= <-] j; pose proof (detach_all_le (children a n) a j); lia|].
    change (new_node (detach_all a (children a n)) (text_node s)) with
      (fst (new_node (detach_all a (children a n)) (text_node s)), length (detach_all a (children a n))). cbn iota.
    set (a1 := detach_all a (children a n)). unfold dom_append.
    destruct (append (fst (new_node a1 (text_node s))) n (length a1)) as [a2| | |] eqn:E; try done. intros [= <-]. intros j.
    pose proof (append_le _ _ _ _ j E) as L. rewrite children_new in L.
    destruct (Nat.eqb_spec j n) as [Hj|Hj]; [subst j|].
    - destruct (detach_all_full (children a n) a W) as (_ & _ & _ & Hc & _).
      assert (children a1 n = []) as E0.
      { subst a1. destruct (children (detach_all a (children a n)) n) as [|z zs] eqn:Ez; [done|exfalso].
        assert (z ∈ children (detach_all a (children a n)) n) as Hz by (rewrite Ez; left).
        apply Hc in Hz as [? ?]. done. }
      rewrite E0 in L. cbn [length] in L. lia.
    - pose proof (detach_all_le (children a n) a j). subst a1. lia.
  Qed.

  (** ** Creation *)

  (** Names are accepted, and no element has more than [F] children. *)
  Fixpoint narrow (F : nat) (c : icontent) : bool :=
    match c with
    | ICElem t ats cs =>
        match b_create_element valid_elem valid_attr t ats with Some _ => true | None => false end &&
        Nat.leb (length cs) F && forallb (narrow F) cs
    | _ => true
    end.

  Lemma create_le F c : forall (a a' : arena dnode) n, wf a -> narrow F c = true -> create a c = Val (a', n) ->
    forall j, length (children a' j) <= if Nat.ltb j (length a) then length (children a j) else F.
  Proof.
    assert (forall (a : arena dnode) d a' n, wf a -> new_node a d = (a', n) ->
      forall j, length (children a' j) <= if Nat.ltb j (length a) then length (children a j) else F) as N0.
    { intros a d a' n W E j. assert (a' = fst (new_node a d)) as -> by (by rewrite E). rewrite children_new.
      destruct (Nat.ltb_spec j (length a)); [done|]. rewrite children_ge by done. cbn. lia. }
    induction c as [s|s|t ats cs IH] using icontent_ind'; intros a a' n W HN; cbn [b_create].
    1,2: intros E; injection E as <- <-; eapply (N0 a _ _ (length a) W); reflexivity.
    cbn [narrow] in HN. apply andb_true_iff in HN as [HN HN3]. apply andb_true_iff in HN as [HN1 HN2].
    destruct (b_create_element valid_elem valid_attr t ats) as [d|]; [|done]. apply Nat.leb_le in HN2. rewrite forallb_forall in HN3.
    change (new_node a d) with (fst (new_node a d), length a). cbn iota.
    pose proof (wf_new a d W) as W1. pose proof (length_new a d) as L1. pose proof (children_new a d) as C1.
    set (a1 := fst (new_node a d)) in *. clearbody a1.
    match goal with |- obind (?f a1 cs) _ = _ -> _ => set (go := f) end.
    assert (G : forall l a2 a3, (forall c, c ∈ l -> c ∈ cs) -> wf a2 -> length a < length a2 -> go a2 l = Val a3 ->
      forall j, length (children a3 j) <= (if Nat.ltb j (length a2) then length (children a2 j) else F) + (if Nat.eqb j (length a) then length l else 0)).
    { induction l as [|c l IHl]; intros a2 a3 Hl W2 L2.
      - intros [= <-] j. destruct (Nat.ltb_spec j (length a2)); [lia|]. rewrite children_ge by done. cbn. lia.
      - change ((let! (a', i) := create a2 c in let! a'' := dom_append a' (length a) i in go a'' l) = Val a3 ->
          forall j, length (children a3 j) <= (if Nat.ltb j (length a2) then length (children a2 j) else F) + (if Nat.eqb j (length a) then S (length l) else 0)).
        destruct (create a2 c) as [[b i]| | |] eqn:Ec; try done. cbn [obind].
        assert (c ∈ cs) as Hc by (apply Hl; left).
        destruct (b_create_any valid_elem valid_attr parse_template c a2 W2) as [_ M3]. destruct (M3 b i Ec) as (W3 & L3 & Hi).
        pose proof (IH c Hc a2 b i W2 (HN3 c (proj1 (elem_of_list_In _ _) Hc)) Ec) as B1.
        destruct (dom_append b (length a) i) as [b2| | |] eqn:Ea; try done. cbn [obind]. intros Eg j.
        destruct (dom_append_any b (length a) i W3) as [_ M4]; [lia|done|]. destruct (M4 b2 Ea) as [W4 L4].
        assert (length (children b2 j) <= length (children b j) + (if Nat.eqb j (length a) then 1 else 0)) as B2.
        { unfold dom_append in Ea. destruct (append b (length a) i) as [b3| | |] eqn:E3; try done. injection Ea as <-. by apply (append_le _ _ _ _ j E3). }
        assert (length b2 = length b) as L5.
        { unfold dom_append in Ea. destruct (append b (length a) i) as [b3| | |] eqn:E3; try done. injection Ea as <-. by apply append_len in E3. }
        pose proof (IHl b2 a3 (fun c' Hc' => Hl c' (elem_of_list_further _ _ _ Hc')) W4 ltac:(lia) Eg j) as B3.
        specialize (B1 j). destruct (Nat.eqb_spec j (length a)) as [->|Hj].
        + destruct (Nat.ltb_spec (length a) (length b2)); [|lia]. destruct (Nat.ltb_spec (length a) (length a2)); lia.
        + destruct (Nat.ltb_spec j (length b2)); [|destruct (Nat.ltb_spec j (length a2)); lia]. destruct (Nat.ltb_spec j (length a2)); lia. }
    destruct (go a1 cs) as [a2| | |] eqn:Eg; try done. cbn [obind]. intros [= <- <-] j.
    pose proof (G cs a1 a2 (fun c Hc => Hc) W1 ltac:(lia) Eg j) as B. rewrite C1 in B.
    destruct (Nat.eqb_spec j (length a)) as [Hj|Hj]; [subst j|].
    - rewrite Nat.ltb_irrefl. rewrite (children_ge a (length a)) in B by done. cbn [length] in B.
      destruct (Nat.ltb_spec (length a) (length a1)); lia.
    - destruct (Nat.ltb_spec j (length a)); destruct (Nat.ltb_spec j (length a1)); lia.
  Qed.

  Lemma create_within F c a a' n : wf a -> narrow F c = true -> create a c = Val (a', n) -> within F a a'.
  Proof.
    intros W HN E j. pose proof (create_le F c a a' n W HN E j) as B. destruct (Nat.ltb_spec j (length a)); lia.
  Qed.

  Lemma put_within a sl p n pos slot : wf a -> p < length a -> n < length a ->
    within (S pos) a (fst (fst (b_insert_at_position a sl p n pos slot))).
  Proof.
    intros W Hp Hn. unfold b_insert_at_position. destruct (children a p !! pos) as [e|] eqn:Ee.
    - apply elem_of_list_lookup_2 in Ee. apply (wf_pc _ W) in Ee as He.
      destruct (replace_child a p n e) as [a1| | |] eqn:Er; try (by apply within_refl).
      intros j. cbn [fst]. pose proof (replace_child_le a p n e a1 W Hn He Er j). lia.
    - destruct (fill_gaps_full (text_node "") (pos - length (children a p)) a p W Hp) as (a1 & E1 & Fl). rewrite E1.
      assert (forall j, length (children a1 j) <= Nat.max (length (children a j)) (if Nat.eqb j p then pos else 0)) as B1.
      { intros j. rewrite (fl_children _ _ _ _ _ Fl). destruct (Nat.eqb_spec j p) as [->|]; [|lia].
        rewrite app_length, seq_length. apply lookup_ge_None in Ee. lia. }
      unfold dom_append. destruct (append a1 p n) as [a2| | |] eqn:E2; cbn [plift fst]; intros j; specialize (B1 j).
      + pose proof (append_le _ _ _ _ j E2) as B2. apply lookup_ge_None in Ee. destruct (Nat.eqb_spec j p) as [Hj|Hj]; [subst j|]; lia.
      + destruct (Nat.eqb j p); lia.
      + destruct (Nat.eqb j p); lia.
      + destruct (Nat.eqb j p); lia.
  Qed.

  (** The numbers of children that patch [p] can produce. *)
  Definition roomy (F : nat) (p : patch) : Prop :=
    match p with
    | PInsertElement at_ t ats cs _ => List.last at_ 0 < F /\ narrow F (ICElem t ats cs) = true
    | PInsertText at_ _ _ | PInsertComment at_ _ _ | PMove _ at_ _ => List.last at_ 0 < F
    | PSetText _ _ | PUpdateProps _ _ => 1 <= F
    | _ => True
    end.

  Section Root.
    Variable root : nat.
    Notation bap := (b_apply_patch valid_elem valid_attr parse_template root).

    Lemma with_within F a sl q f : wf a -> slots_ok a sl -> root < length a ->
      (forall n, n < length a -> within F a (fst (fst (f n)))) -> within F a (fst (fst (with_found root (a, sl) q f))).
    Proof.
      intros W S Hr Hf. unfold with_found. cbn [fst snd]. destruct (find_any root a sl q W S Hr) as [_ Hl].
      destruct (find_node root a sl q) as [n| | |]; try (by apply within_refl). by apply Hf, Hl.
    Qed.

    Lemma lift_within F a sl o : (forall a', o = Val a' -> within F a a') -> within F a (fst (fst (plift (a, sl) o))).
    Proof. intros Ho. destruct o as [a1| | |]; try (by apply within_refl). by apply Ho. Qed.

    Lemma insert_within F a sl at_ slot make : wf a -> slots_ok a sl -> root < length a -> made a (make a) ->
      (forall a' n, make a = Val (a', n) -> within F a a') -> List.last at_ 0 < F ->
      within F a (fst (fst (b_insert root (a, sl) at_ slot make))).
    Proof.
      intros W S Hr [_ Hm] Hw HF. unfold b_insert. destruct (Nat.ltb _ 2); [by apply within_refl|].
      apply with_within; [done|done|done|]. intros p Hp. cbn [fst snd].
      destruct (node_kind a p) as [[| | |]|]; try (by apply within_refl).
      destruct (make a) as [[a1 n]| | |]; try (by apply within_refl).
      destruct (Hm a1 n eq_refl) as (W1 & L1 & Hn). eapply within_trans; [by eapply Hw|].
      eapply within_le; [apply put_within; [done|lia|done]|lia].
    Qed.

    Lemma new_within F (a : arena dnode) d a' n : new_node a d = (a', n) -> within F a a'.
    Proof. intros E j. assert (a' = fst (new_node a d)) as -> by (by rewrite E). rewrite children_new. lia. Qed.

    Lemma apply_within F a sl p : st_ok (a, sl) -> root < length a -> roomy F p -> within F a (fst (fst (bap (a, sl) p))).
    Proof.
      intros [W S] Hr HR. cbn in W, S.
      destruct p as [at_ tag ats cs slot|at_ s slot|at_ s slot|q|q s|q nm v|q nm|from to slot|q changes|q s];
        cbn [b_apply_patch roomy] in *.
      - destruct HR as [HR1 HR2]. apply insert_within; [done|done|done|by apply b_create_any| |done].
        intros a' n E. by eapply create_within.
      - apply insert_within; [done|done|done|by apply made_new| |done]. intros a' n E. injection E as <- <-. eapply (new_within F a _ _ (length a)). reflexivity.
      - apply insert_within; [done|done|done|by apply made_new| |done]. intros a' n E. injection E as <- <-. eapply (new_within F a _ _ (length a)). reflexivity.
      - destruct q as [|k rel]; [by apply within_refl|]. destruct (negb _ && _); [by apply within_refl|].
        apply with_within; [done|done|done|]. intros n Hn. apply lift_within. intros a' E j. pose proof (vacate_le a n a' W Hn E j). lia.
      - apply with_within; [done|done|done|]. intros n Hn. apply lift_within. intros a' E. eapply within_le; [by eapply set_text_le|done].
      - apply with_within; [done|done|done|]. intros n Hn. destruct (data a n) as [[[] ns]|]; try (by apply within_refl).
        destruct (b_set_attr _ _ _ _ _); [|by apply within_refl]. intros j. cbn [fst]. rewrite children_set_kind. lia.
      - apply with_within; [done|done|done|]. intros n Hn. destruct (data a n) as [[[] ns]|]; try (by apply within_refl).
        intros j. cbn [fst]. rewrite children_set_kind. lia.
      - match goal with |- context [match ?t with Val _ => _ | Fail _ => _ | Panic => _ | Diverge => _ end] => set (taken := t) end.
        assert (T : forall a1 sl1 n, taken = Val (a1, sl1, n) ->
          st_ok (a1, sl1) /\ length a <= length a1 /\ n < length a1 /\ within F a a1).
        { assert (T : forall a1 sl1 n, (let! n := find_node root a sl from in let! a1 := vacate a n in Val (a1, sl, n)) = Val (a1, sl1, n) ->
              st_ok (a1, sl1) /\ length a <= length a1 /\ n < length a1 /\ within F a a1).
          { destruct (find_any root a sl from W S Hr) as [_ Hl].
            destruct (find_node root a sl from) as [n| | |]; try done. cbn [obind].
            destruct (vacate_any a n W (Hl n eq_refl)) as [_ Ho]. pose proof (Hl n eq_refl) as Hn.
            destruct (vacate a n) as [a1| | |] eqn:Ev; try done. cbn [obind]. destruct (Ho a1 eq_refl) as [W1 L1].
            intros a2 sl1 n' [= <- <- <-]. split; [split; [done|by apply (slots_ok_mono a)]|]. split; [done|]. split; [lia|].
            intros j. pose proof (vacate_le a n a1 W Hn Ev j). lia. }
          subst taken. destruct from as [|k [|k' from]]; [exact T| |exact T].
          destruct (slot_get sl k) as [v|] eqn:E; [|done].
          intros a1 sl1 n [= <- <- <-]. split; [|split; [done|split; [by apply (S k)|by apply within_refl]]].
          split; [done|]. intros j x Hj. apply (S j). by apply take_get in Hj. }
        clearbody taken. destruct taken as [[[a1 sl1] n]| | |]; try (by apply within_refl).
        destruct (T a1 sl1 n eq_refl) as ([W1 S1] & L1 & Hn & HW). eapply within_trans; [exact HW|].
        destruct (Nat.ltb _ 2); [by apply within_refl|]. apply with_within; [done|done|lia|]. intros p Hlt.
        destruct (node_kind a1 p) as [[| | |]|]; try (by apply within_refl).
        eapply within_le; [by apply put_within|lia].
      - apply with_within; [done|done|done|]. intros n Hn.
        match goal with |- context [match ?t with Val _ => _ | Fail _ => _ | Panic => _ | Diverge => _ end] => set (texted := t) end.
        assert (T : forall a1, texted = Val a1 -> within F a a1).
        { subst texted. destruct (find _ changes) as [c|]; [|intros a1 [= <-]; apply within_refl].
          destruct (pc_value c); [|intros a1 [= <-]; apply within_refl].
          intros a1 E. eapply within_le; [by eapply set_text_le|done]. }
        clearbody texted. destruct texted as [a1| | |]; try (by apply within_refl). specialize (T a1 eq_refl).
        destruct (data a1 n) as [[[] ns]|]; try exact T.
        destruct (b_set_changes _ _ _ _ _) as [l' ok]. cbn [fst]. intros j. rewrite children_set_kind. apply T.
      - apply with_within; [done|done|done|]. intros n Hn. destruct (node_kind a n) as [[| | |]|]; by apply within_refl.
    Qed.

    Lemma apply_all_within F ps : forall a sl, st_ok (a, sl) -> root < length a -> (forall p, p ∈ ps -> roomy F p) ->
      within F a (fst (fst (b_apply_all valid_elem valid_attr parse_template root (a, sl) ps))).
    Proof.
      induction ps as [|p ps IH]; intros a sl O Hr Hps; [by apply within_refl|]. cbn [b_apply_all].
      assert (p = PRemove [] \/ p <> PRemove []) as [->|Hp1]; [|cbn [b_apply_patch]; apply within_refl|].
      { destruct p as [| | |q| | | | | |]; try (by right). destruct q; [by left|by right]. }
      pose proof (Hps p (elem_of_list_here _ _)) as Hp2.
      pose proof (b_apply_any valid_elem valid_attr parse_template root a sl p O Hr Hp1) as G.
      pose proof (apply_within F a sl p O Hr Hp2) as B.
      destruct (bap (a, sl) p) as [[a1 sl1] o]. destruct G as (G1 & G2 & G3). cbn [fst snd] in *.
      destruct o as [[]| | |]; try done.
      eapply within_trans; [exact B|]. apply IH; [done|lia|]. intros p' Hp'. apply Hps. by right.
    Qed.
  End Root.
End Operations.

(** ** Where the patches of a diff insert *)

Definition op_at (op : hop) (p : patch) : Prop :=
  match op, p with
  | Insert _ _ k _, (PInsertElement q _ _ _ _ | PInsertText q _ _ | PInsertComment q _ _) => List.last q 0 = k
  | Insert _ _ _ _, _ => False
  | Move _ _ _ k, PMove _ q _ => List.last q 0 = k
  | Move _ _ _ _, _ => False
  | _, (PInsertElement _ _ _ _ _ | PInsertText _ _ _ | PInsertComment _ _ _ | PMove _ _ _) => False
  | _, _ => True
  end.

Lemma ref_last s p pos q : ref_with_position s p pos = Val q -> List.last q 0 = pos.
Proof.
  unfold ref_with_position. destruct (compute_path s p) as [r| | |]; cbn [obind]; try done. intros [= <-]. by rewrite last_last.
Qed.

Section Places.
  Context {H : Type}.
  Variable tb : dtree H hkind attrs string.

  Lemma convert_op_at ins s op s' : convert_op tb ins s op = Val s' ->
    exists ps p, cs_out s' = (cs_out s ++ ps ++ [p])%list /\ op_at op p.
  Proof.
    destruct op as [x y ch|y py k kd|x|x y py k|x y s0]; cbn [convert_op].
    - destruct (compute_path _ _) as [p| | |]; cbn [obind]; try done. intros [= <-]. by exists [], (PUpdateProps p ch).
    - destruct (shadow_parent s py) as [sp| | |]; cbn [obind]; try done. destruct (new_node _ _) as [a1 n].
      destruct (sh_insert _ _ _ _) as [[sh1 slot]| | |]; cbn [obind]; try done.
      destruct (ref_with_position _ _ _) as [at_| | |] eqn:Er; cbn [obind]; try done. apply ref_last in Er.
      destruct kd as [tag ns| |]; [|intros [= <-]; eexists [], _; done|intros [= <-]; eexists [], _; done].
      destruct (extract_children _ _ _ _) as [cs| | |]; cbn [obind]; try done. intros [= <-]. eexists [], _. done.
    - destruct (compute_path _ _) as [p| | |]; cbn [obind]; try done. destruct (detach_with_placeholder _ _) as [sh1| | |]; cbn [obind]; try done.
      intros [= <-]. by exists [], (PRemove p).
    - destruct (shadow_parent s py) as [sp| | |]; cbn [obind]; try done.
      destruct (sh_is_ancestor _ _ _) as [anc| | |]; cbn [obind]; try done.
      match goal with |- context [obind ?e _] => destruct e as [s1| | |] eqn:E1 end; cbn [obind]; try done.
      assert (exists ps, cs_out s1 = (cs_out s ++ ps)%list) as (ps & E).
      { destruct anc; [|injection E1 as <-; exists []; by rewrite app_nil_r].
        destruct (oget (parent (sh_arena (cs_shadow s)) x)) as [par| | |]; cbn [obind] in E1; try done. by eapply reparent_out. }
      destruct (compute_path _ _) as [from| | |]; cbn [obind]; try done.
      destruct (sh_move _ _ _ _) as [[sh2 slot]| | |]; cbn [obind]; try done.
      destruct (ref_with_position _ _ _) as [to| | |] eqn:Er; cbn [obind]; try done. apply ref_last in Er.
      intros [= <-]. cbn [cs_out]. rewrite E, <- app_assoc. eexists ps, _. done.
    - destruct (compute_path _ _) as [p| | |]; cbn [obind]; try done. intros [= <-]. by exists [], (PSetText p s0).
  Qed.

  Lemma convert_at ins ops : forall s s', convert_loop tb ins s ops = Val s' ->
    exists ps, cs_out s' = (cs_out s ++ ps)%list /\ length ops <= length ps /\
      (length ps = length ops -> Forall2 op_at ops ps).
  Proof.
    induction ops as [|op ops IH]; intros s s'; cbn [convert_loop].
    - intros [= <-]. exists []. rewrite app_nil_r. split; [done|]. split; [done|]. intros _. constructor.
    - destruct (convert_op tb ins s op) as [s1| | |] eqn:E1; cbn [obind]; try done.
      intros Hl. apply convert_op_at in E1 as (p1 & p & E1 & Hp). apply IH in Hl as (ps & E2 & L & F).
      exists (p1 ++ p :: ps)%list. split; [by rewrite E2, E1, <- !app_assoc|]. rewrite app_length. cbn [length]. split; [lia|].
      intros EL. assert (p1 = []) as -> by (destruct p1; [done|cbn [length] in EL; lia]). cbn [app]. constructor; [done|]. apply F. cbn [length] in EL. lia.
  Qed.
End Places.

(** Positions in the edit script are positions of the new tree. *)
Lemma script_places {H} hcomb h0 (ta tb : dtree H hkind attrs string) m a nb F : wf a -> fan a F ->
  mk_dtree hcomb h0 tdata_of a nb = Val tb ->
  Forall (fun op : hop => match op with Insert _ _ k _ | Move _ _ _ k => k < F | _ => True end) (html_edit_script ta tb m).
Proof.
  intros W HF Etb. destruct (mk_dtree_fields _ _ _ _ _ _ Etb) as (_ & _ & _ & _ & FP & _ & FO & _ & _).
  assert (forall b p, t_parent tb b = Some p -> t_position tb b < F) as HP.
  { intros b p Hp. rewrite FP in Hp. rewrite FO. pose proof (HF p). pose proof (position_lt a b p W Hp). lia. }
  apply Forall_forall. intros op Hs.
  apply in_script in Hs as [(z & _ & Hz)|[(z & _ & Hz)|[(z & _ & Hz)|(z & _ & Hz)]]].
  - by apply in_ph1 in Hz as (x & b & -> & _ & _ & [[? ->]|[? ->]]).
  - apply in_ph2 in Hz as (_ & _ & p & Hp & ->). by eapply HP.
  - apply in_ph4 in Hz as (x & b & pa & pb & -> & _ & _ & _ & Hp & -> & _). by eapply HP.
  - by apply in_ph5 in Hz as (_ & _ & ->).
Qed.

Lemma piece_narrow ve va a b F : fan a F ->
  (forall i t l, inside a b i -> node_kind a i = Some (NElem t l) -> b_okn ve va t l) ->
  forall c i, inside a b i -> piece a i c -> narrow ve va F c = true.
Proof.
  intros HF HN. induction c as [s|s|t l cs IH] using icontent_ind'; intros i Hi Hp; try done.
  inversion Hp as [| |? ? ? js ? Hk Hs Hc]; subst. cbn [narrow]. rewrite (b_create_ok ve va t l (HN i t l Hi Hk)). cbn [andb].
  apply andb_true_iff. split.
  - apply Nat.leb_le. rewrite <- (Forall2_length _ _ _ Hc). apply sublist_length in Hs. specialize (HF i). lia.
  - apply forallb_forall. intros c Hin. apply elem_of_list_In in Hin. apply elem_of_list_lookup in Hin as (k & Hk').
    destruct (Forall2_lookup_r _ _ _ _ _ Hc Hk') as (j & Hj & Hpc).
    eapply (IH c); [by eapply elem_of_list_lookup_2| |exact Hpc]. eapply inside_child; [exact Hi|].
    eapply elem_of_submseteq; [by eapply elem_of_list_lookup_2|]. by apply sublist_submseteq.
Qed.

Lemma names_inside ve va (d : document) nb nats us : plain_doc d nb nats us -> b_okn ve va "body" nats ->
  (forall h, h ∈ us -> names_ok ve va h) ->
  forall i t l, inside (doc_arena d) nb i -> node_kind (doc_arena d) i = Some (NElem t l) -> b_okn ve va t l.
Proof.
  intros PD OKB OKN.
  assert (forall i, inside (doc_arena d) nb i -> i = nb \/ exists h, holds (doc_arena d) h i /\ names_ok ve va h) as HI.
  { intros i Hi. induction Hi as [|i c Hi IH Hc]; [by left|]. right.
    apply elem_of_list_lookup in Hc as (k & Hk). destruct IH as [->|(h & Hh & Hn)].
    - destruct (Forall2_lookup_r _ _ _ _ _ (pd_holds _ _ _ _ PD) Hk) as (h & Hin & Hx). exists h. split; [done|].
      apply OKN. by eapply elem_of_list_lookup_2.
    - destruct h as [tag ns ats cs|s|s].
      + apply holds_elem in Hh as [_ Hh]. destruct (Forall2_lookup_r _ _ _ _ _ Hh Hk) as (h & Hin & Hx). exists h. split; [done|].
        apply elem_of_list_lookup_2 in Hin. clear - Hn Hin. cbn [names_ok] in Hn. destruct Hn as [_ Hn].
        induction cs as [|c cs IH]; [by apply elem_of_nil in Hin|]. destruct Hn as [H1 H2]. apply elem_of_cons in Hin as [->|Hin]; auto.
      + destruct Hh as [_ Hh]. rewrite Hh in Hk. done.
      + destruct Hh as [_ Hh]. rewrite Hh in Hk. done. }
  intros i t l Hi Hk. destruct (HI i Hi) as [->|(h & Hh & Hn)].
  - pose proof (pd_data _ _ _ _ PD) as E. unfold node_kind in Hk. rewrite E in Hk. injection Hk as <- <-. done.
  - destruct h as [tag ns ats cs|s|s]; cbn [names_ok] in Hn.
    + apply holds_elem in Hh as [E _]. unfold node_kind in Hk. rewrite E in Hk. injection Hk as <- <-. apply Hn.
    + destruct Hh as [E _]. by rewrite E in Hk.
    + destruct Hh as [E _]. by rewrite E in Hk.
Qed.

Section Diff.
  Context {H : Type}.
  Variables (heqb : H -> H -> bool) (hcomb : hkind -> option string -> list H -> H) (h0 : H).

  Lemma diff_roomy ve va old new ob nb oats nats ts us t ta tb m F ps :
    plain_doc old ob oats ts -> plain_doc new nb nats us -> compared heqb hcomb h0 old new t ta tb m ->
    no_collision heqb ta tb -> (forall h, h ∈ us -> names_ok ve va h) -> b_okn ve va "body" nats ->
    fan (doc_arena new) F -> diff heqb hcomb h0 old new = Val ps -> length ps = length (html_edit_script ta tb m) ->
    forall p, p ∈ ps -> roomy ve va F p.
  Proof.
    intros PO PN CM NC OKN OKB HF Ed EL.
    assert (Forall (drawn_from (doc_arena new) nb) ps) as HD.
    { eapply (patches_from_new_page heqb hcomb h0 old new nb ps); [|apply PN|done].
      intros b Eb. rewrite (pd_body _ _ _ _ PN) in Eb. injection Eb as <-. exists us. apply PN. }
    assert (1 <= F) as H1.
    { pose proof (pd_body _ _ _ _ PN) as Eb. unfold body, body_in in Eb. apply find_some in Eb as [Eb _].
      specialize (HF (doc_root new)). destruct (children (doc_arena new) (doc_root new)); [done|cbn [length] in HF; lia]. }
    pose proof (plain_silent heqb hcomb h0 old new ob nb oats nats ts us t ta tb m PO PN CM NC) as SI.
    destruct CM as (ob' & nb' & Eo & En & Et & Ea & Eb & EM).
    unfold diff in Ed. rewrite Eo, En in Ed. unfold diff_bodies in Ed. rewrite Et in Ed. cbn [obind] in Ed. rewrite Ea in Ed. cbn [obind] in Ed.
    rewrite Eb in Ed. cbn [obind] in Ed. rewrite EM in Ed. cbn [obind] in Ed. rewrite (opaque_contents_none heqb new ta tb (m_pairs m)) in Ed by done.
    cbn [obind] in Ed. unfold convert_ops in Ed. destruct (shadow_new t 0) as [sh| | |]; cbn [obind] in Ed; try done.
    destruct (convert_loop _ _ _ _) as [s'| | |] eqn:EC; cbn [obind] in Ed; try done. injection Ed as Ed.
    apply convert_at in EC as (ps' & E1 & _ & FA). cbn [cs_out app] in E1. rewrite Ed in E1. subst ps'. specialize (FA EL).
    pose proof (script_places hcomb h0 ta tb m (doc_arena new) nb' F (pd_wf _ _ _ _ PN) HF Eb) as SP.
    pose proof (names_inside ve va new nb nats us PN OKB OKN) as NI.
    intros p Hp. rewrite Forall_forall in HD. specialize (HD p Hp). rewrite Forall_forall in SP.
    apply elem_of_list_lookup in Hp as (k & Hk). destruct (Forall2_lookup_r _ _ _ _ _ FA Hk) as (op & Hop & Hat).
    apply elem_of_list_lookup_2 in Hop. specialize (SP op Hop).
    destruct p as [q tag l cs o|q s o|q s o|q|q s|q n v|q n|q q' o|q ch|q s]; cbn [roomy]; try done.
    - destruct op; try done. cbn [op_at] in Hat. split; [lia|]. destruct HD as (i & Hi & Hpc).
      by eapply (piece_narrow ve va (doc_arena new) nb F HF NI).
    - destruct op; try done. cbn [op_at] in Hat. lia.
    - destruct op; try done. cbn [op_at] in Hat. lia.
    - destruct op; try done. cbn [op_at] in Hat. lia.
  Qed.
End Diff.
