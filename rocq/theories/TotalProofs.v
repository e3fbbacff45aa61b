(** The matching always terminates within the fuel that the model gives it. *)
From stdpp Require Import list_numbers.
From Verif Require Import Base Arena Matching HtmlDiff ArenaProofs MatchProofs TreeProofs DtreeProofs.

Section Total.
  Context {H K P T : Type}.
  Variable heqb : H -> H -> bool.
  Variable keqb : K -> K -> bool.
  Variable sim : P -> P -> ratio.
  Variable cfg : config.
  Variables ta tb : dtree H K P T.
  Variable ra : rose.
  Hypothesis PA : presents ta ra.

  Lemma match_subtrees_total r : subt r ra -> forall f b m, rheight r < f ->
    exists m', match_subtrees ta tb f (rid r) b m = Some m'.
  Proof.
    induction r as [i rs IH] using rose_ind'. intros Hs f b m Hf. cbn [rid].
    destruct f as [|f]; [lia|]. cbn [match_subtrees].
    destruct (contains_a m i || contains_b m b); [by eauto|].
    destruct (t_opaque ta i || t_opaque tb b); [by eauto|].
    pose proof (pr_children ta ra PA _ Hs) as Hc. cbn [rid rsub] in Hc. rewrite Hc.
    assert (forall x y, (x, y) ∈ combine (map rid rs) (t_children tb b) ->
              exists u, u ∈ rs /\ rid u = x) as Hin.
    { intros x y Hxy. apply elem_of_list_In, in_combine_l in Hxy. apply elem_of_list_In in Hxy.
      apply elem_of_list_fmap in Hxy as (u & -> & Hu). eauto. }
    revert Hin. generalize (combine (map rid rs) (t_children tb b)) (m_add m i b).
    intros l. induction l as [|[x y] l IHl]; intros m1 Hin; [by eauto|].
    destruct (Hin x y) as (u & Hu & <-); [by left|].
    destruct (IH u Hu) with (f := f) (b := y) (m := m1) as [m' ->].
    { eapply subt_trans; [|exact Hs]. by apply subt_child. }
    { pose proof (rheight_child (Rose i rs) u Hu). lia. }
    apply IHl. intros x' y' Hxy. apply (Hin x' y'). by right.
  Qed.

  Lemma pair_weight_stable r : subt r ra -> forall f g b, rheight r <= f -> rheight r <= g ->
    pair_weight ta tb f (rid r) b = pair_weight ta tb g (rid r) b.
  Proof.
    induction r as [i rs IH] using rose_ind'. intros Hs f g b Hf Hg.
    pose proof (pr_children ta ra PA _ Hs) as Hc. cbn [rid rsub] in *.
    assert (forall u, u ∈ rs -> subt u ra) as Hsub.
    { intros u Hu. eapply subt_trans; [|exact Hs]. by apply subt_child. }
    pose proof (rheight_child (Rose i rs)) as Hh. cbn [rsub] in Hh.
    assert (rs = [] \/ (f <> 0 /\ g <> 0)) as Hd.
    { destruct rs as [|u rs]; [by left|right]. specialize (Hh u ltac:(left)). lia. }
    destruct Hd as [->|[Hf0 Hg0]].
    { destruct f, g; cbn [pair_weight]; rewrite ?Hc; done. }
    destruct f as [|f]; [done|]. destruct g as [|g]; [done|]. cbn [pair_weight]. rewrite Hc. do 2 f_equal.
    assert (forall u, u ∈ rs -> forall y, pair_weight ta tb f (rid u) y = pair_weight ta tb g (rid u) y) as HE.
    { intros u Hu y. specialize (Hh u Hu). apply IH; [done|by apply Hsub|lia|lia]. }
    clear - HE. induction rs as [|u rs IHr]; [done|]. cbn [map flat_map].
    rewrite IHr by (intros v Hv; apply HE; by right). f_equal.
    apply map_ext. intros y. apply HE. left.
  Qed.

  Definition weight (p : nat * nat) : nat := pair_weight ta tb (length (t_iter ta)) (fst p) (snd p).

  Lemma list_sum_app l k : list_sum (l ++ k) = list_sum l + list_sum k.
  Proof. unfold list_sum. induction l as [|x l IH]; cbn [fold_right app]; [done|]. rewrite IH. lia. Qed.

  Lemma list_sum_rev l : list_sum (rev l) = list_sum l.
  Proof.
    induction l as [|x l IH]; [done|]. cbn [rev]. rewrite list_sum_app, IH. unfold list_sum. cbn [fold_right]. lia.
  Qed.

  Lemma weight_eq r b : subt r ra ->
    weight (rid r, b) = S (list_sum (flat_map (fun x => map (fun y => weight (x, y)) (t_children tb b))
                                      (t_children ta (rid r)))).
  Proof.
    intros Hs. unfold weight at 1. cbn [fst snd].
    assert (rheight r < length (t_iter ta)) as Hlt.
    { rewrite (pr_iter ta ra PA). eapply Nat.le_lt_trans; [|apply rheight_lt_size].
      clear - Hs. induction Hs as [|s t u Hs IH Hu]; [lia|]. pose proof (rheight_child u t Hu). lia. }
    rewrite (pair_weight_stable r Hs _ (S (length (t_iter ta)))) by lia.
    cbn [pair_weight]. done.
  Qed.

  Lemma td_push_weight m a b :
    list_sum (map weight (td_push heqb keqb ta tb m a b)) <=
    list_sum (flat_map (fun x => map (fun y => weight (x, y)) (t_children tb b)) (t_children ta a)).
  Proof.
    unfold td_push. generalize (t_children ta a). intros la.
    induction la as [|x la IH]; cbn [flat_map map]; [done|].
    rewrite map_app, !list_sum_app. apply Nat.add_le_mono; [|done].
    clear IH. generalize (t_children tb b). intros lb.
    induction lb as [|y lb IH]; cbn [flat_map map]; [done|].
    rewrite map_app, list_sum_app. destruct (_ && _); cbn [map list_sum fold_right]; unfold list_sum in *; cbn [fold_right]; lia.
  Qed.

  Lemma td_loop_total : forall fuel sub st m,
    length (t_iter ta) < sub ->
    (forall x y, (x, y) ∈ st -> exists r, subt r ra /\ rid r = x) ->
    list_sum (map weight st) <= fuel ->
    exists m', td_loop heqb keqb cfg ta tb fuel sub st m = Some m'.
  Proof.
    induction fuel as [|fuel IH]; intros sub st m Hsub Hst Hw.
    - destruct st as [|[a b] st]; [by eexists|]. exfalso.
      destruct (Hst a b) as (r & Hr & <-); [left|]. cbn [map list_sum fold_right] in Hw.
      unfold list_sum in Hw. cbn [fold_right] in Hw. rewrite weight_eq in Hw by done. lia.
    - destruct st as [|[a b] st]; [by eexists|]. cbn [td_loop].
      destruct (Hst a b) as (r & Hr & <-); [left|].
      assert (list_sum (map weight ((rid r, b) :: st)) = weight (rid r, b) + list_sum (map weight st)) as Es by done.
      rewrite Es in Hw. rewrite weight_eq in Hw by done.
      assert (forall x y, (x, y) ∈ st -> exists r, subt r ra /\ rid r = x) as Hst'.
      { intros x y Hxy. apply (Hst x y). by right. }
      assert (forall m, exists m', td_loop heqb keqb cfg ta tb fuel sub st m = Some m') as Hpop.
      { intros m'. apply IH; [done|done|lia]. }
      destruct (contains_a m (rid r) || contains_b m b); [apply Hpop|].
      destruct (Nat.ltb _ _); [apply Hpop|].
      destruct (heqb _ _ && keqb _ _).
      { destruct (match_subtrees_total r Hr sub b m) as [m' ->]; [|apply Hpop].
        eapply Nat.lt_trans; [|exact Hsub]. rewrite (pr_iter ta ra PA).
        eapply Nat.le_lt_trans; [|apply rheight_lt_size].
        clear - Hr. induction Hr as [|s t u Hs IH Hu]; [lia|]. pose proof (rheight_child u t Hu). lia. }
      destruct (t_opaque ta (rid r) || t_opaque tb b).
      { destruct (keqb _ _); apply Hpop. }
      apply IH; [done| |].
      + intros x y Hxy. apply elem_of_app in Hxy as [Hxy|Hxy]; [|by apply (Hst' x y)].
        apply elem_of_list_In, in_rev, elem_of_list_In in Hxy. unfold td_push in Hxy.
        apply elem_flat_map in Hxy as (x' & Hx' & Hxy). apply elem_flat_map in Hxy as (y' & _ & Hxy).
        destruct (_ && _); [|by apply elem_of_nil in Hxy]. apply elem_of_list_singleton in Hxy as [= -> ->].
        rewrite (pr_children ta ra PA r Hr) in Hx'. apply elem_of_list_fmap in Hx' as (u & -> & Hu).
        exists u. split; [|done]. eapply subt_trans; [|exact Hr]. by apply subt_child.
      + rewrite map_app, list_sum_app, map_rev, list_sum_rev.
        pose proof (td_push_weight m (rid r) b). lia.
  Qed.

  Theorem compute_matching_total : exists m, compute_matching heqb keqb sim cfg ta tb = Val m.
  Proof.
    unfold compute_matching, top_down.
    destruct (td_loop_total (td_fuel ta tb) (S (length (t_iter ta))) [(t_root ta, t_root tb)] m_empty)
      as [m ->]; [lia| | |by eexists].
    - intros x y Hxy. apply elem_of_list_singleton in Hxy as [= -> ->]. exists ra.
      split; [constructor|]. symmetry. apply PA.
    - unfold td_fuel. cbn. unfold weight. cbn. lia.
  Qed.
End Total.
