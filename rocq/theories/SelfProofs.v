(** Diffing two trees with the same content (C10). *)
From stdpp Require Import list_numbers.
From Verif Require Import Base Arena Matching Chawathe Dom HtmlDiff
  AttrProofs MatchProofs ArenaProofs TreeProofs DtreeProofs DomTree BuildProofs HashProofs AssembleProofs
  ApplyProofs ShadowProofs SimProofs RoundProofs Instances DiffTotal.

(** ** Trees of one shape *)

Inductive alike (R : nat -> nat -> Prop) : rose -> rose -> Prop :=
| Alike i j rs rs' : R i j -> Forall2 (alike R) rs rs' -> alike R (Rose i rs) (Rose j rs').

Definition madds (m : matching) (l : list (nat * nat)) : matching :=
  fold_left (fun m p => m_add m (fst p) (snd p)) l m.

Lemma madds_app m l k : madds m (l ++ k) = madds (madds m l) k.
Proof. unfold madds. by rewrite fold_left_app. Qed.

Lemma madds_pairs l : forall m, m_pairs (madds m l) = m_pairs m ++ l.
Proof.
  induction l as [|[x y] l IH]; intros m; cbn; [by rewrite app_nil_r|].
  unfold madds in IH. rewrite IH. cbn. by rewrite <- app_assoc.
Qed.

Lemma madds_contains_a l x : forall m, contains_a (madds m l) x = true <-> contains_a m x = true \/ x ∈ map fst l.
Proof.
  induction l as [|[a b] l IH]; intros m; cbn.
  - split; [by left|]. intros [H|H]; [done|]. by apply elem_of_nil in H.
  - unfold madds in IH. rewrite IH. unfold contains_a at 1. rewrite get_b_add. rewrite elem_of_cons. cbn.
    destruct (Nat.eqb_spec a x) as [->|Hn]; [by naive_solver|]. unfold contains_a. naive_solver.
Qed.
Lemma madds_contains_b l x : forall m, contains_b (madds m l) x = true <-> contains_b m x = true \/ x ∈ map snd l.
Proof.
  induction l as [|[a b] l IH]; intros m; cbn.
  - split; [by left|]. intros [H|H]; [done|]. by apply elem_of_nil in H.
  - unfold madds in IH. rewrite IH. unfold contains_b at 1. rewrite get_a_add. rewrite elem_of_cons. cbn.
    destruct (Nat.eqb_spec b x) as [->|Hn]; [by naive_solver|]. unfold contains_b. naive_solver.
Qed.

Section Zip.
  Variable stop : nat -> bool.

  (** The pairs of nodes in the same place, not entering nodes that [stop]. *)
  Fixpoint zips (r r' : rose) {struct r} : list (nat * nat) :=
    match r, r' with
    | Rose i rs, Rose j rs' =>
        (i, j) :: if stop i then []
                  else (fix go (l l' : list rose) : list (nat * nat) :=
                          match l, l' with
                          | c :: l1, c' :: l1' => zips c c' ++ go l1 l1'
                          | _, _ => []
                          end) rs rs'
    end.
  Fixpoint zipl (l l' : list rose) : list (nat * nat) :=
    match l, l' with
    | c :: l1, c' :: l1' => zips c c' ++ zipl l1 l1'
    | _, _ => []
    end.
  Lemma zips_eq i j rs rs' : zips (Rose i rs) (Rose j rs') = (i, j) :: if stop i then [] else zipl rs rs'.
  Proof.
    done.
  Qed.

  Lemma zipl_elem l l' p : p ∈ zipl l l' -> exists k c c', l !! k = Some c /\ l' !! k = Some c' /\ p ∈ zips c c'.
  Proof.
    revert l'. induction l as [|c l IH]; intros [|c' l']; cbn [zipl]; try (intros H; by apply elem_of_nil in H).
    rewrite elem_of_app. intros [H|H]; [by exists 0, c, c'|]. destruct (IH _ H) as (k & d & d' & H1 & H2 & H3).
    by exists (S k), d, d'.
  Qed.
  Lemma zipl_in l l' k c c' p : l !! k = Some c -> l' !! k = Some c' -> p ∈ zips c c' -> p ∈ zipl l l'.
  Proof.
    revert l' k. induction l as [|d l IH]; intros [|d' l'] [|k]; cbn [zipl]; try done; intros H1 H2 H3;
      rewrite elem_of_app.
    - left. cbn in *. by injection H1 as ->; injection H2 as ->.
    - right. by eapply IH.
  Qed.

  Variable R : nat -> nat -> Prop.

  (** A zipped pair is the pair of roots or lies below another one. *)
  Lemma zips_subt r : forall r' x y, alike R r r' -> (x, y) ∈ zips r r' ->
    exists s s', subt s r /\ subt s' r' /\ alike R s s' /\ x = rid s /\ y = rid s' /\
      ((s = r /\ s' = r') \/
       exists u u' k, subt u r /\ subt u' r' /\ rsub u !! k = Some s /\ rsub u' !! k = Some s' /\
         (rid u, rid u') ∈ zips r r' /\ stop (rid u) = false).
  Proof.
    induction r as [i rs IH] using rose_ind'. intros r' x y HA Hin. inversion HA as [i' j rs0 rs' HR HF]; subst.
    rewrite zips_eq in Hin. apply elem_of_cons in Hin as [[= -> ->]|Hin].
    { exists (Rose i rs), (Rose j rs'). split_and!; try constructor; done. }
    destruct (stop i) eqn:Es; [by apply elem_of_nil in Hin|].
    apply zipl_elem in Hin as (k & c & c' & Hc & Hc' & Hin).
    assert (c ∈ rs) as Hci by by eapply elem_of_list_lookup_2.
    assert (c' ∈ rs') as Hci' by by eapply elem_of_list_lookup_2.
    pose proof (Forall2_lookup_lr _ _ _ _ _ _ HF Hc Hc') as HAc.
    destruct (IH c Hci c' x y HAc Hin) as (s & s' & H1 & H2 & H3 & -> & -> & H4).
    exists s, s'. split; [by eapply subt_step|]. split; [by eapply subt_step|]. split; [done|]. split; [done|].
    split; [done|]. right. destruct H4 as [[-> ->]|(u & u' & k' & U1 & U2 & U3 & U4 & U5 & U6)].
    - exists (Rose i rs), (Rose j rs'), k. split; [constructor|]. split; [constructor|]. split; [done|]. split; [done|].
      split; [|done]. rewrite zips_eq. left.
    - exists u, u', k'. split; [by eapply subt_step|]. split; [by eapply subt_step|]. split; [done|]. split; [done|].
      split; [|done]. rewrite zips_eq, Es. right. by eapply zipl_in.
  Qed.

  Lemma zips_all_a r : forall r' x, alike R r r' -> NoDup (preorder r) -> x ∈ preorder r ->
    x ∈ map fst (zips r r') \/ exists o, subt o r /\ stop (rid o) = true /\ x ∈ preorder o /\ x <> rid o.
  Proof.
    induction r as [i rs IH] using rose_ind'. intros r' x HA ND Hx. inversion HA as [i' j rs0 rs' HR HF]; subst.
    rewrite preorder_eq in Hx, ND. cbn [rid rsub] in Hx, ND. apply NoDup_cons in ND as [Hi ND].
    rewrite zips_eq. apply elem_of_cons in Hx as [->|Hx]; [left; left|].
    destruct (stop i) eqn:Es.
    { right. exists (Rose i rs). split; [constructor|]. split; [done|]. rewrite preorder_eq. cbn [rid rsub].
      split; [by right|]. intros ->. done. }
    apply elem_flat_map in Hx as (c & Hc & Hx). apply elem_of_list_lookup_1 in Hc as Hk. destruct Hk as [k Hk].
    destruct (Forall2_lookup_l _ _ _ _ _ HF Hk) as (c' & Hk' & HAc).
    destruct (IH c Hc c' x HAc) as [Hin|(o & O1 & O2)].
    { eapply (subt_nodup c (Rose i rs)); [rewrite preorder_eq; by apply NoDup_cons|by apply subt_child]. }
    { done. }
    - left. cbn [map]. right. apply elem_of_list_In, in_map_iff in Hin as ([x' y] & E & Hin). cbn in E. subst x'.
      apply elem_of_list_In, in_map_iff. exists (x, y). split; [done|]. apply elem_of_list_In.
      eapply zipl_in; [done|done|by apply elem_of_list_In].
    - right. exists o. split; [by eapply subt_step|done].
  Qed.

  Lemma zips_all_b r : forall r' x, alike R r r' -> NoDup (preorder r') -> x ∈ preorder r' ->
    x ∈ map snd (zips r r') \/ exists o o', subt o r /\ subt o' r' /\ R (rid o) (rid o') /\ (rid o, rid o') ∈ zips r r' /\
      stop (rid o) = true /\ x ∈ preorder o' /\ x <> rid o'.
  Proof.
    induction r as [i rs IH] using rose_ind'. intros r' x HA ND Hx. inversion HA as [i' j rs0 rs' HR HF]; subst.
    rewrite preorder_eq in Hx, ND. cbn [rid rsub] in Hx, ND. apply NoDup_cons in ND as [Hi ND].
    rewrite zips_eq. apply elem_of_cons in Hx as [->|Hx]; [left; left|].
    destruct (stop i) eqn:Es.
    { right. exists (Rose i rs), (Rose j rs'). split; [constructor|]. split; [constructor|]. split; [done|].
      split; [left|]. split; [done|]. rewrite preorder_eq. cbn [rid rsub]. split; [by right|]. intros ->. done. }
    apply elem_flat_map in Hx as (c' & Hc & Hx). apply elem_of_list_lookup_1 in Hc as Hk. destruct Hk as [k Hk].
    destruct (Forall2_lookup_r _ _ _ _ _ HF Hk) as (c & Hk' & HAc).
    assert (c ∈ rs) as Hci by by eapply elem_of_list_lookup_2.
    destruct (IH c Hci c' x HAc) as [Hin|(o & o' & O1 & O2 & O3 & O4 & O5)].
    { eapply (subt_nodup c' (Rose j rs')); [rewrite preorder_eq; by apply NoDup_cons|by apply subt_child]. }
    { done. }
    - left. cbn [map]. right. apply elem_of_list_In, in_map_iff in Hin as ([x' y] & E & Hin). cbn in E. subst y.
      apply elem_of_list_In, in_map_iff. exists (x', x). split; [done|]. apply elem_of_list_In.
      eapply zipl_in; [done|done|by apply elem_of_list_In].
    - right. exists o, o'. split; [by eapply subt_step|]. split; [by eapply subt_step|]. split; [done|]. split; [|done].
      right. by eapply zipl_in.
  Qed.
End Zip.

Lemma fold_left_id {A B} (f : A -> B -> A) l m : (forall x, x ∈ l -> f m x = m) -> fold_left f l m = m.
Proof.
  induction l as [|x l IH]; intros Hf; [done|]. cbn. rewrite Hf by left. apply IH. intros y Hy. apply Hf. by right.
Qed.

Lemma flat_map_nil {A B} (f : A -> list B) l : (forall x, x ∈ l -> f x = []) -> flat_map f l = [].
Proof.
  induction l as [|x l IH]; intros Hf; [done|]. cbn. rewrite Hf by left. apply IH. intros y Hy. apply Hf. by right.
Qed.

(** ** Matching such trees *)

Section Match.
  Context {H K P T : Type}.
  Variable heqb : H -> H -> bool.
  Variable keqb : K -> K -> bool.
  Variable sim : P -> P -> ratio.
  Variables n d : nat.
  Variables ta tb : dtree H K P T.
  Variables ra rb : rose.
  Hypothesis PA : presents ta ra.
  Hypothesis PB : presents tb rb.
  Variable R : nat -> nat -> Prop.
  Hypothesis RO : forall x y, R x y -> x ∉ opaque_descendants ta -> t_opaque ta x = t_opaque tb y.
  Hypothesis AL : alike R ra rb.
  Hypothesis HH : heqb (t_hash ta (rid ra)) (t_hash tb (rid rb)) = true.
  Hypothesis HK : keqb (t_kind ta (rid ra)) (t_kind tb (rid rb)) = true.

  Lemma zips_outside_a r : forall r' x y, subt r ra -> rid r ∉ opaque_descendants ta ->
    (x, y) ∈ zips (t_opaque ta) r r' -> x ∉ opaque_descendants ta.
  Proof.
    induction r as [i rs IH] using rose_ind'. intros [j rs'] x y Sa Ha Hin. rewrite zips_eq in Hin.
    apply elem_of_cons in Hin as [[= -> ->]|Hin]; [done|].
    destruct (t_opaque ta i) eqn:Eo; [by apply elem_of_nil in Hin|].
    apply zipl_elem in Hin as (k & c & c' & Hc & Hc' & Hin). apply elem_of_list_lookup_2 in Hc.
    apply (IH c Hc c' x y); [eapply subt_trans; [by apply (subt_child c (Rose i rs))|exact Sa]| |done].
    apply (not_opaque_child ta ra PA i); try done.
    - apply (pr_iter_subt ta ra PA). by exists (Rose i rs).
    - pose proof (pr_children _ _ PA _ Sa) as E. cbn [rid rsub] in E. rewrite E. by apply elem_of_list_fmap_1.
  Qed.

  Lemma match_alike r : forall r' f m, subt r ra -> rid r ∉ opaque_descendants ta -> subt r' rb -> alike R r r' -> rheight r < f ->
    (forall x, x ∈ preorder r -> contains_a m x = false) ->
    (forall y, y ∈ preorder r' -> contains_b m y = false) ->
    match_subtrees ta tb f (rid r) (rid r') m = Some (madds m (zips (t_opaque ta) r r')).
  Proof.
    induction r as [i rs IH] using rose_ind'. intros r' f m Sa Oa Sb HA Hf Ca Cb.
    inversion HA as [i' j rs0 rs' HR HF]; subst. destruct f as [|f]; [lia|].
    cbn [match_subtrees rid]. rewrite (Ca i) by (rewrite preorder_eq; left).
    rewrite (Cb j) by (rewrite preorder_eq; left). cbn [orb]. rewrite zips_eq.
    rewrite <- (RO _ _ HR) by done. destruct (t_opaque ta i) eqn:Eo; cbn [orb]; [done|].
    pose proof (pr_children _ _ PA _ Sa) as EA. pose proof (pr_children _ _ PB _ Sb) as EB. cbn [rid rsub] in EA, EB.
    rewrite EA, EB.
    change (madds m ((i, j) :: zipl (t_opaque ta) rs rs')) with (madds (m_add m i j) (zipl (t_opaque ta) rs rs')).
    assert (forall c, c ∈ rs -> subt c ra) as Sca
      by (intros c Hc; eapply subt_trans; [apply (subt_child c (Rose i rs) Hc)|done]).
    assert (forall c, c ∈ rs' -> subt c rb) as Scb
      by (intros c Hc; eapply subt_trans; [apply (subt_child c (Rose j rs') Hc)|done]).
    assert (forall c, c ∈ rs -> rid c ∉ opaque_descendants ta) as Oc.
    { intros c Hc. apply (not_opaque_child ta ra PA i); try done.
      - apply (pr_iter_subt ta ra PA). by exists (Rose i rs).
      - rewrite EA. by apply elem_of_list_fmap_1. }
    pose proof (subt_nodup _ _ (pr_nodup _ _ PA) Sa) as NA. pose proof (subt_nodup _ _ (pr_nodup _ _ PB) Sb) as NB.
    rewrite preorder_eq in NA, NB. cbn [rid rsub] in NA, NB.
    apply NoDup_cons in NA as [Na NA]. apply NoDup_cons in NB as [Nb NB].
    assert (forall c, c ∈ rs -> rheight c < f) as Hh.
    { intros c Hc. pose proof (rheight_child (Rose i rs) c Hc). lia. }
    assert (forall x, x ∈ flat_map preorder rs -> contains_a (m_add m i j) x = false) as Ca'.
    { intros x Hx. apply contains_a_false. rewrite get_b_add. destruct (Nat.eqb_spec i x) as [->|_]; [done|].
      apply contains_a_false, Ca. rewrite preorder_eq. by right. }
    assert (forall x, x ∈ flat_map preorder rs' -> contains_b (m_add m i j) x = false) as Cb'.
    { intros x Hx. apply contains_b_false. rewrite get_a_add. destruct (Nat.eqb_spec j x) as [->|_]; [done|].
      apply contains_b_false, Cb. rewrite preorder_eq. by right. }
    clear EA EB HA Ca Cb Na Nb Hf Sa Sb HR Oa. revert Ca' Cb'. generalize (m_add m i j). clear m.
    induction HF as [|c c' rs rs' HAc HF IHF]; intros m Ca Cb; [done|]. cbn [map combine].
    cbn [flat_map] in *. apply NoDup_app in NA as (NA1 & NA2 & NA3). apply NoDup_app in NB as (NB1 & NB2 & NB3).
    rewrite (IH c ltac:(left) c' f m (Sca c ltac:(left)) (Oc c ltac:(left)) (Scb c' ltac:(left)) HAc (Hh c ltac:(left))).
    2:{ intros x Hx. apply Ca. apply elem_of_app. by left. }
    2:{ intros x Hx. apply Cb. apply elem_of_app. by left. }
    cbn [zipl]. rewrite madds_app. apply IHF; try done.
    - intros t Ht. apply IH. by right.
    - intros t Ht. apply Sca. by right.
    - intros t Ht. apply Scb. by right.
    - intros t Ht. apply Oc. by right.
    - intros t Ht. apply Hh. by right.
    - intros x Hx. apply Bool.not_true_iff_false. rewrite madds_contains_a. intros [Hc|Hc].
      + rewrite Ca in Hc; [done|]. apply elem_of_app. by right.
      + apply (NA2 x); [|done]. apply elem_of_list_In, in_map_iff in Hc as ([x' y] & E & Hc). cbn in E. subst x'.
        apply elem_of_list_In in Hc. destruct (zips_subt _ R c c' x y HAc Hc) as (s & s' & Hs & _ & _ & -> & _).
        eapply preorder_subt_incl; [done|apply preorder_rid].
    - intros x Hx. apply Bool.not_true_iff_false. rewrite madds_contains_b. intros [Hc|Hc].
      + rewrite Cb in Hc; [done|]. apply elem_of_app. by right.
      + apply (NB2 x); [|done]. apply elem_of_list_In, in_map_iff in Hc as ([x' y] & E & Hc). cbn in E. subst y.
        apply elem_of_list_In in Hc. destruct (zips_subt _ R c c' x' x HAc Hc) as (s & s' & _ & Hs & _ & _ & -> & _).
        eapply preorder_subt_incl; [done|apply preorder_rid].
  Qed.

  Definition self_matching : matching := madds m_empty (zips (t_opaque ta) ra rb).

  Lemma self_all_a x : x ∈ t_iter ta -> contains_a self_matching x = true \/ x ∈ opaque_descendants ta.
  Proof.
    intros Hx. rewrite (pr_iter _ _ PA) in Hx.
    destruct (zips_all_a (t_opaque ta) R ra rb x AL (pr_nodup _ _ PA) Hx) as [Hin|(o & O1 & O2 & O3 & O4)].
    - left. apply madds_contains_a. by right.
    - right. apply (opaque_desc_elem ta). exists (rid o). rewrite (pr_iter _ _ PA), (pr_desc _ _ PA o O1).
      split; [apply preorder_subt; by exists o|done].
  Qed.
  Lemma self_all_b y : y ∈ t_iter tb -> contains_b self_matching y = true \/ y ∈ opaque_descendants tb.
  Proof.
    intros Hx. rewrite (pr_iter _ _ PB) in Hx.
    destruct (zips_all_b (t_opaque ta) R ra rb y AL) as [Hin|(o & o' & O1 & O1' & O2 & OZ & O3 & O4)]; try done.
    - apply PB.
    - left. apply madds_contains_b. by right.
    - right. apply (opaque_desc_elem tb). exists (rid o'). rewrite (pr_iter _ _ PB), (pr_desc _ _ PB o' O1').
      rewrite <- (RO _ _ O2). { split; [apply preorder_subt; by exists o'|done]. }
      eapply (zips_outside_a ra rb); [constructor| |exact OZ]. rewrite <- (pr_root _ _ PA). by eapply root_not_opaque_desc.
  Qed.

  Lemma self_root : contains_a self_matching (rid ra) = true.
  Proof. apply madds_contains_a. right. inversion AL. cbn. left. Qed.

  Lemma compute_self : compute_matching heqb keqb sim (mkCfg n d 0) ta tb = Val self_matching.
  Proof.
    unfold compute_matching, top_down. rewrite (pr_root _ _ PA), (pr_root _ _ PB).
    assert (exists f, td_fuel ta tb = S f) as [f ->].
    { unfold td_fuel. destruct (length (t_iter ta)); cbn; eauto. }
    cbn [td_loop min_height].
    change (contains_a m_empty (rid ra)) with false. change (contains_b m_empty (rid rb)) with false.
    cbn [orb Nat.ltb Nat.leb]. rewrite HH, HK. cbn [andb].
    rewrite match_alike; try done; try constructor.
    2:{ rewrite <- (pr_root _ _ PA). by eapply root_not_opaque_desc. }
    2:{ rewrite (pr_iter _ _ PA). pose proof (rheight_lt_size ra). lia. }
    destruct f; cbn [td_loop]; f_equal; unfold bottom_up.
    all: fold self_matching.
    all: rewrite (fold_left_id (pass1_step keqb sim (mkCfg n d 0) ta tb _ _)).
    all: try (apply fold_left_id); intros x Hx.
    all: unfold pass1_step, pass2_step; destruct (self_all_a x Hx) as [->|Ho]; cbn [orb]; [done|].
    all: apply mem_true in Ho; rewrite Ho, orb_true_r; done.
  Qed.
End Match.

(** ** The edit script *)

Lemma alike_mono (R R' : nat -> nat -> Prop) r : forall r', (forall x y, R x y -> R' x y) -> alike R r r' -> alike R' r r'.
Proof.
  induction r as [i rs IH] using rose_ind'. intros r' HR HA. inversion HA as [i' j rs0 rs' Hij HF]; subst.
  constructor; [by apply HR|]. clear HA. induction HF as [|c c' rs rs' Hc HF IHF]; constructor.
  - apply IH; [left|done|done].
  - apply IHF. intros t Ht. apply IH. by right.
Qed.

Definition all_different (l : attrs) : list prop_change := map (fun kv => mkPC (PAttr (fst kv)) (Some (snd kv))) l.

Lemma props_diff_nil l : props_diff [] l = all_different l.
Proof.
  unfold props_diff. assert (order_differs [] l = false) as ->.
  { unfold order_differs. cbn. assert (List.filter (fun _ => false) (keys l) = []) as ->; [|done].
    induction (keys l); [done|]. done. }
  induction l as [|[k v] l IH]; [done|]. cbn. by rewrite IH.
Qed.

Section Script.
  Context {H : Type}.
  Variable heqb : H -> H -> bool.
  Variables ta tb : dtree H hkind attrs string.
  Variables ra rb : rose.
  Hypothesis PA : presents ta ra.
  Hypothesis PB : presents tb rb.

  Definition same_node (x y : nat) : Prop :=
    t_kind ta x = t_kind tb y /\ t_text ta x = t_text tb y /\ t_opaque ta x = t_opaque tb y /\
    (x <> rid ra -> t_props ta x = t_props tb y /\ NoDup (keys (t_props ta x))).

  Hypothesis AL : alike same_node ra rb.
  Hypothesis HH : heqb (t_hash ta (rid ra)) (t_hash tb (rid rb)) = true.
  Hypothesis RP : t_parent ta (rid ra) = None.
  Hypothesis RE : t_props ta (rid ra) = [].

  Let m := self_matching ta ra rb.

  Lemma same_root : same_node (rid ra) (rid rb).
  Proof. by inversion AL. Qed.

  Lemma html_matching_self : html_matching heqb ta tb = Val m.
  Proof.
    unfold html_matching, diff_config.
    rewrite (compute_self heqb hkind_eqb props_sim 1 2 ta tb ra rb PA PB same_node).
    - cbn [obind]. rewrite (pr_root _ _ PA). fold m.
      assert (contains_a m (rid ra) = true) as -> by (by eapply self_root). by rewrite andb_false_r.
    - by intros x y (_ & _ & HO & _).
    - done.
    - done.
    - destruct same_root as [-> _]. by apply hkind_eqb_eq.
  Qed.

  Lemma self_bijection : bijection m.
  Proof.
    eapply (compute_matching_bijection heqb hkind_eqb props_sim (mkCfg 1 2 0) ta tb).
    apply (compute_self heqb hkind_eqb props_sim 1 2 ta tb ra rb PA PB same_node); try done.
    - by intros x y (_ & _ & HO & _).
    - destruct same_root as [-> _]. by apply hkind_eqb_eq.
  Qed.

  Lemma self_pairs : exists l, m_pairs m = (rid ra, rid rb) :: l /\ forall x y, (x, y) ∈ l -> x <> rid ra.
  Proof.
    assert (exists l, m_pairs m = (rid ra, rid rb) :: l) as (l & E).
    { unfold m, self_matching. rewrite madds_pairs. cbn [m_pairs m_empty app]. inversion AL. rewrite zips_eq. by eexists. }
    exists l. split; [done|]. intros x y Hin ->. pose proof (bij_nodup_a _ self_bijection) as ND. rewrite E in ND.
    cbn [map] in ND. apply NoDup_cons in ND as [ND _]. apply ND. apply elem_of_list_In, in_map_iff. exists (rid ra, y).
    split; [done|]. by apply elem_of_list_In.
  Qed.

  Lemma self_pair_same x y : (x, y) ∈ m_pairs m -> same_node x y.
  Proof.
    unfold m, self_matching. rewrite madds_pairs. cbn [m_pairs m_empty app]. intros Hin.
    destruct (zips_subt _ same_node ra rb x y AL Hin) as (s & s' & _ & _ & HA & -> & -> & _). by inversion HA.
  Qed.

  Lemma self_script :
    html_edit_script ta tb m =
    match t_props tb (rid rb) with
    | [] => []
    | nats => [UpdateProperties (rid ra) (rid rb) (all_different nats)]
    end.
  Proof.
    unfold html_edit_script, generate_edit_script, edit_script_with.
    rewrite (flat_map_nil (phase2 _ _ _)).
    2:{ intros y Hy. unfold phase2. destruct (self_all_b ta tb ra rb PA PB same_node) with y as [Hc|Ho]; try done.
        - by intros x z (_ & _ & HO & _).
        - fold m in Hc. by rewrite Hc.
        - destruct (contains_b m y); [done|]. destruct (t_parent tb y); [|done]. by apply mem_true in Ho as ->. }
    rewrite (flat_map_nil (phase5 _ _)).
    2:{ intros x Hx. rewrite (pr_post _ _ PA) in Hx. apply postorder_elem in Hx. rewrite <- (pr_iter _ _ PA) in Hx.
        unfold phase5. destruct (self_all_a ta ra rb PA same_node AL x Hx) as [Hc|Ho]; [fold m in Hc; by rewrite Hc|].
        destruct (contains_a m x); [done|]. by apply mem_true in Ho as ->. }
    rewrite (flat_map_nil (phase4 _ _ _ _ _)).
    2:{ intros [x y] Hin. unfold phase4. destruct (_ || _); [done|].
        pose proof Hin as Hin0. unfold m, self_matching in Hin. rewrite madds_pairs in Hin. cbn [m_pairs m_empty app] in Hin.
        destruct (zips_subt _ same_node ra rb x y AL Hin) as (s & s' & S1 & S2 & HA & -> & -> & [[-> ->]|Hu]).
        - by rewrite RP.
        - destruct Hu as (u & u' & k & U1 & U2 & U3 & U4 & U5 & U6).
          destruct (pr_parent _ _ PA u k s U1 U3) as [-> ->]. destruct (pr_parent _ _ PB u' k s' U2 U4) as [-> ->].
          assert (get_b m (rid u) = Some (rid u')) as ->.
          { apply (bij_fwd _ self_bijection). unfold m, self_matching. by rewrite madds_pairs. }
          by rewrite !Nat.eqb_refl. }
    destruct self_pairs as (l & E & Hl). rewrite !app_nil_r. rewrite E. cbn [flat_map].
    assert (forall x y, same_node x y -> otext_eqb String.eqb (t_text ta x) (t_text tb y) = true) as HT.
    { intros x y (_ & -> & _). unfold otext_eqb. destruct (t_text tb y); [apply String.eqb_refl|done]. }
    rewrite (flat_map_nil _ l).
    2:{ intros [x y] Hin. pose proof (Hl _ _ Hin) as Hn. assert (same_node x y) as HS.
        { apply self_pair_same. rewrite E. by right. }
        unfold phase1. destruct (_ || _); [done|]. rewrite HT by done. cbn [app].
        destruct HS as (_ & _ & _ & HP). destruct (HP Hn) as [HP1 HP2]. rewrite <- HP1.
        destruct (_ && _); [done|]. rewrite props_diff_refl_none by done. unfold props_diff. rewrite props_diff_loop_length.
        by rewrite Nat.ltb_irrefl. }
    rewrite app_nil_r. unfold phase1.
    pose proof (root_not_opaque_desc ta ra PA) as NA. pose proof (root_not_opaque_desc tb rb PB) as NB.
    rewrite (pr_root _ _ PA) in NA. rewrite (pr_root _ _ PB) in NB. apply mem_false in NA, NB. rewrite NA, NB. cbn [orb].
    rewrite HT by apply same_root. cbn [app]. rewrite RE. cbn [props_empty andb].
    destruct (t_props tb (rid rb)) as [|[k v] nats]; [done|]. cbn [props_empty]. by rewrite props_diff_nil.
  Qed.
End Script.

(** ** The diff *)

Section Diff.
  Context {H : Type}.
  Variables (heqb : H -> H -> bool) (hcomb : hkind -> option string -> list H -> H) (h0 : H).
  Hypothesis heqb_refl : forall h, heqb h h = true.

  Definition nodup_attrs (h : htree) : Prop := hall (fun _ l => NoDup (keys l)) h.

  Definition same_data (t : arena tdata) (a : arena dnode) (x y : nat) : Prop :=
    dkind (fun d => d) t x = dkind tdata_of a y /\ dtext (fun d => d) t x = dtext tdata_of a y /\
    dprops (fun d => d) t x = dprops tdata_of a y /\ NoDup (keys (dprops (fun d => d) t x)).

  Lemma alike_holds t a h : forall r r', nodup_attrs h -> is_tree t r -> is_tree a r' ->
    tholds t h (rid r) -> holds a h (rid r') -> alike (same_data t a) r r'.
  Proof.
    induction h as [s|s|tag ns ats cs IH] using htree_ind'; intros [i rs] [j rs'] ND Ht Ht' Hh Hh';
      apply is_tree_eq in Ht as [Hc Hts]; apply is_tree_eq in Ht' as [Hc' Hts'];
      pose proof Hh as Hh0; apply tholds_eq in Hh as [Hd HL];
      destruct (tdata_of_holds _ _ _ Hh') as (d & Hd' & Ed);
      pose proof (holds_children _ _ _ Hh') as HL'; cbn [rid hchildren] in *;
      apply hall_eq in ND as [ND1 ND2]; constructor.
    all: try (unfold same_data, dkind, dtext, dprops; rewrite Hd, Hd', Ed; split_and!; done).
    1,2: inversion HL as [E|]; inversion HL' as [E'|]; rewrite Hc in *; rewrite Hc' in *;
      destruct rs, rs'; done.
    rewrite Hc in HL. rewrite Hc' in HL'. clear Hd Hd' Ed Hc Hc' Hh0 Hh' ND1. revert rs rs' Hts Hts' HL HL'.
    cbn [hchildren] in ND2.
    induction cs as [|c cs IHc]; intros rs rs' Hts Hts' HL HL'; inversion HL as [|? ? ? ? Hx HF E1 E2];
      inversion HL' as [|? ? ? ? Hx' HF' E1' E2']; subst; destruct rs as [|u rs], rs' as [|u' rs']; try done.
    cbn [map] in *. simplify_eq. constructor.
    - apply (IH c); try done; [left|apply ND2; left|apply Hts; left|apply Hts'; left].
    - apply IHc; try done.
      + intros z Hz. apply IH. by right.
      + intros z Hz. apply ND2. by right.
      + intros z Hz. apply Hts. by right.
      + intros z Hz. apply Hts'. by right.
  Qed.

  Lemma alike_rhash t a r : forall r', alike (fun x y => dkind (fun d => d) t x = dkind tdata_of a y /\
      dtext (fun d => d) t x = dtext tdata_of a y) r r' ->
    rhash hcomb (fun d => d) t r = rhash hcomb tdata_of a r'.
  Proof.
    induction r as [i rs IH] using rose_ind'. intros r' HA. inversion HA as [i' j rs0 rs' [HK HT] HF]; subst.
    cbn [rhash]. rewrite HK, HT. f_equal. clear HA. induction HF as [|c c' rs rs' Hc HF IHF]; [done|]. cbn [map].
    rewrite (IH c) with c' by (left || done). f_equal. apply IHF. intros u Hu. apply IH. by right.
  Qed.

  Lemma opaque_contents_nil new (ta tb : dtree H hkind attrs string) : forall l,
    (forall x y, (x, y) ∈ l -> heqb (t_hash ta x) (t_hash tb y) = true) ->
    opaque_contents heqb new ta tb l = Val [].
  Proof.
    induction l as [|[x y] l IH]; intros Hl; [done|]. cbn [opaque_contents].
    rewrite (Hl x y) by left. rewrite IH by (intros; apply Hl; by right). by destruct (t_opaque tb y).
  Qed.

  Theorem diff_same (new : document) (olda : arena dnode) ob nb tag ns oats nats ts :
    wf olda -> wf (doc_arena new) ->
    data olda ob = Some (mkD (NElem tag oats) ns) ->
    data (doc_arena new) nb = Some (mkD (NElem tag nats) ns) ->
    holds_list olda ts (children olda ob) -> holds_list (doc_arena new) ts (children (doc_arena new) nb) ->
    Forall nodup_attrs ts -> is_opaque_props nats = false ->
    diff_bodies heqb hcomb h0 new olda ob nb =
    Val match nats with [] => [] | _ => [PUpdateProps [0] (all_different nats)] end.
  Proof.
    intros WO WN DO DN HO HN ND Hop.
    destruct (build_tree_ok olda ob _ ts WO DO HO) as (t & Et & BT).
    destruct (built_tree t _ ts BT) as (ra & Hra & Hta & Hia).
    assert (0 < length t) as L0 by (eapply data_lt; apply BT).
    destruct (mk_dtree_presents hcomb h0 (fun d => d) t ra (bt_wf _ _ _ BT)) as (ta & Ea & PA); [by rewrite Hra|done|].
    destruct (tree_exists (doc_arena new) nb WN) as (rb & Hrb & Htb).
    destruct (mk_dtree_presents hcomb h0 tdata_of (doc_arena new) rb WN) as (tb & Eb & PB).
    { rewrite Hrb. by eapply data_lt. } { done. }
    assert (forall s, subt s ra -> t_hash ta (rid s) = rhash hcomb (fun d => d) t s) as HA1.
    { intros s Hs. eapply (mk_dtree_hash hcomb h0 (fun d => d) t ra); try done; [apply BT|by rewrite Hra]. }
    assert (forall s, subt s rb -> t_hash tb (rid s) = rhash hcomb tdata_of (doc_arena new) s) as HB1.
    { intros s Hs. eapply (mk_dtree_hash hcomb h0 tdata_of (doc_arena new) rb); try done. rewrite Hrb. by eapply data_lt. }
    rewrite Hra in Ea. rewrite Hrb in Eb.
    destruct (mk_dtree_fields _ _ _ _ _ _ Ea) as (A1 & A2 & A3 & A4 & A5 & A6 & A7 & A8 & A9).
    destruct (mk_dtree_fields _ _ _ _ _ _ Eb) as (B1 & B2 & B3 & B4 & B5 & B6 & B7 & B8 & B9).
    pose proof (bt_root _ _ _ BT) as RD.
    assert (alike (same_node ta tb ra) ra rb) as AL.
    { destruct ra as [i rs], rb as [j rs']. cbn [rid] in Hra, Hrb. subst i j. constructor.
      - unfold same_node. rewrite A2, A3, A4, A9, B2, B3, B4, B9. unfold dkind, dtext, dprops. rewrite RD, DN.
        cbn [td_kind td_text td_props tdata_of d_kind d_ns rid]. rewrite Hop. done.
      - apply is_tree_eq in Hta as [Hc Hts]. apply is_tree_eq in Htb as [Hc' Htb].
        pose proof (bt_holds _ _ _ BT) as HT. unfold tholds_list in HT. unfold holds_list in HN.
        rewrite Hc in HT. rewrite Hc' in HN.
        pose proof (pr_nodup _ _ PA) as NDp. rewrite preorder_eq in NDp. cbn [rid rsub] in NDp.
        clear -HT HN ND Hts Htb A2 A3 A4 A9 B2 B3 B4 B9. generalize (Rose 0 rs). intros r0. revert rs rs' Hts Htb HT HN.
        induction ts as [|h ts IH]; intros rs rs' Hts Htb HT HN; inversion HT as [|? ? ? ? Hx HF]; inversion HN as [|? ? ? ? Hx' HF'];
          subst; destruct rs as [|u rs], rs' as [|u' rs']; try done.
        apply Forall_cons in ND as [ND1 ND2]. cbn [map] in *. simplify_eq. constructor.
        + eapply alike_mono; [|apply (alike_holds t (doc_arena new) h); try done; [apply Hts; left|apply Htb; left]].
          intros x y (R1 & R2 & R3 & R4). unfold same_node. rewrite A2, A3, A4, A9, B2, B3, B4, B9.
          rewrite R1, R2, R3. rewrite R3 in R4. done.
        + apply IH; try done; intros z Hz; [apply Hts|apply Htb]; by right. }
    assert (forall s s', subt s ra -> subt s' rb -> alike (same_node ta tb ra) s s' ->
              heqb (t_hash ta (rid s)) (t_hash tb (rid s')) = true) as HEQ.
    { intros s s' Hs Hs' HA. rewrite HA1, HB1 by done. rewrite (alike_rhash t (doc_arena new) s s'); [apply heqb_refl|].
      eapply alike_mono; [|exact HA]. intros x y (R1 & R2 & _). rewrite A2, A4, B2, B4 in *. done. }
    assert (heqb (t_hash ta (rid ra)) (t_hash tb (rid rb)) = true) as HH by (apply HEQ; try done; constructor).
    unfold diff_bodies. rewrite Et. cbn [obind]. rewrite Ea. cbn [obind]. rewrite Eb. cbn [obind].
    rewrite (html_matching_self heqb ta tb ra rb PA PB AL HH). cbn [obind].
    rewrite opaque_contents_nil.
    2:{ intros x y Hin. unfold self_matching in Hin. rewrite madds_pairs in Hin. cbn [m_pairs m_empty app] in Hin.
        destruct (zips_subt _ _ ra rb x y AL Hin) as (s & s' & S1 & S2 & S3 & -> & -> & _). by apply HEQ. }
    cbn [obind].
    rewrite (self_script heqb ta tb ra rb PA PB AL HH).
    2:{ rewrite A5, Hra. apply BT. }
    2:{ rewrite A3, Hra. unfold dprops. by rewrite RD. }
    rewrite B3, Hrb. unfold dprops. rewrite DN. cbn [tdata_of d_kind td_props].
    destruct (shadow_new_full t (bt_wf _ _ _ BT) L0 (bt_root_parent _ _ _ BT)) as (sh & Esh & FS).
    unfold convert_ops. rewrite Esh. cbn [obind]. destruct nats as [|kv nats]; [done|].
    cbn [convert_loop convert_op]. rewrite Hra.
    cbn [cs_shadow]. rewrite (spath_compute sh 0 [0]).
    - done.
    - apply FS.
    - apply (spath_root _ 0 (S (length t)) 0); [by apply fs_root_parent|]. by rewrite (fs_super _ _ FS), (fs_top _ _ FS).
  Qed.
End Diff.
