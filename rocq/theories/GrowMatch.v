(** Matching two trees one of which has nodes the other has not: the common nodes
    are matched with one another (C67). *)
From stdpp Require Import list_numbers sorting.
From Verif Require Import Base Arena Matching Chawathe Dom HtmlDiff
  AttrProofs MatchProofs ArenaProofs TreeProofs DtreeProofs TotalProofs SelfProofs InPlaceMatch.

(** ** Correspondences *)

(** The children of two nodes that correspond: index in the old, index in the new
    list of children, and the pairs below. *)
Definition entry := (nat * (nat * list (nat * nat)))%type.
Definition later (e e' : entry) : Prop := fst e < fst e' /\ fst (snd e) < fst (snd e').
Definition pairs_of (ks : list entry) : list (nat * nat) := flat_map (fun e => snd (snd e)) ks.

Lemma later_order ks e e' : StronglySorted later ks -> e ∈ ks -> e' ∈ ks -> e = e' \/ later e e' \/ later e' e.
Proof.
  induction 1 as [|a ks HS IH HF]; intros H1 H2; [by apply elem_of_nil in H1|].
  rewrite Forall_forall in HF. apply elem_of_cons in H1 as [->|H1]; apply elem_of_cons in H2 as [->|H2]; auto.
Qed.

Lemma subt_size a b : subt a b -> length (preorder a) <= length (preorder b).
Proof. intros Hab. destruct (preorder_infix a b Hab) as (l & m & ->). rewrite !app_length. lia. Qed.
Lemma child_size u s : s ∈ rsub u -> length (preorder s) < length (preorder u).
Proof.
  intros Hs. rewrite (preorder_eq u). cbn [length]. apply elem_of_list_split in Hs as (l1 & l2 & ->).
  rewrite flat_map_app. cbn [flat_map]. rewrite !app_length. lia.
Qed.
Lemma child_parent_inj r : NoDup (preorder r) -> forall u v s, subt u r -> subt v r -> s ∈ rsub u -> s ∈ rsub v -> u = v.
Proof.
  induction r as [i rs IH] using rose_ind'. intros ND u v s Su Sv Hu Hv.
  pose proof ND as ND'. rewrite preorder_eq in ND'. cbn [rid rsub] in ND'. apply NoDup_cons in ND' as [Hi ND'].
  assert (forall w, subt w (Rose i rs) -> w = Rose i rs \/ exists c, c ∈ rs /\ subt w c) as HI.
  { intros w Hw. inversion Hw; subst; eauto. }
  assert (forall c w, c ∈ rs -> subt w c -> s ∈ rsub w -> rid s ∈ preorder c) as HIn.
  { intros c w Hc Hw Hs. apply preorder_subt. exists s. split; [|done]. eapply subt_trans; [by apply subt_child|done]. }
  assert (forall c w, c ∈ rs -> subt w c -> s ∈ rsub w -> s ∈ rs -> False) as HX.
  { intros c w Hc Hw Hs Hs'. apply elem_of_list_lookup_1 in Hc as (k & Hk). apply elem_of_list_lookup_1 in Hs' as (k' & Hk').
    assert (k = k') as ->.
    { eapply (nodup_flat_index rs ND'); [exact Hk|exact Hk'| |apply preorder_rid]. apply (HIn c w); [|done|done]. by eapply elem_of_list_lookup_2. }
    assert (c = s) as -> by congruence. apply subt_size in Hw. apply child_size in Hs. lia. }
  destruct (HI u Su) as [->|(c & Hc & Suc)], (HI v Sv) as [->|(c' & Hc' & Svc)].
  - done.
  - exfalso. by eapply (HX c' v).
  - exfalso. by eapply (HX c u).
  - assert (c = c') as <-.
    { apply elem_of_list_lookup_1 in Hc as Hk. destruct Hk as (k & Hk). apply elem_of_list_lookup_1 in Hc' as Hk'. destruct Hk' as (k' & Hk').
      assert (k = k') as ->; [|congruence].
      eapply (nodup_flat_index rs ND'); [exact Hk|exact Hk'| |]; by eapply HIn. }
    apply (IH c Hc) with (s := s); try done.
    eapply (subt_nodup c (Rose i rs)); [done|by apply subt_child].
Qed.

Section Grow.
  Variable stop : nat -> bool.
  Variable R : nat -> nat -> Prop.
  Variable same : nat -> nat -> bool.

  Definition fixed (x y : nat) : Prop := same x y = true \/ stop x = true.

  Inductive grow : rose -> rose -> list (nat * nat) -> Prop :=
  | grow_same i j rs rs' : same i j = true -> near stop R (Rose i rs) (Rose j rs') ->
      grow (Rose i rs) (Rose j rs') (zips stop (Rose i rs) (Rose j rs'))
  | grow_stop i j rs rs' : R i j -> same i j = false -> stop i = true -> grow (Rose i rs) (Rose j rs') [(i, j)]
  | grow_node i j rs rs' ks : R i j -> same i j = false -> stop i = false -> StronglySorted later ks ->
      (forall k k' L, (k, (k', L)) ∈ ks -> exists u u', rs !! k = Some u /\ rs' !! k' = Some u' /\ grow u u' L /\
         (k = k' \/ fixed (rid u) (rid u'))) ->
      grow (Rose i rs) (Rose j rs') ((i, j) :: pairs_of ks).

  Lemma pairs_elem ks p : p ∈ pairs_of ks <-> exists k k' L, (k, (k', L)) ∈ ks /\ p ∈ L.
  Proof.
    unfold pairs_of. rewrite elem_flat_map. split.
    - intros ([k [k' L]] & H1 & H2). eauto.
    - intros (k & k' & L & H1 & H2). exists (k, (k', L)). done.
  Qed.

  Lemma grow_R r r' L : grow r r' L -> R (rid r) (rid r').
  Proof. intros [i j rs rs' _ HN|i j rs rs' HR _ _|i j rs rs' ks HR _ _ _ _]; [|done|done]. by inversion HN. Qed.

  Lemma grow_root r r' L : grow r r' L -> (rid r, rid r') ∈ L.
  Proof. intros [i j rs rs' _ HN|i j rs rs' HR _ _|i j rs rs' ks HR _ _ _ _]; [rewrite zips_eq|..]; left. Qed.

  Lemma grow_in_a r : forall r' L x y, grow r r' L -> (x, y) ∈ L -> x ∈ preorder r.
  Proof.
    induction r as [i rs IH] using rose_ind'. intros r' L x y HG Hin.
    inversion HG as [i0 j rs0 rs' _ HN|i0 j rs0 rs' HR _ _|i0 j rs0 rs' ks HR _ _ HS HC]; subst.
    - by eapply zips_in_a.
    - apply elem_of_list_singleton in Hin as [= -> ->]. apply (preorder_rid (Rose i rs)).
    - rewrite preorder_eq. apply elem_of_cons in Hin as [[= -> ->]|Hin]; [left|right].
      apply pairs_elem in Hin as (k & k' & L & Hk & Hin). destruct (HC _ _ _ Hk) as (u & u' & Hu & Hu' & Hg & _).
      apply elem_flat_map. exists u. apply elem_of_list_lookup_2 in Hu. split; [done|]. by eapply IH.
  Qed.
  Lemma grow_in_b r : forall r' L x y, grow r r' L -> (x, y) ∈ L -> y ∈ preorder r'.
  Proof.
    induction r as [i rs IH] using rose_ind'. intros r' L x y HG Hin.
    inversion HG as [i0 j rs0 rs' _ HN|i0 j rs0 rs' HR _ _|i0 j rs0 rs' ks HR _ _ HS HC]; subst.
    - by eapply zips_in_b.
    - apply elem_of_list_singleton in Hin as [= -> ->]. apply (preorder_rid (Rose j rs')).
    - rewrite preorder_eq. apply elem_of_cons in Hin as [[= -> ->]|Hin]; [left|right].
      apply pairs_elem in Hin as (k & k' & L & Hk & Hin). destruct (HC _ _ _ Hk) as (u & u' & Hu & Hu' & Hg & _).
      apply elem_flat_map. exists u'. apply elem_of_list_lookup_2 in Hu as Hui. apply elem_of_list_lookup_2 in Hu'. split; [done|]. by eapply IH.
  Qed.

  Lemma grow_nodup_fst r : forall r' L, grow r r' L -> NoDup (preorder r) -> NoDup (map fst L).
  Proof.
    induction r as [i rs IH] using rose_ind'. intros r' L HG ND.
    inversion HG as [i0 j rs0 rs' _ HN|i0 j rs0 rs' HR _ _|i0 j rs0 rs' ks HR _ _ HS HC]; subst.
    - by apply zips_nodup_fst.
    - apply NoDup_singleton.
    - rewrite preorder_eq in ND. cbn [rid rsub] in ND. apply NoDup_cons in ND as [Hi ND]. cbn [map fst].
      clear HG. induction HS as [|[k [k' L]] ks HS IHS HF]; [apply NoDup_singleton|].
      assert (NoDup (i :: map fst (pairs_of ks))) as IHk by (apply IHS; intros ? ? ? Hk; apply HC; by right).
      destruct (HC k k' L ltac:(left)) as (u & u' & Hu & Hu' & Hg & _).
      assert (u ∈ rs) as Hui by by eapply elem_of_list_lookup_2.
      assert (NoDup (preorder u)) as NDu.
      { eapply (subt_nodup u (Rose i rs)); [rewrite preorder_eq; by apply NoDup_cons|by apply subt_child]. }
      cbn [pairs_of flat_map snd]. rewrite map_app. apply NoDup_cons in IHk as [N1 N2]. constructor.
      + intros [Hin|Hin]%elem_of_app; [|done]. apply fst_elem in Hin as (y & Hin). apply Hi. apply elem_flat_map.
        exists u. split; [done|]. by eapply grow_in_a.
      + apply NoDup_app. split; [by eapply IH|]. split; [|done].
        intros x Hx Hx'. apply fst_elem in Hx as (y & Hx). apply fst_elem in Hx' as (y' & Hx').
        apply pairs_elem in Hx' as (k2 & k2' & L2 & Hk2 & Hx').
        destruct (HC k2 k2' L2 ltac:(by right)) as (v & v' & Hv & Hv' & Hgv & _).
        assert (k = k2).
        { eapply (nodup_flat_index rs ND); [exact Hu|exact Hv| |]; by eapply grow_in_a. }
        rewrite Forall_forall in HF. destruct (HF _ Hk2) as [? _]. cbn in *. lia.
  Qed.
  Lemma grow_nodup_snd r : forall r' L, grow r r' L -> NoDup (preorder r') -> NoDup (map snd L).
  Proof.
    induction r as [i rs IH] using rose_ind'. intros r' L HG ND.
    inversion HG as [i0 j rs0 rs' _ HN|i0 j rs0 rs' HR _ _|i0 j rs0 rs' ks HR _ _ HS HC]; subst.
    - by apply zips_nodup_snd.
    - apply NoDup_singleton.
    - rewrite preorder_eq in ND. cbn [rid rsub] in ND. apply NoDup_cons in ND as [Hi ND]. cbn [map snd].
      clear HG. induction HS as [|[k [k' L]] ks HS IHS HF]; [apply NoDup_singleton|].
      assert (NoDup (j :: map snd (pairs_of ks))) as IHk by (apply IHS; intros ? ? ? Hk; apply HC; by right).
      destruct (HC k k' L ltac:(left)) as (u & u' & Hu & Hu' & Hg & _).
      assert (u ∈ rs) as Hui by by eapply elem_of_list_lookup_2.
      assert (u' ∈ rs') as Hui' by by eapply elem_of_list_lookup_2.
      assert (NoDup (preorder u')) as NDu.
      { eapply (subt_nodup u' (Rose j rs')); [rewrite preorder_eq; by apply NoDup_cons|by apply subt_child]. }
      cbn [pairs_of flat_map snd]. rewrite map_app. apply NoDup_cons in IHk as [N1 N2]. constructor.
      + intros [Hin|Hin]%elem_of_app; [|done]. apply snd_elem in Hin as (y & Hin). apply Hi. apply elem_flat_map.
        exists u'. split; [done|]. by eapply grow_in_b.
      + apply NoDup_app. split; [by eapply IH|]. split; [|done].
        intros x Hx Hx'. apply snd_elem in Hx as (y & Hx). apply snd_elem in Hx' as (y' & Hx').
        apply pairs_elem in Hx' as (k2 & k2' & L2 & Hk2 & Hx').
        destruct (HC k2 k2' L2 ltac:(by right)) as (v & v' & Hv & Hv' & Hgv & _).
        assert (k' = k2').
        { eapply (nodup_flat_index rs' ND); [exact Hu'|exact Hv'| |]; by eapply grow_in_b. }
        rewrite Forall_forall in HF. destruct (HF _ Hk2) as [_ ?]. cbn in *. lia.
  Qed.

  (** A pair is the pair of roots or lies below another one. *)
  Lemma grow_subt r : forall r' L x y, grow r r' L -> (x, y) ∈ L ->
    exists s s', subt s r /\ subt s' r' /\ R (rid s) (rid s') /\ x = rid s /\ y = rid s' /\
      ((s = r /\ s' = r') \/
       exists u u' k k', subt u r /\ subt u' r' /\ rsub u !! k = Some s /\ rsub u' !! k' = Some s' /\
         (rid u, rid u') ∈ L /\ stop (rid u) = false /\ (k = k' \/ fixed (rid s) (rid s'))).
  Proof.
    induction r as [i rs IH] using rose_ind'. intros r' L x y HG Hin. pose proof (grow_R _ _ _ HG) as HR0.
    inversion HG as [i0 j rs0 rs' _ HN|i0 j rs0 rs' HR _ _|i0 j rs0 rs' ks HR _ Hs HS HC]; subst.
    - destruct (near_subt stop R _ _ x y HN Hin) as (s & s' & S1 & S2 & S3 & -> & -> & S4). exists s, s'.
      split; [done|]. split; [done|]. split; [by inversion S3|]. split; [done|]. split; [done|].
      destruct S4 as [S4|(u & u' & k & U1 & U2 & U3 & U4 & U5 & U6)]; [by left|]. right. exists u, u', k, k. auto 10.
    - apply elem_of_list_singleton in Hin as [= -> ->]. exists (Rose i rs), (Rose j rs').
      split; [constructor|]. split; [constructor|]. split; [done|]. split; [done|]. split; [done|]. by left.
    - apply elem_of_cons in Hin as [[= -> ->]|Hin].
      { exists (Rose i rs), (Rose j rs'). split; [constructor|]. split; [constructor|]. split; [done|]. split; [done|]. split; [done|]. by left. }
      apply pairs_elem in Hin as (k & k' & L & Hk & Hin). destruct (HC _ _ _ Hk) as (u & u' & Hu & Hu' & Hg & Hf).
      assert (u ∈ rs) as Hui by by eapply elem_of_list_lookup_2.
      assert (u' ∈ rs') as Hui' by by eapply elem_of_list_lookup_2.
      destruct (IH u Hui u' L x y Hg Hin) as (s & s' & S1 & S2 & S3 & -> & -> & S4). exists s, s'.
      split; [by eapply subt_step|]. split; [by eapply subt_step|]. split; [done|]. split; [done|]. split; [done|]. right.
      destruct S4 as [[-> ->]|(v & v' & k2 & k2' & U1 & U2 & U3 & U4 & U5 & U6 & U7)].
      + exists (Rose i rs), (Rose j rs'), k, k'. split; [constructor|]. split; [constructor|]. split; [done|]. split; [done|].
        split; [left|]. done.
      + exists v, v', k2, k2'. split; [by eapply subt_step|]. split; [by eapply subt_step|]. split; [done|]. split; [done|].
        split; [|done]. right. apply pairs_elem. by exists k, k', L.
  Qed.


  (** Above a node with a counterpart all nodes have one and none is opaque. *)
  Lemma grow_above_a r r' L : grow r r' L -> NoDup (preorder r) -> forall h s y v,
    length (preorder r) - length (preorder s) <= h -> subt s r -> subt v r -> (rid s, y) ∈ L -> subt s v -> s <> v ->
    exists y', (rid v, y') ∈ L /\ stop (rid v) = false.
  Proof.
    intros HG ND. induction h as [h IH] using lt_wf_ind. intros s y v Hh Ss Sv Hin Hsv Hne.
    destruct (grow_subt _ _ _ _ _ HG Hin) as (s0 & s' & S1 & S2 & S3 & E & E' & S4).
    apply (subt_rid_inj r) in E; [|done..]. subst s0.
    destruct S4 as [[-> ->]|(u & u' & k & k' & U1 & U2 & U3 & U4 & U5 & U6 & U7)].
    { exfalso. inversion Hsv as [|? t ? Ht Hti]; subst; [done|]. apply subt_size in Ht, Sv. apply child_size in Hti. lia. }
    apply elem_of_list_lookup_2 in U3.
    assert (subt u v) as Huv.
    { clear - Hsv Hne ND Sv U1 U3. revert Sv. induction Hsv as [|? t w Ht IHt Hti]; intros Sv; [done|].
      assert (subt t r) as St by (eapply subt_trans; [by apply subt_child|done]).
      destruct (decide (length (preorder t) = length (preorder s))) as [El|El].
      - assert (s = t) as <-.
        { destruct Ht as [|? t1 ? Ht1 Hti1]; [done|]. apply subt_size in Ht1. apply child_size in Hti1. lia. }
        rewrite (child_parent_inj r ND u w s); try done. constructor.
      - eapply subt_trans; [apply IHt; try done|by apply subt_child]. intros ->. done. }
    destruct (decide (length (preorder u) = length (preorder v))) as [El|El].
    - assert (u = v) as ->.
      { destruct Huv as [|? t1 ? Ht1 Hti1]; [done|]. apply subt_size in Ht1. apply child_size in Hti1. lia. }
      by exists (rid u').
    - apply (IH (length (preorder r) - length (preorder u))) with (s := u) (y := rid u'); try done.
      + apply child_size in U3. apply subt_size in U1. lia.
      + by intros ->.
  Qed.
  Lemma grow_above_b r r' L : grow r r' L -> NoDup (preorder r') -> forall h s y v,
    length (preorder r') - length (preorder s) <= h -> subt s r' -> subt v r' -> (y, rid s) ∈ L -> subt s v -> s <> v ->
    exists y', (y', rid v) ∈ L /\ stop y' = false.
  Proof.
    intros HG ND. induction h as [h IH] using lt_wf_ind. intros s y v Hh Ss Sv Hin Hsv Hne.
    destruct (grow_subt _ _ _ _ _ HG Hin) as (s0 & s' & S1 & S2 & S3 & E' & E & S4).
    apply (subt_rid_inj r') in E; [|done..]. subst s'.
    destruct S4 as [[-> ->]|(u & u' & k & k' & U1 & U2 & U3 & U4 & U5 & U6 & U7)].
    { exfalso. inversion Hsv as [|? t ? Ht Hti]; subst; [done|]. apply subt_size in Ht, Sv. apply child_size in Hti. lia. }
    apply elem_of_list_lookup_2 in U4.
    assert (subt u' v) as Huv.
    { clear - Hsv Hne ND Sv U2 U4. revert Sv. induction Hsv as [|? t w Ht IHt Hti]; intros Sv; [done|].
      assert (subt t r') as St by (eapply subt_trans; [by apply subt_child|done]).
      destruct (decide (length (preorder t) = length (preorder s))) as [El|El].
      - assert (s = t) as <-.
        { destruct Ht as [|? t1 ? Ht1 Hti1]; [done|]. apply subt_size in Ht1. apply child_size in Hti1. lia. }
        rewrite (child_parent_inj r' ND u' w s); try done. constructor.
      - eapply subt_trans; [apply IHt; try done|by apply subt_child]. intros ->. done. }
    destruct (decide (length (preorder u') = length (preorder v))) as [El|El].
    - assert (u' = v) as ->.
      { destruct Huv as [|? t1 ? Ht1 Hti1]; [done|]. apply subt_size in Ht1. apply child_size in Hti1. lia. }
      by exists (rid u).
    - apply (IH (length (preorder r') - length (preorder u'))) with (s := u') (y := rid u); try done.
      + apply child_size in U4. apply subt_size in U2. lia.
      + by intros ->.
  Qed.

  (** Beside a child without counterpart. *)
  Lemma grow_gap : forall r r' L u u' k s s', grow r r' L -> NoDup (preorder r) -> NoDup (preorder r') ->
    subt u r -> subt u' r' -> (rid u, rid u') ∈ L -> stop (rid u) = false ->
    rsub u !! k = Some s -> rsub u' !! k = Some s' -> rid s ∉ map fst L ->
    rid s' ∉ map snd L \/ exists x, (x, rid s') ∈ L /\ fixed x (rid s').
  Proof.
    intros r r' L u u' k s s' HG ND ND' Su Su' Hu Hst Hs Hs' Hno.
    destruct (decide (rid s' ∈ map snd L)) as [Hin|Hin]; [|by left]. right.
    apply snd_elem in Hin as (x & Hx). exists x. split; [done|].
    destruct (grow_subt _ _ _ _ _ HG Hx) as (v & v' & V1 & V2 & V3 & -> & E & V4).
    assert (s' ∈ rsub u') as Hsi by by eapply elem_of_list_lookup_2.
    assert (subt s' r') as Ss' by (eapply subt_trans; [by apply subt_child|done]).
    apply (subt_rid_inj r') in E; [|done..]. subst v'.
    destruct V4 as [[-> ->]|(w & w' & k1 & k1' & W1 & W2 & W3 & W4 & W5 & W6 & W7)].
    { exfalso. apply subt_size in Su'. apply child_size in Hsi. lia. }
    destruct W7 as [->|Hf]; [|done]. exfalso.
    assert (k1' = k /\ w' = u') as [-> ->].
    { assert (s' ∈ rsub w') as Hsw by by eapply elem_of_list_lookup_2.
      assert (w' = u') as ->.
      { apply (child_parent_inj r' ND' w' u' s'); done. }
      split; [|done]. pose proof (subt_nodup _ _ ND' Su') as N. rewrite preorder_eq in N. apply NoDup_cons in N as [_ N].
      eapply (nodup_flat_index _ N); [exact W4|exact Hs'| |]; apply preorder_rid. }
    assert (rid w = rid u) as E.
    { eapply (nodup_snd_inj L); [by eapply grow_nodup_snd|exact W5|exact Hu]. }
    apply (subt_rid_inj r) in E; [|done..]. subst w. assert (v = s) as -> by congruence.
    apply Hno. by eapply elem_fst.
  Qed.
End Grow.

(** ** The matching *)

Section GrowMatching.
  Context {H K P T : Type}.
  Variable heqb : H -> H -> bool.
  Variable keqb : K -> K -> bool.
  Variable sim : P -> P -> ratio.
  Variables n d : nat.
  Variables ta tb : dtree H K P T.
  Variables ra rb : rose.
  Hypothesis PA : presents ta ra.
  Hypothesis PB : presents tb rb.
  Let cfg := mkCfg n d 0.
  Let stop := t_opaque ta.
  Let same := fun x y => heqb (t_hash ta x) (t_hash tb y).
  Let mate := mate_node keqb ta tb.
  Notation growm := (grow stop mate same).

  Variable Z : list (nat * nat).
  Hypothesis AL : growm ra rb Z.

  Notation setl := (fixed stop same).

  (** Pairs of nodes that the first phase may see: the nodes and all the nodes
      above them have pairwise the same kind. *)
  Inductive sees : rose -> rose -> Prop :=
  | sees_root : sees ra rb
  | sees_child u u' c c' : sees u u' -> t_opaque ta (rid u) = false -> t_opaque tb (rid u') = false ->
      c ∈ rsub u -> c' ∈ rsub u' -> keqb (t_kind ta (rid c)) (t_kind tb (rid c')) = true -> sees c c'.

  Hypothesis HK : forall x y, x ∈ t_iter ta -> y ∈ t_iter tb -> heqb (t_hash ta x) (t_hash tb y) = true ->
    keqb (t_kind ta x) (t_kind tb y) = true.

  (** A changed node has no twin elsewhere. *)
  Hypothesis TW : forall c c', sees c c' ->
    heqb (t_hash ta (rid c)) (t_hash tb (rid c')) = true \/ t_opaque ta (rid c) = true \/ t_opaque tb (rid c') = true ->
    (rid c, rid c') ∉ Z ->
    (exists y, (rid c, y) ∈ Z /\ setl (rid c) y) /\ (exists x, (x, rid c') ∈ Z /\ setl x (rid c')).

  Lemma gZ_fun x y y' : (x, y) ∈ Z -> (x, y') ∈ Z -> y = y'.
  Proof using PA AL. apply nodup_fst_inj. eapply grow_nodup_fst; [exact AL|]. apply PA. Qed.
  Lemma gZ_inj x x' y : (x, y) ∈ Z -> (x', y) ∈ Z -> x = x'.
  Proof using PB AL. apply nodup_snd_inj. eapply grow_nodup_snd; [exact AL|]. apply PB. Qed.

  Lemma sees_subt c c' : sees c c' -> subt c ra /\ subt c' rb.
  Proof.
    induction 1 as [|u u' c c' _ [I1 I2] _ _ Hc Hc' _]; [split; constructor|]. split.
    - eapply subt_trans; [by apply subt_child|done].
    - eapply subt_trans; [by apply subt_child|done].
  Qed.
  Lemma sees_kind c c' : sees c c' -> keqb (t_kind ta (rid c)) (t_kind tb (rid c')) = true.
  Proof using AL.
    intros [|]; [|done]. by destruct (grow_R _ _ _ _ _ _ AL).
  Qed.

  Notation tdl := (td_loop heqb keqb cfg ta tb).

  (** A pair of nodes in different places is skipped. *)
  Definition gskipped (m : matching) (p : nat * nat) (sf : nat) : Prop :=
    forall fuel st mf, tdl fuel sf (p :: st) m = Some mf -> exists fuel', tdl fuel' sf st m = Some mf.

  Lemma gskip_all m sf l : (forall p, p ∈ l -> gskipped m p sf) -> forall fuel st mf,
    tdl fuel sf (l ++ st) m = Some mf -> exists fuel', tdl fuel' sf st m = Some mf.
  Proof.
    induction l as [|p l IH]; intros HS fuel st mf E; [by exists fuel|]. cbn [app] in E.
    apply HS in E; [|left]. destruct E as (f' & E). eapply (IH ltac:(intros q Hq; apply HS; by right)). exact E.
  Qed.

  Lemma gcross_skipped c : forall c' m sf, sees c c' ->
    (forall x y, x ∈ preorder c -> y ∈ preorder c' -> (x, y) ∉ Z) ->
    ((forall x y, (x, y) ∈ Z -> setl x y -> x ∈ preorder c -> contains_a m x = true) \/
     (forall x y, (x, y) ∈ Z -> setl x y -> y ∈ preorder c' -> contains_b m y = true)) ->
    gskipped m (rid c, rid c') sf.
  Proof.
    induction c as [i rs IH] using rose_ind'. intros c' m sf HF HD HS fuel st mf E.
    destruct (sees_subt _ _ HF) as [Sa Sb].
    destruct fuel as [|fuel]; [done|]. cbn [td_loop] in E.
    destruct (contains_a m (rid (Rose i rs)) || contains_b m (rid c')) eqn:EC; [by exists fuel|].
    apply orb_false_iff in EC as [Ca Cb]. cbn [min_height cfg Nat.ltb Nat.leb] in E.
    assert ((rid (Rose i rs), rid c') ∉ Z) as Hn by (apply HD; apply preorder_rid).
    assert (~ (heqb (t_hash ta (rid (Rose i rs))) (t_hash tb (rid c')) = true \/
               t_opaque ta (rid (Rose i rs)) = true \/ t_opaque tb (rid c') = true)) as Hno.
    { intros Hs. destruct (TW _ _ HF Hs Hn) as [(y & Y1 & Y2) (x & X1 & X2)].
      destruct HS as [HS|HS].
      - rewrite (HS _ _ Y1 Y2) in Ca; [done|apply preorder_rid].
      - rewrite (HS _ _ X1 X2) in Cb; [done|apply preorder_rid]. }
    destruct (heqb _ _) eqn:Eh in E; [exfalso; naive_solver|]. cbn [andb] in E.
    destruct (t_opaque ta _) eqn:Eo in E; [exfalso; naive_solver|].
    destruct (t_opaque tb _) eqn:Eo' in E; [exfalso; naive_solver|]. cbn [orb] in E.
    revert E. apply gskip_all. intros [x y] Hp. apply elem_of_list_In, in_rev, elem_of_list_In in Hp.
    unfold td_push in Hp. apply elem_flat_map in Hp as (x' & Hx & Hp). apply elem_flat_map in Hp as (y' & Hy & Hp).
    destruct (negb _ && _) eqn:Eg; [|by apply elem_of_nil in Hp]. apply elem_of_list_singleton in Hp as [= -> ->].
    rewrite (pr_children _ _ PA _ Sa) in Hx. rewrite (pr_children _ _ PB _ Sb) in Hy. cbn [rsub] in Hx.
    apply elem_of_list_fmap in Hx as (u & -> & Hu). apply elem_of_list_fmap in Hy as (u' & -> & Hu').
    assert (subt u ra) as Su by (eapply subt_trans; [by apply (subt_child u (Rose i rs))|done]).
    assert (subt u' rb) as Su' by (eapply subt_trans; [by apply subt_child|done]).
    assert (keqb (t_kind ta (rid u)) (t_kind tb (rid u')) = true) as Ek.
    { apply andb_true_iff in Eg as [_ Eg]. apply orb_true_iff in Eg as [Eg|Eg]; [|done]. apply HK; [| |done].
      - apply (pr_iter_subt _ _ PA). by exists u.
      - apply (pr_iter_subt _ _ PB). by exists u'. }
    assert (forall x, x ∈ preorder u -> x ∈ preorder (Rose i rs)) as Iu.
    { intros x Hx. rewrite preorder_eq. right. apply elem_flat_map. by exists u. }
    assert (forall x, x ∈ preorder u' -> x ∈ preorder c') as Iu'.
    { intros x Hx. rewrite preorder_eq. right. apply elem_flat_map. by exists u'. }
    apply IH; try done.
    - by eapply (sees_child (Rose i rs) c').
    - intros x y Hx Hy. apply HD; auto.
    - destruct HS as [HS|HS]; [left|right]; intros x y H1 H2 H3; eapply HS; eauto.
  Qed.


  (** The pairs below [c] and [c']. *)
  Definition holder (c c' : rose) (L : list (nat * nat)) : Prop :=
    (forall p, p ∈ L -> p ∈ Z) /\
    (forall x y, (x, y) ∈ Z -> x ∈ preorder c \/ y ∈ preorder c' -> (x, y) ∈ L).

  Definition gdiag_done (c c' : rose) (L : list (nat * nat)) : Prop := forall m sf fuel st mf,
    rheight c < sf ->
    (forall x, x ∈ preorder c -> contains_a m x = false) ->
    (forall y, y ∈ preorder c' -> contains_b m y = false) ->
    tdl fuel sf ((rid c, rid c') :: st) m = Some mf ->
    exists fuel' l, tdl fuel' sf st (madds m l) = Some mf /\
      (forall p, p ∈ l -> p ∈ L) /\
      (forall x y, (x, y) ∈ L -> setl x y -> (x, y) ∈ l).

  (** All pairs of children, the last one first. *)
  Section Rows.
    Variables c c' : rose.
    Variable ks : list entry.
    Hypothesis FC : sees c c'.
    Hypothesis OW : holder c c' ((rid c, rid c') :: pairs_of ks).
    Hypothesis Oa : t_opaque ta (rid c) = false.
    Hypothesis Ob : t_opaque tb (rid c') = false.
    Hypothesis KS : StronglySorted later ks.
    Hypothesis KC : forall k k' L, (k, (k', L)) ∈ ks -> exists u u', rsub c !! k = Some u /\ rsub c' !! k' = Some u' /\ growm u u' L /\
         (k = k' \/ setl (rid u) (rid u')).
    Hypothesis IH : forall u u' L, u ∈ rsub c -> sees u u' -> growm u u' L -> holder u u' L -> gdiag_done u u' L.
    Variable m0 : matching.
    Hypothesis Ca : forall x, x ∈ preorder c -> contains_a m0 x = false.
    Hypothesis Cb : forall y, y ∈ preorder c' -> contains_b m0 y = false.

    Let Sa : subt c ra := proj1 (sees_subt _ _ FC).
    Let Sb : subt c' rb := proj2 (sees_subt _ _ FC).

    Lemma g_nodup_a : NoDup (flat_map preorder (rsub c)).
    Proof using PA FC.
      pose proof (subt_nodup _ _ (pr_nodup _ _ PA) Sa) as NA. rewrite preorder_eq in NA. by apply NoDup_cons in NA as [_ NA].
    Qed.
    Lemma g_nodup_b : NoDup (flat_map preorder (rsub c')).
    Proof using PB FC.
      pose proof (subt_nodup _ _ (pr_nodup _ _ PB) Sb) as NA. rewrite preorder_eq in NA. by apply NoDup_cons in NA as [_ NA].
    Qed.

    (** A pair of [Z] with a node below the child [u] (or [u']). *)
    Lemma own_a k u x y : rsub c !! k = Some u -> (x, y) ∈ Z -> x ∈ preorder u ->
      exists k' L, (k, (k', L)) ∈ ks /\ (x, y) ∈ L.
    Proof using PA FC OW KC.
      intros Hu HZ Hx. destruct OW as [_ O].
      assert (x ∈ flat_map preorder (rsub c)) as Hxf.
      { apply elem_flat_map. exists u. split; [by eapply elem_of_list_lookup_2|done]. }
      assert ((x, y) ∈ (rid c, rid c') :: pairs_of ks) as Hin.
      { apply O; [done|]. left. rewrite preorder_eq. by right. }
      apply elem_of_cons in Hin as [[= -> ->]|Hin].
      { exfalso. pose proof (subt_nodup _ _ (pr_nodup _ _ PA) Sa) as NA. rewrite preorder_eq in NA. by apply NoDup_cons in NA as [NA _]. }
      apply pairs_elem in Hin as (k1 & k' & L & Hk & Hin). destruct (KC _ _ _ Hk) as (v & v' & Hv & Hv' & Hg & _).
      assert (k1 = k) as ->; [|by exists k', L].
      eapply (nodup_flat_index _ g_nodup_a); [exact Hv|exact Hu| |exact Hx]. by eapply grow_in_a.
    Qed.
    Lemma own_b k' u' x y : rsub c' !! k' = Some u' -> (x, y) ∈ Z -> y ∈ preorder u' ->
      exists k L, (k, (k', L)) ∈ ks /\ (x, y) ∈ L.
    Proof using PB FC OW KC.
      intros Hu HZ Hx. destruct OW as [_ O].
      assert (y ∈ flat_map preorder (rsub c')) as Hxf.
      { apply elem_flat_map. exists u'. split; [by eapply elem_of_list_lookup_2|done]. }
      assert ((x, y) ∈ (rid c, rid c') :: pairs_of ks) as Hin.
      { apply O; [done|]. right. rewrite preorder_eq. by right. }
      apply elem_of_cons in Hin as [[= -> ->]|Hin].
      { exfalso. pose proof (subt_nodup _ _ (pr_nodup _ _ PB) Sb) as NA. rewrite preorder_eq in NA. by apply NoDup_cons in NA as [NA _]. }
      apply pairs_elem in Hin as (k1 & k2 & L & Hk & Hin). destruct (KC _ _ _ Hk) as (v & v' & Hv & Hv' & Hg & _).
      assert (k2 = k') as ->; [|by exists k1, L].
      eapply (nodup_flat_index _ g_nodup_b); [exact Hv'|exact Hu| |exact Hx]. by eapply grow_in_b.
    Qed.
    Lemma ks_same_a k k1 k2 L1 L2 : (k, (k1, L1)) ∈ ks -> (k, (k2, L2)) ∈ ks -> k1 = k2 /\ L1 = L2.
    Proof using KS.
      intros H1 H2. destruct (later_order _ _ _ KS H1 H2) as [[= -> ->]|[[? _]|[? _]]]; cbn in *; [done|lia|lia].
    Qed.
    Lemma ks_same_b k k1 k2 L1 L2 : (k1, (k, L1)) ∈ ks -> (k2, (k, L2)) ∈ ks -> k1 = k2 /\ L1 = L2.
    Proof using KS.
      intros H1 H2. destruct (later_order _ _ _ KS H1 H2) as [[= -> ->]|[[_ ?]|[_ ?]]]; cbn in *; [done|lia|lia].
    Qed.

    Lemma own_entry k k' L u u' : (k, (k', L)) ∈ ks -> rsub c !! k = Some u -> rsub c' !! k' = Some u' -> holder u u' L.
    Proof using PA PB FC OW KC KS.
      intros Hk Hu Hu'. split.
      - intros p Hp. apply OW. right. apply pairs_elem. by exists k, k', L.
      - intros x y HZ [Hx|Hy].
        + destruct (own_a k u x y Hu HZ Hx) as (k2 & L2 & H1 & H2). by destruct (ks_same_a _ _ _ _ _ Hk H1) as [_ ->].
        + destruct (own_b k' u' x y Hu' HZ Hy) as (k2 & L2 & H1 & H2). by destruct (ks_same_b _ _ _ _ _ Hk H1) as [_ ->].
    Qed.

    Notation pushes := (pushed heqb keqb ta tb).

    Lemma gtd_push_rows : td_push heqb keqb ta tb m0 (rid c) (rid c') = flat_map (fun u => pushes u (rsub c')) (rsub c).
    Proof using PA PB FC Cb.
      unfold td_push, pushed.
      rewrite (pr_children _ _ PA _ Sa), (pr_children _ _ PB _ Sb).
      rewrite flat_map_concat_map, map_map, <- flat_map_concat_map. apply flat_map_ext. intros u.
      assert (forall y, y ∈ map rid (rsub c') -> contains_b m0 y = false) as HC.
      { intros y Hy. apply Cb. apply elem_of_list_fmap in Hy as (v & -> & Hv). rewrite preorder_eq. right.
        apply elem_flat_map. exists v. split; [done|apply preorder_rid]. }
      revert HC. generalize (map rid (rsub c')). intros l. induction l as [|y l IHl]; intros HC; [done|].
      cbn [flat_map]. rewrite (HC y) by left. cbn [negb andb]. f_equal. apply IHl. intros z Hz. apply HC. by right.
    Qed.

    (** The pairs from row [i] on. *)
    Definition in_rows (i : nat) (p : nat * nat) : Prop := exists k k' L, i <= k /\ (k, (k', L)) ∈ ks /\ p ∈ L.

    Lemma grows sf st mf : (forall u, u ∈ rsub c -> rheight u < sf) -> forall i, i <= length (rsub c) -> forall fuel l0,
      (forall p, p ∈ l0 -> in_rows i p) ->
      (forall x y, in_rows i (x, y) -> setl x y -> (x, y) ∈ l0) ->
      tdl fuel sf (rev (flat_map (fun u => pushes u (rsub c')) (take i (rsub c))) ++ st) (madds m0 l0) = Some mf ->
      exists fuel' l, tdl fuel' sf st (madds m0 l) = Some mf /\
        (forall p, p ∈ l -> in_rows 0 p) /\
        (forall x y, in_rows 0 (x, y) -> setl x y -> (x, y) ∈ l).
    Proof using PA PB AL HK TW FC OW Oa Ob KS KC IH Ca Cb.
      intros Hsf.
      assert (forall k u, rsub c !! k = Some u -> forall x, x ∈ preorder u -> x ∈ preorder c) as Ia.
      { intros k u Hu x Hx. rewrite preorder_eq. right. apply elem_flat_map. exists u. split; [|done]. by eapply elem_of_list_lookup_2. }
      assert (forall k u, rsub c' !! k = Some u -> forall x, x ∈ preorder u -> x ∈ preorder c') as Ib.
      { intros k u Hu x Hx. rewrite preorder_eq. right. apply elem_flat_map. exists u. split; [|done]. by eapply elem_of_list_lookup_2. }
      induction i as [|i IHi]; intros Hi fuel l0 H1 H2 E.
      { cbn [take flat_map rev app] in E. exists fuel, l0. done. }
      destruct (lookup_lt_is_Some_2 (rsub c) i) as (u & Hu); [lia|].
      rewrite (take_S_r _ _ _ Hu), flat_map_app, rev_app_distr in E. cbn [flat_map] in E. rewrite app_nil_r, <- app_assoc in E.
      assert (u ∈ rsub c) as Hui by by eapply elem_of_list_lookup_2.
      assert (forall v', v' ∈ rsub c' ->
                heqb (t_hash ta (rid u)) (t_hash tb (rid v')) || keqb (t_kind ta (rid u)) (t_kind tb (rid v')) = true ->
                sees u v') as HX.
      { intros v' Hv Eg. eapply (sees_child c c'); try done. apply orb_true_iff in Eg as [Eg|Eg]; [|done]. apply HK; [| |done].
        - apply (pr_iter_subt _ _ PA). exists u. split; [|done]. eapply subt_trans; [by apply subt_child|done].
        - apply (pr_iter_subt _ _ PB). exists v'. split; [|done]. eapply subt_trans; [by apply subt_child|done]. }
      assert (forall us p, p ∈ rev (pushes u us) -> exists v', v' ∈ us /\ p = (rid u, rid v') /\
                heqb (t_hash ta (rid u)) (t_hash tb (rid v')) || keqb (t_kind ta (rid u)) (t_kind tb (rid v')) = true) as HPu.
      { intros us p Hp. apply elem_of_list_In, in_rev, elem_of_list_In in Hp. unfold pushed in Hp.
        apply elem_flat_map in Hp as (y0 & Hy & Hp). destruct (_ || _) eqn:Eg; [|by apply elem_of_nil in Hp].
        apply elem_of_list_singleton in Hp as ->. apply elem_of_list_fmap in Hy as (v' & -> & Hv). by exists v'. }
      assert ((exists k' L, (i, (k', L)) ∈ ks) \/ ~ exists k' L, (i, (k', L)) ∈ ks) as [(k' & L & Hk)|Hno].
      { destruct (decide (i ∈ map fst ks)) as [Hk|Hk].
        - apply elem_of_list_fmap in Hk as ([k0 [k' L]] & -> & Hk). left. by exists k', L.
        - right. intros (k' & L & Hk'). apply Hk. apply elem_of_list_fmap. by exists (i, (k', L)). }
      2:{ (* a node without counterpart *)
          assert (forall x y, x ∈ preorder u -> (x, y) ∉ Z) as HnZ.
          { intros x y Hx HZ. destruct (own_a i u x y Hu HZ Hx) as (k' & L & Hk & _). apply Hno. eauto. }
          apply gskip_all in E.
          2:{ intros p Hp. apply HPu in Hp as (v' & Hv & -> & Eg). apply gcross_skipped; [by apply HX| |].
              - intros x y Hx _. by apply HnZ.
              - left. intros x y HZ _ Hx. by destruct (HnZ x y Hx). }
          destruct E as (f1 & E). apply IHi in E; [done|lia| |].
          - intros p Hp. apply H1 in Hp as (k & k' & L & Hlt & Hk & Hp). exists k, k', L. split; [lia|done].
          - intros x y (k & k' & L & Hlt & Hk & Hp) Hs. apply H2; [|done]. exists k, k', L. split; [|done].
            destruct (decide (k = i)) as [->|]; [|lia]. exfalso. apply Hno. eauto. }
      destruct (KC _ _ _ Hk) as (u0 & u' & Hu0 & Hu' & HN & _). assert (u0 = u) as -> by congruence. clear Hu0.
      pose proof (own_entry _ _ _ _ _ Hk Hu Hu') as OE.
      assert (rsub c' = take k' (rsub c') ++ u' :: drop (S k') (rsub c')) as Es by (symmetry; by apply take_drop_middle).
      assert (keqb (t_kind ta (rid u)) (t_kind tb (rid u')) = true) as Eku by (by destruct (grow_R _ _ _ _ _ _ HN)).
      assert (pushes u (rsub c') = pushes u (take k' (rsub c')) ++ (rid u, rid u') :: pushes u (drop (S k') (rsub c'))) as Ep.
      { rewrite Es at 1. unfold pushed. rewrite map_app, flat_map_app. cbn [map flat_map]. rewrite Eku, orb_true_r. done. }
      rewrite Ep, rev_app_distr in E. cbn [rev] in E. rewrite <- !app_assoc in E. cbn [app] in E.
      assert (u' ∈ rsub c') as Hui' by by eapply elem_of_list_lookup_2.
      assert (forall k2 v', rsub c' !! k2 = Some v' -> k2 <> k' -> forall x y, x ∈ preorder u -> y ∈ preorder v' -> (x, y) ∉ Z) as HD.
      { intros k2 v' Hv Hne x y Hx Hy HZ. destruct OE as [_ O]. pose proof (O x y HZ (or_introl Hx)) as Hz.
        pose proof (grow_in_b _ _ _ _ _ _ _ _ HN Hz) as Hyb. apply Hne. by eapply (nodup_flat_index _ g_nodup_b). }
      (* pairs with later nodes *)
      apply gskip_all in E.
      2:{ intros p Hp. apply HPu in Hp as (v' & Hv & -> & Eg). apply elem_of_list_lookup_1 in Hv as (k2 & Hk2). rewrite lookup_drop in Hk2.
          apply gcross_skipped.
          - apply HX; [by eapply elem_of_list_lookup_2|done].
          - apply (HD _ _ Hk2). lia.
          - right. intros x y HZ Hset Hy. apply madds_contains_b. right. apply (elem_snd _ x). apply H2; [|done].
            destruct (own_b _ v' x y Hk2 HZ Hy) as (k3 & L3 & Hk3 & Hin). exists k3, (S k' + k2), L3. split; [|done].
            destruct (later_order _ _ _ KS Hk Hk3) as [[= -> ? ?]|[[? _]|[_ ?]]]; cbn in *; lia. }
      destruct E as (f1 & E).
      (* the pair itself *)
      assert (forall x, x ∈ preorder u -> contains_a (madds m0 l0) x = false) as Ca1.
      { intros x Hx. apply Bool.not_true_iff_false. rewrite madds_contains_a. intros [Hc|Hc].
        - rewrite Ca in Hc; [done|]. by eapply Ia.
        - apply fst_elem in Hc as (y & Hc). apply H1 in Hc as (k & k2 & L2 & Hlt & Hk2 & Hz).
          destruct (KC _ _ _ Hk2) as (v & v' & Hv & Hv' & Hg & _). pose proof (grow_in_a _ _ _ _ _ _ _ _ Hg Hz) as Hxa.
          assert (k = i); [|lia]. by eapply (nodup_flat_index _ g_nodup_a). }
      assert (forall x, x ∈ preorder u' -> contains_b (madds m0 l0) x = false) as Cb1.
      { intros x Hx. apply Bool.not_true_iff_false. rewrite madds_contains_b. intros [Hc|Hc].
        - rewrite Cb in Hc; [done|]. by eapply Ib.
        - apply snd_elem in Hc as (y & Hc). apply H1 in Hc as (k & k2 & L2 & Hlt & Hk2 & Hz).
          destruct (KC _ _ _ Hk2) as (v & v' & Hv & Hv' & Hg & _). pose proof (grow_in_b _ _ _ _ _ _ _ _ Hg Hz) as Hxa.
          assert (k2 = k') as -> by by eapply (nodup_flat_index _ g_nodup_b).
          destruct (ks_same_b _ _ _ _ _ Hk Hk2) as [-> _]. lia. }
      assert (sees u u') as FU by by eapply (sees_child c c').
      destruct (IH u u' L Hui FU HN OE (madds m0 l0) sf f1 _ mf (Hsf u Hui) Ca1 Cb1 E) as (f2 & l1 & E2 & L1 & L2).
      rewrite <- madds_app in E2.
      (* pairs with earlier nodes *)
      apply gskip_all in E2.
      2:{ intros p Hp. apply HPu in Hp as (v' & Hv & -> & Eg). apply elem_of_list_lookup_1 in Hv as (k2 & Hk2).
          apply lookup_take_Some in Hk2 as [Hk2 Hlt].
          apply gcross_skipped.
          - apply HX; [by eapply elem_of_list_lookup_2|done].
          - apply (HD _ _ Hk2). lia.
          - left. intros x y HZ Hset Hx. apply madds_contains_a. right. apply (elem_fst _ _ y). apply elem_of_app. right. apply L2; [|done].
            destruct OE as [_ O]. apply O; [done|by left]. }
      destruct E2 as (f3 & E3).
      apply IHi in E3; [done|lia| |].
      - intros p Hp. apply elem_of_app in Hp as [Hp|Hp].
        + apply H1 in Hp as (k & v & v' & Hlt & Hp). exists k, v, v'. split; [lia|done].
        + exists i, k', L. split; [lia|]. split; [done|]. by apply L1.
      - intros x y (k & k2 & L3 & Hlt & Hk2 & Hz) Hset. apply elem_of_app. destruct (decide (k = i)) as [->|Hne].
        + right. destruct (ks_same_a _ _ _ _ _ Hk Hk2) as [_ ->]. by apply L2.
        + left. apply H2; [|done]. exists k, k2, L3. split; [lia|done].
    Qed.
  End Rows.

  Lemma gdiag_all c : forall c' L, sees c c' -> growm c c' L -> holder c c' L -> gdiag_done c c' L.
  Proof using PA PB AL HK TW.
    induction c as [i rs IH] using rose_ind'. intros c' L FC HN OW m sf fuel st mf Hh Ca Cb E.
    destruct (sees_subt _ _ FC) as [Sa Sb].
    destruct fuel as [|fuel]; [done|]. cbn [td_loop] in E.
    rewrite (Ca (rid (Rose i rs))) in E by apply preorder_rid. rewrite (Cb (rid c')) in E by apply preorder_rid.
    cbn [orb min_height cfg Nat.ltb Nat.leb] in E.
    pose proof (sees_kind _ _ FC) as Ek. rewrite Ek, andb_true_r in E.
    assert (t_opaque ta (rid (Rose i rs)) = t_opaque tb (rid c')) as Eo by (by destruct (grow_R _ _ _ _ _ _ HN) as (_ & _ & HO)).
    inversion HN as [i0 j rs0 rs' Hm HNN|i0 j rs0 rs' HR Hm Hs|i0 j rs0 rs' ks HR Hm Hs KS KC]; subst; cbn [rid rsub] in *;
      unfold same in Hm; rewrite Hm in E; cbn [andb] in E.
    - rewrite (match_near keqb ta tb ra rb PA PB (Rose i rs) (Rose j rs')) in E by done.
      exists fuel, (zips stop (Rose i rs) (Rose j rs')). done.
    - unfold stop in Hs. rewrite Hs in E. cbn [orb] in E. exists fuel, [(i, j)]. done.
    - unfold stop in Hs. rewrite <- Eo, Hs in E. cbn [orb] in E.
      pose proof (gtd_push_rows (Rose i rs) (Rose j rs') FC m Cb) as Etd. cbn [rid rsub] in Etd. rewrite Etd in E. clear Etd.
      rewrite <- (firstn_all rs) in E at 1.
      apply (grows (Rose i rs) (Rose j rs') ks FC OW Hs) with (l0 := []) in E; try done.
      + destruct E as (f' & l & E & L1 & L2). exists f', l. split; [done|]. split.
        * intros p Hp. right. apply L1 in Hp as (k & k' & L & _ & Hk & Hp). apply pairs_elem. by exists k, k', L.
        * intros x y Hz Hset. apply elem_of_cons in Hz as [[= -> ->]|Hz].
          -- destruct Hset as [Hset|Hset]; unfold same, stop in Hset; congruence.
          -- apply L2; [|done]. apply pairs_elem in Hz as (k & k' & L & Hk & Hz). exists k, k', L. split; [lia|done].
      + cbn [rid]. by rewrite <- Eo.
      + intros u u' L Hu. by apply IH.
      + intros u Hu. pose proof (rheight_child (Rose i rs) u Hu). lia.
      + intros p Hp. by apply elem_of_nil in Hp.
      + intros x y (k & k' & L & Hk & Hin & _) _. exfalso. destruct (KC _ _ _ Hin) as (u & u' & Hu & _). cbn [rsub] in *.
        apply lookup_lt_Some in Hu. lia.
  Qed.

  Lemma gtop_down m : top_down heqb keqb cfg ta tb m_empty = Some m ->
    exists l, m = madds m_empty l /\ (forall p, p ∈ l -> p ∈ Z) /\ (forall x y, (x, y) ∈ Z -> setl x y -> (x, y) ∈ l).
  Proof using PA PB AL HK TW.
    unfold top_down. intros E. rewrite (pr_root _ _ PA), (pr_root _ _ PB) in E.
    apply (gdiag_all ra rb Z sees_root AL) in E; try done.
    - destruct E as (f & l & E & L). exists l. split; [|done]. destruct f; cbn [td_loop] in E; by injection E as <-.
    - rewrite (pr_iter _ _ PA). pose proof (rheight_lt_size ra). lia.
  Qed.

  (** ** The second phase *)

  Hypothesis RP : t_parent ta (rid ra) = None.
  (** Only the root has its kind. *)
  Hypothesis UB : forall y, y ∈ t_iter tb -> y ∉ opaque_descendants tb ->
    keqb (t_kind tb y) (t_kind ta (rid ra)) = true -> y = rid rb.
  Hypothesis SIM : forall x y, (x, y) ∈ Z -> setl x y \/ ge_thr cfg (sim (t_props ta x) (t_props tb y)) = true.
  (** Enough of the trees is unchanged, or both roots have no parent. *)
  Hypothesis HALF : setl (rid ra) (rid rb) \/
    rsub rb <> [] /\
    (t_parent tb (rid rb) = None \/
     exists S, NoDup (map fst S) /\ (forall x y, (x, y) ∈ S -> (x, y) ∈ Z /\ setl x y) /\
       ge_thr cfg (2 * length S, length (preorder ra) + length (preorder rb)) = true).

  Hypothesis N1 : 1 <= n.
  (** Nodes without counterpart do not resemble one another. *)
  Hypothesis KD : forall x y, x ∈ t_iter ta -> x ∉ opaque_descendants ta -> x ∉ map fst Z ->
    y ∈ t_iter tb -> y ∉ opaque_descendants tb -> y ∉ map snd Z ->
    keqb (t_kind tb y) (t_kind ta x) = false \/
    heqb (t_hash tb y) (t_hash ta x) = false /\ ge_thr cfg (sim (t_props ta x) (t_props tb y)) = false.

  Definition gpart (l : list (nat * nat)) : Prop :=
    (forall p, p ∈ l -> p ∈ Z) /\ (forall x y, (x, y) ∈ Z -> setl x y -> (x, y) ∈ l) /\ bijection (madds m_empty l).

  Lemma gpart_contains_a l x y : gpart l -> (x, y) ∈ Z ->
    (contains_a (madds m_empty l) x = true <-> (x, y) ∈ l).
  Proof.
    intros (L1 & _) HZ. rewrite madds_contains_a. split.
    - intros [Hc|Hc]; [done|]. apply fst_elem in Hc as (y' & Hc). by rewrite (gZ_fun x y y' HZ (L1 _ Hc)).
    - intros Hin. right. by eapply elem_fst.
  Qed.
  Lemma gpart_contains_b l x y : gpart l -> (x, y) ∈ Z ->
    (contains_b (madds m_empty l) y = true <-> (x, y) ∈ l).
  Proof.
    intros (L1 & _) HZ. rewrite madds_contains_b. split.
    - intros [Hc|Hc]; [done|]. apply snd_elem in Hc as (x' & Hc). by rewrite (gZ_inj x x' y HZ (L1 _ Hc)).
    - intros Hin. right. by eapply elem_snd.
  Qed.
  Lemma gpart_get_b l x y : gpart l -> (x, y) ∈ l -> get_b (madds m_empty l) x = Some y.
  Proof. intros (_ & _ & B) Hin. apply (bij_fwd _ B). rewrite madds_pairs. done. Qed.

  Lemma gpart_add l x y : gpart l -> (x, y) ∈ Z -> contains_a (madds m_empty l) x = false ->
    m_add (madds m_empty l) x y = madds m_empty (l ++ [(x, y)]) /\ gpart (l ++ [(x, y)]).
  Proof.
    intros HP HZ Hc. split; [by rewrite madds_app|]. pose proof HP as (L1 & L2 & B). split_and!.
    - intros p Hp. apply elem_of_app in Hp as [Hp|Hp]; [by apply L1|]. by apply elem_of_list_singleton in Hp as ->.
    - intros x' y' HZ' Hs. apply elem_of_app. left. by apply L2.
    - rewrite madds_app. cbn [madds fold_left fst snd]. apply bijection_add; [done| |].
      + done.
      + apply Bool.not_true_iff_false. rewrite (gpart_contains_b l x y HP HZ).
        rewrite <- (gpart_contains_a l x y HP HZ). by rewrite Hc.
  Qed.


  Lemma groot_pair : (rid ra, rid rb) ∈ Z.
  Proof using AL. by eapply grow_root. Qed.
  Lemma gZ_iter_a x y : (x, y) ∈ Z -> x ∈ t_iter ta.
  Proof using PA AL. intros HZ. rewrite (pr_iter _ _ PA). by eapply grow_in_a. Qed.
  Lemma gZ_iter_b x y : (x, y) ∈ Z -> y ∈ t_iter tb.
  Proof using PB AL. intros HZ. rewrite (pr_iter _ _ PB). by eapply grow_in_b. Qed.
  Lemma gZ_kind x y : (x, y) ∈ Z -> mate_node keqb ta tb x y.
  Proof using AL. intros HZ. by destruct (grow_subt _ _ _ _ _ _ _ _ AL HZ) as (s & s' & _ & _ & HN & -> & -> & _). Qed.

  Lemma outside_a x y : (x, y) ∈ Z -> x ∉ opaque_descendants ta.
  Proof using PA AL.
    intros HZ Ho. apply (opaque_desc_elem ta) in Ho as (o & O1 & O2 & O3 & O4).
    apply (pr_iter_subt _ _ PA) in O1 as (v & Sv & <-). rewrite (pr_desc _ _ PA v Sv) in O3. apply preorder_subt in O3 as (s & Hs & <-).
    destruct (grow_above_a _ _ _ _ _ _ AL (pr_nodup _ _ PA) _ s y v (le_n _)) as (y' & _ & Hst); try done.
    - by eapply subt_trans.
    - by intros ->.
    - unfold stop in Hst. congruence.
  Qed.
  Lemma outside_b x y : (x, y) ∈ Z -> y ∉ opaque_descendants tb.
  Proof using PB AL.
    intros HZ Ho. apply (opaque_desc_elem tb) in Ho as (o & O1 & O2 & O3 & O4).
    apply (pr_iter_subt _ _ PB) in O1 as (v & Sv & <-). rewrite (pr_desc _ _ PB v Sv) in O3. apply preorder_subt in O3 as (s & Hs & <-).
    destruct (grow_above_b _ _ _ _ _ _ AL (pr_nodup _ _ PB) _ s x v (le_n _)) as (y' & Hin & Hst); try done.
    - by eapply subt_trans.
    - by intros ->.
    - destruct (gZ_kind _ _ Hin) as (_ & _ & Eo). unfold stop in Hst. congruence.
  Qed.

  Lemma gpass1_root l opb : gpart l -> contains_a (madds m_empty l) (rid ra) = false ->
    rid rb ∉ opb -> (forall y, y ∈ opaque_descendants tb -> y ∈ opb) ->
    forall m1, (forall y, contains_b m1 y = true -> contains_b (madds m_empty l) y = true) ->
    pass1_step keqb sim cfg ta tb (opaque_descendants ta) (b_index tb m1 opb) (madds m_empty l) (rid ra)
    = m_add (madds m_empty l) (rid ra) (rid rb).
  Proof.
    intros HP Hc Hrb Hopb m1 Hm1. pose proof groot_pair as HZ. pose proof HP as (L1 & L2 & B).
    assert (contains_b (madds m_empty l) (rid rb) = false) as Hcb.
    { apply Bool.not_true_iff_false. rewrite (gpart_contains_b l _ _ HP HZ), <- (gpart_contains_a l _ _ HP HZ). by rewrite Hc. }
    destruct HALF as [Hs|[Hne Hh]].
    { exfalso. pose proof (L2 _ _ HZ Hs) as Hin. apply (gpart_contains_a l _ _ HP HZ) in Hin. by rewrite Hc in Hin. }
    assert (ge_thr cfg (sim (t_props ta (rid ra)) (t_props tb (rid rb))) = true) as Hsim.
    { destruct (SIM _ _ HZ) as [Hs|Hs]; [|done]. exfalso.
      pose proof (L2 _ _ HZ Hs) as Hin. apply (gpart_contains_a l _ _ HP HZ) in Hin. by rewrite Hc in Hin. }
    unfold pass1_step. rewrite Hc. cbn [orb].
    assert (mem (rid ra) (opaque_descendants ta) = false) as ->.
    { apply mem_false. rewrite <- (pr_root _ _ PA). by eapply root_not_opaque_desc. }
    unfold matched_parent_b. rewrite RP.
    assert (by_kind keqb tb (b_index tb m1 opb) (t_kind ta (rid ra)) = [rid rb]) as El.
    { unfold by_kind, b_index. rewrite (pr_iter _ _ PB). pose proof (pr_nodup _ _ PB) as ND.
      pose proof UB as UB'. rewrite (pr_iter _ _ PB) in UB'. rewrite preorder_eq in *.
      apply NoDup_cons in ND as [ND _]. cbn [List.filter].
      assert (contains_b m1 (rid rb) = false) as ->.
      { apply Bool.not_true_iff_false. intros Hm. apply Hm1 in Hm. congruence. }
      assert (mem (rid rb) opb = false) as -> by by apply mem_false.
      cbn [negb andb List.filter]. destruct (gZ_kind _ _ HZ) as (_ & -> & _). f_equal.
      assert (forall y, y ∈ flat_map preorder (rsub rb) -> y ∉ opb -> keqb (t_kind tb y) (t_kind ta (rid ra)) = false) as HN.
      { intros y Hy Ho. apply Bool.not_true_iff_false. intros HkE. apply ND. rewrite <- (UB' y); [done|by right| |done].
        intros Hin. apply Ho. by apply Hopb. }
      revert HN. generalize (flat_map preorder (rsub rb)). intros k. induction k as [|y k IHk]; intros HN; [done|].
      cbn [List.filter]. destruct (negb (contains_b m1 y) && negb (mem y opb)) eqn:Eb.
      - cbn [List.filter]. rewrite HN; [|left|]. { apply IHk. intros z Hz. apply HN. by right. }
        apply andb_true_iff in Eb as [_ Eb]. apply negb_true_iff in Eb. by apply mem_false.
      - apply IHk. intros z Hz. apply HN. by right. }
    unfold dice_best, root_candidate. rewrite El. cbn [fold_left find]. unfold dice_step.
    rewrite Hcb. rewrite (pr_children _ _ PB _ (subt_refl _)), map_length.
    destruct (rsub rb) as [|u us] eqn:Er; [done|]. cbn [length Nat.eqb].
    assert (ancestry_compatible ta tb (madds m_empty l) (rid ra) (rid rb) = true) as ->.
    { unfold ancestry_compatible. rewrite RP. destruct (t_parent tb (rid rb)) as [p|] eqn:Ep; [|done].
      destruct (get_a (madds m_empty l) p) as [z|] eqn:Ez; [|done]. exfalso.
      apply (pr_root_parent _ _ PB p Ep). apply (bij_bwd _ B) in Ez. rewrite madds_pairs in Ez. cbn [m_pairs m_empty app] in Ez.
      apply L1 in Ez. by eapply (grow_in_b _ _ _ _ _ _ _ _ AL). }
    rewrite Hsim. cbn [negb]. rewrite andb_true_r.
    destruct Hh as [Hpb|(S & S1 & S2 & S3)].
    - destruct (ge_thr cfg (dice ta tb (madds m_empty l) (rid ra) (rid rb))); [done|]. rewrite Hpb. done.
    - assert (ge_thr cfg (dice ta tb (madds m_empty l) (rid ra) (rid rb)) = true) as ->; [|done].
      assert (dice ta tb (madds m_empty l) (rid ra) (rid rb) =
              (2 * dice_common ta tb (madds m_empty l) (rid ra) (rid rb), length (preorder ra) + length (preorder rb))) as Ed.
      { unfold dice. rewrite (pr_desc _ _ PA _ (subt_refl _)), (pr_desc _ _ PB _ (subt_refl _)). by rewrite (preorder_eq ra). }
      rewrite Ed. clear Ed. revert S3. unfold ge_thr. cbn [fst snd]. rewrite !Nat.leb_le. intros S3.
      assert (length S <= dice_common ta tb (madds m_empty l) (rid ra) (rid rb)) as Hle; [|nia].
      unfold dice_common. rewrite (pr_desc _ _ PA _ (subt_refl _)), (pr_desc _ _ PB _ (subt_refl _)).
      rewrite <- (map_length fst S). apply NoDup_incl_length; [by apply NoDup_ListNoDup|].
      intros x Hx. apply elem_of_list_In, fst_elem in Hx as (y & Hx). destruct (S2 _ _ Hx) as [Hz Hs].
      apply filter_In. split; [apply elem_of_list_In; by eapply (grow_in_a _ _ _ _ _ _ _ _ AL)|].
      rewrite (gpart_get_b l x y HP (L2 _ _ Hz Hs)). apply mem_true. by eapply (grow_in_b _ _ _ _ _ _ _ _ AL).
  Qed.

  Lemma gpass1_child l idx u u' k s s' : gpart l -> subt u ra -> subt u' rb ->
    rsub u !! k = Some s -> rsub u' !! k = Some s' -> (rid u, rid u') ∈ l -> (rid s, rid s') ∈ Z ->
    contains_a (madds m_empty l) (rid s) = false -> mem (rid s) (opaque_descendants ta) = false ->
    pass1_step keqb sim cfg ta tb (opaque_descendants ta) idx (madds m_empty l) (rid s)
    = m_add (madds m_empty l) (rid s) (rid s').
  Proof.
    intros HP Su Su' Hs Hs' Hu HZ Hc Ho. pose proof HP as (L1 & L2 & B).
    assert (contains_b (madds m_empty l) (rid s') = false) as Hcb.
    { apply Bool.not_true_iff_false. rewrite (gpart_contains_b l _ _ HP HZ), <- (gpart_contains_a l _ _ HP HZ). by rewrite Hc. }
    unfold pass1_step. rewrite Hc, Ho. cbn [orb]. unfold matched_parent_b.
    destruct (pr_parent _ _ PA u k s Su Hs) as [-> Hpa]. rewrite (gpart_get_b l _ _ HP Hu).
    assert (pos_candidate keqb sim cfg ta tb (madds m_empty l) (rid s) (rid u') = Some (rid s')) as ->; [|done].
    unfold pos_candidate. rewrite (pr_children _ _ PB _ Su'). destruct (pr_parent _ _ PB u' k s' Su' Hs') as [_ Hpb].
    assert (s' ∈ rsub u') as Hin by by eapply elem_of_list_lookup_2.
    apply find_unique.
    - apply elem_of_list_In, filter_In. split; [apply elem_of_list_In; by apply elem_of_list_fmap_1|].
      rewrite Hcb. by destruct (gZ_kind _ _ HZ) as (_ & -> & _).
    - rewrite Hpa, Hpb, Nat.eqb_refl. cbn [andb]. destruct (SIM _ _ HZ) as [Hset|Hset]; [|done].
      pose proof (L2 _ _ HZ Hset) as Hx. apply (gpart_contains_a l _ _ HP HZ) in Hx. by rewrite Hc in Hx.
    - intros y Hy Ey. apply elem_of_list_In, filter_In in Hy as [Hy _]. apply elem_of_list_In, elem_of_list_fmap in Hy as (v & -> & Hv).
      apply elem_of_list_lookup_1 in Hv as (k' & Hk'). destruct (pr_parent _ _ PB u' k' v Su' Hk') as [_ Hpv].
      apply andb_true_iff in Ey as [Ey _]. apply Nat.eqb_eq in Ey. rewrite Hpv, Hpa in Ey. subst k'. congruence.
  Qed.


  (** A node without counterpart is matched with nothing. *)
  Lemma gone_below l a b : gpart l -> a ∈ t_iter ta -> a ∉ map fst Z -> dice_common ta tb (madds m_empty l) a b = 0.
  Proof using PA AL.
    intros (L1 & _ & B) Ha Hno. unfold dice_common. apply (pr_iter_subt _ _ PA) in Ha as (v & Sv & <-). rewrite (pr_desc _ _ PA v Sv).
    assert (forall x, x ∈ preorder v -> get_b (madds m_empty l) x = None) as HN.
    { intros x Hx. destruct (get_b (madds m_empty l) x) as [y|] eqn:E; [|done]. exfalso.
      apply (bij_fwd _ B) in E. rewrite madds_pairs in E. cbn [m_pairs m_empty app] in E. apply L1 in E.
      apply preorder_subt in Hx as (s & Hs & <-). assert (subt s ra) as Ss by by eapply subt_trans.
      assert (s <> v). { intros ->. apply Hno. by eapply elem_fst. }
      destruct (grow_above_a _ _ _ _ _ _ AL (pr_nodup _ _ PA) _ s y v (le_n _)) as (y' & Hin & _); try done.
      apply Hno. by eapply elem_fst. }
    revert HN. generalize (preorder v). intros k. induction k as [|x k IHk]; intros HN; [done|]. cbn [List.filter].
    rewrite (HN x) by left. apply IHk. intros z Hz. apply HN. by right.
  Qed.

  Lemma gone_dice l idx a : gpart l -> a ∈ t_iter ta -> a ∉ map fst Z -> dice_best keqb sim cfg ta tb (madds m_empty l) idx a = None.
  Proof using PA PB AL N1.
    intros HP Ha Hno. unfold dice_best. generalize (by_kind keqb tb idx (t_kind ta a)). intros k.
    induction k as [|b k IHk]; [done|]. cbn [fold_left].
    assert (dice_step sim cfg ta tb (madds m_empty l) a None b = None) as ->; [|done]. unfold dice_step.
    destruct (contains_b _ _); [done|]. destruct (Nat.eqb _ 0); [done|]. destruct (negb _); [done|]. destruct (negb _); [done|].
    assert (ge_thr cfg (dice ta tb (madds m_empty l) a b) = false) as ->; [|done].
    unfold dice. rewrite (gone_below l a b HP Ha Hno).
    pose proof Ha as Ha'. apply (pr_iter_subt _ _ PA) in Ha' as (v & Sv & <-). rewrite (pr_desc _ _ PA v Sv), preorder_eq. cbn [length].
    unfold ge_thr. cbn [fst snd cfg thr_num thr_den]. apply Nat.leb_gt. cbn. nia.
  Qed.

  Lemma find_none {A} (f : A -> bool) l : (forall x, x ∈ l -> f x = false) -> find f l = None.
  Proof using Type.
    induction l as [|z l IH]; intros Hf; [done|]. cbn [find]. rewrite (Hf z) by left. apply IH. intros x Hx. apply Hf. by right.
  Qed.

  (** The nodes of the new tree that may still be matched. *)
  Lemma free_b u u' s' l : gpart l -> subt u ra -> subt u' rb -> (rid u, rid u') ∈ Z -> t_opaque ta (rid u) = false ->
    s' ∈ rsub u' -> rid s' ∈ t_iter tb /\ rid s' ∉ opaque_descendants tb.
  Proof using PA PB AL.
    intros HP Su Su' HZ Ho Hs. destruct (gZ_kind _ _ HZ) as (_ & _ & Eo).
    assert (subt s' rb) as Ss by (eapply subt_trans; [by apply subt_child|done]).
    split; [apply (pr_iter_subt _ _ PB); eauto|].
    apply (not_opaque_child tb rb PB (rid u')).
    - apply (pr_iter_subt _ _ PB). eauto.
    - by eapply outside_b.
    - congruence.
    - rewrite (pr_children _ _ PB _ Su'). by apply elem_of_list_fmap_1.
  Qed.

  (** The parent of a node outside opaque content. *)
  Lemma parent_of x : x ∈ t_iter ta -> x ∉ opaque_descendants ta -> x <> rid ra ->
    exists u s k, subt u ra /\ rsub u !! k = Some s /\ rid s = x /\ t_parent ta x = Some (rid u) /\ t_position ta x = k /\
      t_opaque ta (rid u) = false.
  Proof using PA.
    intros Hx Ho Hr. pose proof Hx as Hx'. apply (pr_iter_subt _ _ PA) in Hx' as (s & Ss & <-).
    destruct (subt_parent ra s Ss) as [->|(u & k & Su & Hs)]; [done|].
    destruct (pr_parent _ _ PA u k s Su Hs) as [Hp Hk]. exists u, s, k. split; [done|]. split; [done|]. split; [done|].
    split; [done|]. split; [done|]. destruct (t_opaque ta (rid u)) eqn:Eo; [|done]. exfalso. apply Ho.
    assert (s ∈ rsub u) as Hsi by by eapply elem_of_list_lookup_2.
    apply (opaque_desc_elem ta). exists (rid u). split; [apply (pr_iter_subt _ _ PA); eauto|]. split; [done|].
    rewrite (pr_desc _ _ PA u Su). split.
    - apply preorder_subt. exists s. split; [by apply subt_child|done].
    - intros E. apply (subt_rid_inj ra) in E; [|apply PA|done|done]. subst u. apply child_size in Hsi. by apply Nat.lt_irrefl in Hsi.
  Qed.

  Lemma not_root x : x ∉ map fst Z -> x <> rid ra.
  Proof using AL. intros Hno ->. apply Hno. eapply elem_fst, groot_pair. Qed.

  Lemma gone_pass1 l idx x : gpart l -> x ∈ t_iter ta -> x ∉ map fst Z ->
    pass1_step keqb sim cfg ta tb (opaque_descendants ta) idx (madds m_empty l) x = madds m_empty l.
  Proof using PA PB AL N1 KD.
    intros HP Hx Hno. unfold pass1_step. destruct (contains_a _ x); [done|]. cbn [orb].
    destruct (mem x (opaque_descendants ta)) eqn:Eo; [done|]. apply mem_false in Eo.
    pose proof (not_root x Hno) as Hr. destruct (parent_of x Hx Eo Hr) as (u & s & k & Su & Hs & <- & Hp & Hk & Hou).
    rewrite (gone_dice l idx (rid s) HP Hx Hno), Hp. unfold matched_parent_b. rewrite Hp.
    destruct (get_b (madds m_empty l) (rid u)) as [pb|] eqn:Eg; [|done].
    pose proof HP as (L1 & L2 & B). apply (bij_fwd _ B) in Eg. rewrite madds_pairs in Eg. cbn [m_pairs m_empty app] in Eg. apply L1 in Eg.
    pose proof (gZ_iter_b _ _ Eg) as Hpb. apply (pr_iter_subt _ _ PB) in Hpb as (u' & Su' & <-).
    unfold pos_candidate. rewrite find_none; [done|]. intros b Hb. apply elem_of_list_In, filter_In in Hb as [Hb Hb2].
    apply elem_of_list_In in Hb. rewrite (pr_children _ _ PB _ Su') in Hb. apply elem_of_list_fmap in Hb as (s' & -> & Hs').
    apply Bool.not_true_iff_false. intros E. apply andb_true_iff in E as [E1 E2]. apply andb_true_iff in Hb2 as [C1 C2].
    apply Nat.eqb_eq in E1. apply negb_true_iff in C1.
    pose proof Hs' as Hs''. apply elem_of_list_lookup_1 in Hs' as (k' & Hs').
    destruct (pr_parent _ _ PB u' k' s' Su' Hs') as [_ Hk']. assert (k' = k) as -> by congruence.
    destruct (grow_gap _ _ _ _ _ _ u u' k s s' AL (pr_nodup _ _ PA) (pr_nodup _ _ PB)) as [Hn|(z & Hz & Hf)]; try done.
    - destruct (free_b u u' s' l HP Su Su' Eg Hou Hs'') as [F1 F2].
      destruct (KD (rid s) (rid s') Hx Eo Hno F1 F2 Hn) as [Ed|[_ Ed]]; congruence.
    - pose proof (L2 _ _ Hz Hf) as Hin. apply (gpart_contains_b l _ _ HP Hz) in Hin. congruence.
  Qed.

  Lemma gpass1 opb l1 : gpart l1 -> rid rb ∉ opb -> (forall y, y ∈ opaque_descendants tb -> y ∈ opb) ->
    forall todo before l, preorder ra = before ++ todo -> gpart l -> (forall p, p ∈ l1 -> p ∈ l) ->
    (forall x y, (x, y) ∈ Z -> x ∈ before -> (x, y) ∈ l) ->
    exists l', fold_left (pass1_step keqb sim cfg ta tb (opaque_descendants ta) (b_index tb (madds m_empty l1) opb)) todo
                 (madds m_empty l) = madds m_empty l' /\
      gpart l' /\ (forall x y, (x, y) ∈ Z -> (x, y) ∈ l').
  Proof using PA PB AL RP UB SIM HALF N1 KD.
    intros HP1 Hrb Hopb. induction todo as [|x todo IH]; intros before l Ep HP Hl HB.
    { exists l. split; [done|]. split; [done|]. intros x y HZ. apply HB; [done|]. rewrite app_nil_r in Ep. rewrite <- Ep.
      by eapply (grow_in_a _ _ _ _ _ _ _ _ AL). }
    cbn [fold_left].
    assert (x ∈ t_iter ta) as Hx. { rewrite (pr_iter _ _ PA), Ep. apply elem_of_app. right. left. }
    assert (exists l2, pass1_step keqb sim cfg ta tb (opaque_descendants ta) (b_index tb (madds m_empty l1) opb)
                         (madds m_empty l) x = madds m_empty l2 /\ gpart l2 /\ (forall p, p ∈ l -> p ∈ l2) /\
                       (forall y, (x, y) ∈ Z -> (x, y) ∈ l2)) as (l2 & -> & HP2 & Hl2 & Hx2).
    { destruct (contains_a (madds m_empty l) x) eqn:Ec.
      { exists l. split; [unfold pass1_step; by rewrite Ec|]. split; [done|]. split; [done|].
        intros y HZ. by apply (gpart_contains_a l x y HP HZ). }
      destruct (decide (x ∈ map fst Z)) as [Hin|Hno].
      2:{ exists l. split; [by apply gone_pass1|]. split; [done|]. split; [done|]. intros y HZ. destruct Hno. by eapply elem_fst. }
      apply fst_elem in Hin as (y & HZ). pose proof (outside_a _ _ HZ) as Eo. apply mem_false in Eo.
      assert (pass1_step keqb sim cfg ta tb (opaque_descendants ta) (b_index tb (madds m_empty l1) opb) (madds m_empty l) x
              = m_add (madds m_empty l) x y) as ->.
      { destruct (grow_subt _ _ _ _ _ _ _ _ AL HZ) as (s & s' & S1 & S2 & HN & -> & -> & [[-> ->]|Hu]).
        - apply gpass1_root; try done. intros y Hy. apply madds_contains_b. right.
          apply madds_contains_b in Hy as [Hy|Hy]; [done|]. apply snd_elem in Hy as (z & Hy). apply (elem_snd _ z). by apply Hl.
        - destruct Hu as (u & u' & k & k' & U1 & U2 & U3 & U4 & U5 & U6 & U7).
          destruct U7 as [->|Hf].
          2:{ exfalso. pose proof HP as (_ & L2 & _). pose proof (L2 _ _ HZ Hf) as Hin. apply (gpart_contains_a l _ _ HP HZ) in Hin. congruence. }
          apply (gpass1_child l _ u u' k'); try done. apply HB; [done|].
          apply (preorder_parent_first ra (pr_nodup _ _ PA) before (rid s) todo u s); try done. by eapply elem_of_list_lookup_2. }
      destruct (gpart_add l x y HP HZ Ec) as [-> HP2]. exists (l ++ [(x, y)]). split; [done|]. split; [done|]. split.
      - intros p Hp. apply elem_of_app. by left.
      - intros y' HZ'. rewrite (gZ_fun x y' y HZ' HZ). apply elem_of_app. right. left. }
    apply (IH (before ++ [x])); [|done| |].
    - by rewrite <- app_assoc.
    - intros p Hp. by apply Hl2, Hl.
    - intros x' y HZ Hb. apply elem_of_app in Hb as [Hb|Hb]; [by apply Hl2, HB|].
      apply elem_of_list_singleton in Hb as ->. by apply Hx2.
  Qed.

  Lemma gone_pass2 l m1 x : gpart l -> (forall a b, (a, b) ∈ Z -> (a, b) ∈ l) ->
    x ∈ t_iter ta ->
    pass2_step heqb keqb sim cfg ta tb (opaque_descendants ta) (b_index tb m1 (opaque_descendants tb)) (madds m_empty l) x = madds m_empty l.
  Proof using PA PB AL KD.
    intros HP HA Hx. unfold pass2_step. destruct (contains_a _ x) eqn:Ec; [done|]. cbn [orb].
    destruct (mem x (opaque_descendants ta)) eqn:Eo; [done|]. apply mem_false in Eo.
    destruct (negb _); [done|].
    assert (x ∉ map fst Z) as Hno.
    { intros Hin. apply fst_elem in Hin as (y & HZ). apply HA in HZ as Hin. apply (gpart_contains_a l _ _ HP HZ) in Hin. congruence. }
    assert (forall y, contains_b (madds m_empty l) y = false -> y ∉ map snd Z) as Hnb.
    { intros y Hc Hin. apply snd_elem in Hin as (z & HZ). apply HA in HZ as Hin. apply (gpart_contains_b l _ _ HP HZ) in Hin. congruence. }
    pose proof (not_root x Hno) as Hr. destruct (parent_of x Hx Eo Hr) as (u & s & k & Su & Hs & <- & Hp & Hk & Hou).
    unfold matched_parent_b. rewrite Hp.
    destruct (get_b (madds m_empty l) (rid u)) as [pb|] eqn:Eg.
    - pose proof HP as (L1 & L2 & B). apply (bij_fwd _ B) in Eg. rewrite madds_pairs in Eg. cbn [m_pairs m_empty app] in Eg. apply L1 in Eg.
      pose proof (gZ_iter_b _ _ Eg) as Hpb. apply (pr_iter_subt _ _ PB) in Hpb as (u' & Su' & <-).
      unfold leaf_candidate.
      assert (forall b, b ∈ List.filter (fun b => negb (contains_b (madds m_empty l) b) && Nat.eqb (length (t_children tb b)) 0
                                && keqb (t_kind tb b) (t_kind ta (rid s))) (t_children tb (rid u')) ->
              heqb (t_hash tb b) (t_hash ta (rid s)) = false /\ ge_thr cfg (sim (t_props ta (rid s)) (t_props tb b)) = false) as HC.
      { intros b Hb. apply elem_of_list_In, filter_In in Hb as [Hb Hb2].
        apply elem_of_list_In in Hb. rewrite (pr_children _ _ PB _ Su') in Hb. apply elem_of_list_fmap in Hb as (s' & -> & Hs').
        apply andb_true_iff in Hb2 as [Hb2 C2]. apply andb_true_iff in Hb2 as [C1 _]. apply negb_true_iff in C1.
        destruct (free_b u u' s' l HP Su Su' Eg Hou Hs') as [F1 F2].
        destruct (KD (rid s) (rid s') Hx Eo Hno F1 F2 (Hnb _ C1)) as [Ed|Ed]; [congruence|done]. }
      rewrite find_none; [|intros b Hb; destruct (HC b Hb) as [-> _]; apply andb_false_r].
      rewrite find_none; [|intros b Hb; by destruct (HC b Hb) as [-> _]].
      rewrite find_none; [|intros b Hb; destruct (HC b Hb) as [_ ->]; apply andb_false_r]. done.
    - assert (forall k0, (forall b, b ∈ k0 -> b ∈ by_kind keqb tb (b_index tb m1 (opaque_descendants tb)) (t_kind ta (rid s))) ->
              leaf_global heqb sim cfg ta tb (madds m_empty l) (rid s) k0 None = None) as HG; [|by rewrite HG].
      induction k0 as [|b k0 IHk]; intros Hk0; [done|]. cbn [leaf_global].
      assert (leaf_global heqb sim cfg ta tb (madds m_empty l) (rid s) k0 None = None) as E0.
      { apply IHk. intros b' Hb'. apply Hk0. by right. }
      destruct (contains_b (madds m_empty l) b) eqn:Ecb; [done|]. destruct (negb _); [done|]. destruct (negb _); [done|].
      specialize (Hk0 b ltac:(left)). unfold by_kind, b_index in Hk0. apply elem_of_list_In, filter_In in Hk0 as [Hk0 Hkk].
      apply filter_In in Hk0 as [Hbi Hb2]. apply elem_of_list_In in Hbi. apply andb_true_iff in Hb2 as [_ Hb2]. apply negb_true_iff, mem_false in Hb2.
      destruct (KD (rid s) b Hx Eo Hno Hbi Hb2 (Hnb _ Ecb)) as [Ed|[E1 E2]]; [congruence|]. by rewrite E1, E2.
  Qed.

  Theorem compute_grown : exists m, compute_matching heqb keqb sim cfg ta tb = Val m /\ bijection m /\ m_pairs m ≡ₚ Z.
  Proof using PA PB AL HK TW RP UB SIM HALF N1 KD.
    destruct (compute_matching_total heqb keqb sim cfg ta tb ra PA) as (m & E). exists m. split; [done|].
    pose proof (compute_matching_bijection _ _ _ _ _ _ _ E) as B. split; [done|].
    assert (forall l, gpart l -> (forall x y, (x, y) ∈ Z -> (x, y) ∈ l) -> m = madds m_empty l -> m_pairs m ≡ₚ Z) as Hfin.
    { intros l (L1 & _) L2 ->. rewrite madds_pairs in *. cbn [m_pairs m_empty app] in *. apply NoDup_Permutation.
      - apply (NoDup_fmap_1 fst). pose proof (bij_nodup_a _ B) as ND. by rewrite madds_pairs in ND.
      - apply (NoDup_fmap_1 fst). eapply grow_nodup_fst; [exact AL|apply PA].
      - intros [x y]. split; [apply L1|apply L2]. }
    unfold compute_matching in E. destruct (top_down heqb keqb cfg ta tb m_empty) as [m0|] eqn:Et; [|done].
    injection E as E. assert (bijection m0) as B0.
    { eapply reach_bijection.
      eapply (top_down_reach heqb keqb cfg ta tb (fun _ _ => True) (fun _ _ => True) (fun _ _ => True)); eauto. }
    destruct (gtop_down m0 Et) as (l & -> & L1 & L2).
    unfold bottom_up in E.
    destruct (gpass1 (opaque_descendants tb) l) with (todo := preorder ra) (before := @nil nat) (l := l)
      as (l' & E1 & HP & HA); try done.
    - rewrite <- (pr_root _ _ PB). by eapply root_not_opaque_desc.
    - intros x y _ Hx. by apply elem_of_nil in Hx.
    - rewrite (pr_iter _ _ PA), E1 in E. apply (Hfin l' HP HA). rewrite <- E. apply fold_left_id. intros x Hx.
      apply gone_pass2; [done|done|]. by rewrite (pr_iter _ _ PA).
  Qed.
End GrowMatching.
