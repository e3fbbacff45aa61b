(** Matching two trees of one shape: nodes are matched in place (C63). *)
From stdpp Require Import list_numbers.
From Verif Require Import Base Arena Matching Chawathe Dom HtmlDiff
  AttrProofs MatchProofs ArenaProofs TreeProofs DtreeProofs TotalProofs SelfProofs.

(** ** Trees of one shape outside nodes that stop *)

Section Near.
  Variable stop : nat -> bool.
  Variable R : nat -> nat -> Prop.

  Inductive near : rose -> rose -> Prop :=
  | Near i j rs rs' : R i j -> (stop i = false -> Forall2 near rs rs') -> near (Rose i rs) (Rose j rs').

  Lemma near_subt r : forall r' x y, near r r' -> (x, y) ∈ zips stop r r' ->
    exists s s', subt s r /\ subt s' r' /\ near s s' /\ x = rid s /\ y = rid s' /\
      ((s = r /\ s' = r') \/
       exists u u' k, subt u r /\ subt u' r' /\ rsub u !! k = Some s /\ rsub u' !! k = Some s' /\
         (rid u, rid u') ∈ zips stop r r' /\ stop (rid u) = false).
  Proof.
    induction r as [i rs IH] using rose_ind'. intros r' x y HA Hin. inversion HA as [i' j rs0 rs' HR HF]; subst.
    rewrite zips_eq in Hin. apply elem_of_cons in Hin as [[= -> ->]|Hin].
    { exists (Rose i rs), (Rose j rs'). split_and!; try constructor; done. }
    destruct (stop i) eqn:Es; [by apply elem_of_nil in Hin|]. specialize (HF eq_refl).
    apply zipl_elem in Hin as (k & c & c' & Hc & Hc' & Hin).
    assert (c ∈ rs) as Hci by by eapply elem_of_list_lookup_2.
    assert (c' ∈ rs') as Hci' by by eapply elem_of_list_lookup_2.
    pose proof (Forall2_lookup_lr _ _ _ _ _ _ HF Hc Hc') as HAc.
    destruct (IH c Hci c' x y HAc Hin) as (s & s' & H1 & H2 & H3 & -> & -> & H4).
    exists s, s'. split; [by eapply subt_step|]. split; [by eapply subt_step|]. split; [done|]. split; [done|].
    split; [done|]. right. destruct H4 as [[-> ->]|(u & u' & k' & U1 & U2 & U3 & U4 & U5 & U6)].
    - exists (Rose i rs), (Rose j rs'), k. split; [constructor|]. split; [constructor|]. split; [done|]. split; [done|].
      split; [|done]. rewrite zips_eq. left.
    - exists u, u', k'. split; [by eapply subt_step|]. split; [by eapply subt_step|]. split; [done|]. split; [done|].
      split; [|done]. rewrite zips_eq, Es. right. by eapply zipl_in.
  Qed.

  Lemma near_all_a r : forall r' x, near r r' -> NoDup (preorder r) -> x ∈ preorder r ->
    x ∈ map fst (zips stop r r') \/ exists o, subt o r /\ stop (rid o) = true /\ x ∈ preorder o /\ x <> rid o.
  Proof.
    induction r as [i rs IH] using rose_ind'. intros r' x HA ND Hx. inversion HA as [i' j rs0 rs' HR HF]; subst.
    rewrite preorder_eq in Hx, ND. cbn [rid rsub] in Hx, ND. apply NoDup_cons in ND as [Hi ND].
    rewrite zips_eq. apply elem_of_cons in Hx as [->|Hx]; [left; left|].
    destruct (stop i) eqn:Es.
    { right. exists (Rose i rs). split; [constructor|]. split; [done|]. rewrite preorder_eq. cbn [rid rsub].
      split; [by right|]. intros ->. done. }
    specialize (HF eq_refl).
    apply elem_flat_map in Hx as (c & Hc & Hx). apply elem_of_list_lookup_1 in Hc as Hk. destruct Hk as [k Hk].
    destruct (Forall2_lookup_l _ _ _ _ _ HF Hk) as (c' & Hk' & HAc).
    destruct (IH c Hc c' x HAc) as [Hin|(o & O1 & O2)].
    { eapply (subt_nodup c (Rose i rs)); [rewrite preorder_eq; by apply NoDup_cons|by apply subt_child]. }
    { done. }
    - left. cbn [map]. right. apply elem_of_list_In, in_map_iff in Hin as ([x' y] & E & Hin). cbn in E. subst x'.
      apply elem_of_list_In, in_map_iff. exists (x, y). split; [done|]. apply elem_of_list_In.
      eapply zipl_in; [done|done|by apply elem_of_list_In].
    - right. exists o. split; [by eapply subt_step|done].
  Qed.

  Lemma near_all_b r : forall r' x, near r r' -> NoDup (preorder r') -> x ∈ preorder r' ->
    x ∈ map snd (zips stop r r') \/ exists o o', subt o r /\ subt o' r' /\ R (rid o) (rid o') /\
      stop (rid o) = true /\ x ∈ preorder o' /\ x <> rid o'.
  Proof.
    induction r as [i rs IH] using rose_ind'. intros r' x HA ND Hx. inversion HA as [i' j rs0 rs' HR HF]; subst.
    rewrite preorder_eq in Hx, ND. cbn [rid rsub] in Hx, ND. apply NoDup_cons in ND as [Hi ND].
    rewrite zips_eq. apply elem_of_cons in Hx as [->|Hx]; [left; left|].
    destruct (stop i) eqn:Es.
    { right. exists (Rose i rs), (Rose j rs'). split; [constructor|]. split; [constructor|]. split; [done|].
      split; [done|]. rewrite preorder_eq. cbn [rid rsub]. split; [by right|]. intros ->. done. }
    specialize (HF eq_refl).
    apply elem_flat_map in Hx as (c' & Hc & Hx). apply elem_of_list_lookup_1 in Hc as Hk. destruct Hk as [k Hk].
    destruct (Forall2_lookup_r _ _ _ _ _ HF Hk) as (c & Hk' & HAc).
    assert (c ∈ rs) as Hci by by eapply elem_of_list_lookup_2.
    destruct (IH c Hci c' x HAc) as [Hin|(o & o' & O1 & O2 & O3 & O4)].
    { eapply (subt_nodup c' (Rose j rs')); [rewrite preorder_eq; by apply NoDup_cons|by apply subt_child]. }
    { done. }
    - left. cbn [map]. right. apply elem_of_list_In, in_map_iff in Hin as ([x' y] & E & Hin). cbn in E. subst y.
      apply elem_of_list_In, in_map_iff. exists (x', x). split; [done|]. apply elem_of_list_In.
      eapply zipl_in; [done|done|by apply elem_of_list_In].
    - right. exists o, o'. split; [by eapply subt_step|]. split; [by eapply subt_step|]. done.
  Qed.

  Lemma zips_in_a r : forall r' x y, (x, y) ∈ zips stop r r' -> x ∈ preorder r.
  Proof.
    induction r as [i rs IH] using rose_ind'. intros [j rs'] x y Hin. rewrite zips_eq in Hin. rewrite preorder_eq.
    apply elem_of_cons in Hin as [[= -> ->]|Hin]; [left|right].
    destruct (stop i); [by apply elem_of_nil in Hin|]. apply zipl_elem in Hin as (k & c & c' & Hc & Hc' & Hin).
    apply elem_of_list_lookup_2 in Hc. apply elem_flat_map. exists c. split; [done|]. by eapply IH.
  Qed.
  Lemma zips_in_b r : forall r' x y, (x, y) ∈ zips stop r r' -> y ∈ preorder r'.
  Proof.
    induction r as [i rs IH] using rose_ind'. intros [j rs'] x y Hin. rewrite zips_eq in Hin. rewrite preorder_eq.
    apply elem_of_cons in Hin as [[= -> ->]|Hin]; [left|right].
    destruct (stop i); [by apply elem_of_nil in Hin|]. apply zipl_elem in Hin as (k & c & c' & Hc & Hc' & Hin).
    apply elem_of_list_lookup_2 in Hc as Hci. apply elem_of_list_lookup_2 in Hc'. apply elem_flat_map. exists c'. split; [done|]. by eapply IH.
  Qed.

  (** Subtrees in different places share no node. *)
  Lemma nodup_flat_index (l : list rose) : NoDup (flat_map preorder l) -> forall k k' c c' x,
    l !! k = Some c -> l !! k' = Some c' -> x ∈ preorder c -> x ∈ preorder c' -> k = k'.
  Proof.
    induction l as [|d l IH]; intros ND k k' c c' x Hc Hc' Hx Hx'; [done|].
    cbn [flat_map] in ND. apply NoDup_app in ND as (N1 & N2 & N3).
    destruct k as [|k], k' as [|k']; cbn in Hc, Hc'.
    - done.
    - exfalso. injection Hc as ->. apply (N2 x); [done|]. apply elem_flat_map. exists c'. split; [|done].
      by eapply elem_of_list_lookup_2.
    - exfalso. injection Hc' as ->. apply (N2 x); [done|]. apply elem_flat_map. exists c. split; [|done].
      by eapply elem_of_list_lookup_2.
    - f_equal. by eapply (IH N3).
  Qed.

  Lemma zips_nodup_fst r : forall r', NoDup (preorder r) -> NoDup (map fst (zips stop r r')).
  Proof.
    induction r as [i rs IH] using rose_ind'. intros [j rs'] ND. rewrite zips_eq. cbn [map fst].
    rewrite preorder_eq in ND. cbn [rid rsub] in ND. apply NoDup_cons in ND as [Hi ND]. constructor.
    - intros Hin. apply elem_of_list_In, in_map_iff in Hin as ([x y] & E & Hin). cbn in E. subst x. apply elem_of_list_In in Hin.
      destruct (stop i); [by apply elem_of_nil in Hin|]. apply zipl_elem in Hin as (k & c & c' & Hc & _ & Hin).
      apply Hi. apply elem_flat_map. exists c. split; [by eapply elem_of_list_lookup_2|]. by eapply zips_in_a.
    - destruct (stop i); [constructor|]. clear Hi j. revert rs' IH ND. induction rs as [|c rs IHr]; intros [|c' rs'] IH ND; try constructor.
      cbn [zipl flat_map] in *. apply NoDup_app in ND as (N1 & N2 & N3). rewrite map_app. apply NoDup_app. split_and!.
      + apply IH; [left|done].
      + intros x Hx Hx'. apply (N2 x).
        * apply elem_of_list_In, in_map_iff in Hx as ([x0 y] & E & Hx). cbn in E. subst x0. apply elem_of_list_In in Hx.
          by eapply zips_in_a.
        * apply elem_of_list_In, in_map_iff in Hx' as ([x0 y] & E & Hx'). cbn in E. subst x0. apply elem_of_list_In in Hx'.
          apply zipl_elem in Hx' as (k & d & d' & Hd & _ & Hin). apply elem_flat_map. exists d.
          split; [by eapply elem_of_list_lookup_2|]. by eapply zips_in_a.
      + apply IHr; [|done]. intros t Ht. apply IH. by right.
  Qed.
  Lemma zips_nodup_snd r : forall r', NoDup (preorder r') -> NoDup (map snd (zips stop r r')).
  Proof.
    induction r as [i rs IH] using rose_ind'. intros [j rs'] ND. rewrite zips_eq. cbn [map snd].
    rewrite preorder_eq in ND. cbn [rid rsub] in ND. apply NoDup_cons in ND as [Hi ND]. constructor.
    - intros Hin. apply elem_of_list_In, in_map_iff in Hin as ([x y] & E & Hin). cbn in E. subst y. apply elem_of_list_In in Hin.
      destruct (stop i); [by apply elem_of_nil in Hin|]. apply zipl_elem in Hin as (k & c & c' & _ & Hc & Hin).
      apply Hi. apply elem_flat_map. exists c'. split; [by eapply elem_of_list_lookup_2|]. by eapply zips_in_b.
    - destruct (stop i); [constructor|]. clear Hi j. revert rs' IH ND. induction rs as [|c rs IHr]; intros [|c' rs'] IH ND; try constructor.
      cbn [zipl flat_map] in *. apply NoDup_app in ND as (N1 & N2 & N3). rewrite map_app. apply NoDup_app. split_and!.
      + apply IH; [left|done].
      + intros x Hx Hx'. apply (N2 x).
        * apply elem_of_list_In, in_map_iff in Hx as ([x0 y] & E & Hx). cbn in E. subst y. apply elem_of_list_In in Hx.
          by eapply zips_in_b.
        * apply elem_of_list_In, in_map_iff in Hx' as ([x0 y] & E & Hx'). cbn in E. subst y. apply elem_of_list_In in Hx'.
          apply zipl_elem in Hx' as (k & d & d' & _ & Hd & Hin). apply elem_flat_map. exists d'.
          split; [by eapply elem_of_list_lookup_2|]. by eapply zips_in_b.
      + apply IHr; [|done]. intros t Ht. apply IH. by right.
  Qed.
End Near.

Lemma nodup_fst_inj {A B} (l : list (A * B)) x y y' : NoDup (map fst l) -> (x, y) ∈ l -> (x, y') ∈ l -> y = y'.
Proof.
  induction l as [|[a b] l IH]; intros ND H1 H2; [by apply elem_of_nil in H1|].
  cbn [map fst] in ND. apply NoDup_cons in ND as [Ha ND].
  apply elem_of_cons in H1 as [[= -> ->]|H1]; apply elem_of_cons in H2 as [E|H2].
  - by injection E as ->.
  - exfalso. apply Ha. apply elem_of_list_In, in_map_iff. exists (a, y'). split; [done|by apply elem_of_list_In].
  - injection E as -> ->. exfalso. apply Ha. apply elem_of_list_In, in_map_iff. exists (a, y). split; [done|by apply elem_of_list_In].
  - by apply IH.
Qed.
Lemma nodup_snd_inj {A B} (l : list (A * B)) x x' y : NoDup (map snd l) -> (x, y) ∈ l -> (x', y) ∈ l -> x = x'.
Proof.
  induction l as [|[a b] l IH]; intros ND H1 H2; [by apply elem_of_nil in H1|].
  cbn [map snd] in ND. apply NoDup_cons in ND as [Ha ND].
  apply elem_of_cons in H1 as [[= -> ->]|H1]; apply elem_of_cons in H2 as [E|H2].
  - by injection E as ->.
  - exfalso. apply Ha. apply elem_of_list_In, in_map_iff. exists (x', b). split; [done|by apply elem_of_list_In].
  - injection E as -> ->. exfalso. apply Ha. apply elem_of_list_In, in_map_iff. exists (x, b). split; [done|by apply elem_of_list_In].
  - by apply IH.
Qed.
Lemma elem_fst {A B} (l : list (A * B)) x y : (x, y) ∈ l -> x ∈ map fst l.
Proof. intros Hin. apply elem_of_list_In, in_map_iff. exists (x, y). split; [done|by apply elem_of_list_In]. Qed.
Lemma elem_snd {A B} (l : list (A * B)) x y : (x, y) ∈ l -> y ∈ map snd l.
Proof. intros Hin. apply elem_of_list_In, in_map_iff. exists (x, y). split; [done|by apply elem_of_list_In]. Qed.
Lemma fst_elem {A B} (l : list (A * B)) x : x ∈ map fst l -> exists y, (x, y) ∈ l.
Proof. intros Hin. apply elem_of_list_In, in_map_iff in Hin as ([a b] & E & Hin). cbn in E. subst a. exists b. by apply elem_of_list_In. Qed.
Lemma snd_elem {A B} (l : list (A * B)) y : y ∈ map snd l -> exists x, (x, y) ∈ l.
Proof. intros Hin. apply elem_of_list_In, in_map_iff in Hin as ([a b] & E & Hin). cbn in E. subst b. exists a. by apply elem_of_list_In. Qed.

(** In pre-order a node comes after its parent. *)
Lemma preorder_infix u r : subt u r -> exists l k, preorder r = l ++ preorder u ++ k.
Proof.
  induction 1 as [t|s t u Hs (l & k & IH) Hu]; [exists [], []; by rewrite app_nil_r|].
  rewrite (preorder_eq u). apply elem_of_list_split in Hu as (l1 & l2 & ->). rewrite flat_map_app. cbn [flat_map]. rewrite IH.
  exists (rid u :: flat_map preorder l1 ++ l), (k ++ flat_map preorder l2). cbn [app]. by rewrite <- !app_assoc.
Qed.
Lemma nodup_split {A} (l k : list A) x l' k' : NoDup (l ++ x :: l') -> l ++ x :: l' = k ++ x :: k' -> l = k.
Proof.
  revert k. induction l as [|a l IH]; intros [|b k] ND E; cbn in *.
  - done.
  - injection E as -> ->. exfalso. apply NoDup_cons in ND as [ND _]. apply ND. apply elem_of_app. right. left.
  - injection E as -> _. exfalso. apply NoDup_cons in ND as [ND _]. apply ND. apply elem_of_app. right. left.
  - injection E as -> E. f_equal. apply NoDup_cons in ND as [_ ND]. by apply IH.
Qed.
Lemma preorder_parent_first r : NoDup (preorder r) -> forall l x k u s, preorder r = l ++ x :: k ->
  subt u r -> s ∈ rsub u -> rid s = x -> rid u ∈ l.
Proof.
  intros ND l x k u s E Su Hs <-. destruct (preorder_infix u r Su) as (l1 & k1 & E1).
  rewrite (preorder_eq u) in E1.
  assert (rid s ∈ flat_map preorder (rsub u)) as Hin.
  { apply elem_flat_map. exists s. split; [done|apply preorder_rid]. }
  apply elem_of_list_split in Hin as (d1 & d2 & Ed). rewrite Ed in E1. cbn [app] in E1.
  assert (l = l1 ++ rid u :: d1) as ->.
  { apply (nodup_split l _ (rid s) k (d2 ++ k1)); [by rewrite <- E|]. rewrite <- E, E1, <- !app_assoc. cbn [app]. rewrite <- ?app_assoc. done. }
  apply elem_of_app. right. left.
Qed.

(** ** The matching *)

Section InPlace.
  Context {H K P T : Type}.
  Variable heqb : H -> H -> bool.
  Variable keqb : K -> K -> bool.
  Variable sim : P -> P -> ratio.
  Variables n d : nat.
  Variables ta tb : dtree H K P T.
  Variables ra rb : rose.
  Hypothesis PA : presents ta ra.
  Hypothesis PB : presents tb rb.
  Let cfg := mkCfg n d 0.
  Let stop := t_opaque ta.

  Definition mate_node (x y : nat) : Prop :=
    keqb (t_kind ta x) (t_kind tb y) = true /\ keqb (t_kind tb y) (t_kind ta x) = true /\
    t_opaque ta x = t_opaque tb y.
  Hypothesis AL : near stop mate_node ra rb.

  Let Z := zips stop ra rb.

  (** Pairs that the first phase matches when it sees them. *)
  Definition settled (x y : nat) : Prop := heqb (t_hash ta x) (t_hash tb y) = true \/ t_opaque ta x = true.

  (** Pairs of nodes that the first phase may see: the nodes and all the nodes
      above them have pairwise the same kind. *)
  Inductive faces : rose -> rose -> Prop :=
  | faces_root : faces ra rb
  | faces_child u u' c c' : faces u u' -> t_opaque ta (rid u) = false -> t_opaque tb (rid u') = false ->
      c ∈ rsub u -> c' ∈ rsub u' -> keqb (t_kind ta (rid c)) (t_kind tb (rid c')) = true -> faces c c'.

  Hypothesis HK : forall x y, x ∈ t_iter ta -> y ∈ t_iter tb -> heqb (t_hash ta x) (t_hash tb y) = true ->
    keqb (t_kind ta x) (t_kind tb y) = true.

  (** A changed node has no twin elsewhere. *)
  Hypothesis TW : forall c c', faces c c' ->
    heqb (t_hash ta (rid c)) (t_hash tb (rid c')) = true \/ t_opaque ta (rid c) = true \/ t_opaque tb (rid c') = true ->
    (rid c, rid c') ∉ Z ->
    (exists y, (rid c, y) ∈ Z /\ settled (rid c) y) /\ (exists x, (x, rid c') ∈ Z /\ settled x (rid c')).

  Lemma Z_fun x y y' : (x, y) ∈ Z -> (x, y') ∈ Z -> y = y'.
  Proof. apply nodup_fst_inj. apply zips_nodup_fst. apply PA. Qed.
  Lemma Z_inj x x' y : (x, y) ∈ Z -> (x', y) ∈ Z -> x = x'.
  Proof. apply nodup_snd_inj. apply zips_nodup_snd. apply PB. Qed.

  Lemma faces_subt c c' : faces c c' -> subt c ra /\ subt c' rb.
  Proof.
    induction 1 as [|u u' c c' _ [I1 I2] _ _ Hc Hc' _]; [split; constructor|]. split.
    - eapply subt_trans; [by apply subt_child|done].
    - eapply subt_trans; [by apply subt_child|done].
  Qed.
  Lemma faces_kind c c' : faces c c' -> keqb (t_kind ta (rid c)) (t_kind tb (rid c')) = true.
  Proof.
    intros [|]; [|done]. inversion AL as [i j rs rs' HR HF E1 E2]. cbn [rid]. by destruct HR.
  Qed.

  Notation tdl := (td_loop heqb keqb cfg ta tb).

  (** A pair of nodes in different places is skipped. *)
  Definition skipped (m : matching) (p : nat * nat) (sf : nat) : Prop :=
    forall fuel st mf, tdl fuel sf (p :: st) m = Some mf -> exists fuel', tdl fuel' sf st m = Some mf.

  Lemma skip_all m sf l : (forall p, p ∈ l -> skipped m p sf) -> forall fuel st mf,
    tdl fuel sf (l ++ st) m = Some mf -> exists fuel', tdl fuel' sf st m = Some mf.
  Proof.
    induction l as [|p l IH]; intros HS fuel st mf E; [by exists fuel|]. cbn [app] in E.
    apply HS in E; [|left]. destruct E as (f' & E). eapply (IH ltac:(intros q Hq; apply HS; by right)). exact E.
  Qed.

  Lemma cross_skipped c : forall c' m sf, faces c c' ->
    (forall x y, x ∈ preorder c -> y ∈ preorder c' -> (x, y) ∉ Z) ->
    ((forall x y, (x, y) ∈ Z -> settled x y -> x ∈ preorder c -> contains_a m x = true) \/
     (forall x y, (x, y) ∈ Z -> settled x y -> y ∈ preorder c' -> contains_b m y = true)) ->
    skipped m (rid c, rid c') sf.
  Proof.
    induction c as [i rs IH] using rose_ind'. intros c' m sf HF HD HS fuel st mf E.
    destruct (faces_subt _ _ HF) as [Sa Sb].
    destruct fuel as [|fuel]; [done|]. cbn [td_loop] in E.
    destruct (contains_a m (rid (Rose i rs)) || contains_b m (rid c')) eqn:EC; [by exists fuel|].
    apply orb_false_iff in EC as [Ca Cb]. cbn [min_height cfg Nat.ltb Nat.leb] in E.
    assert ((rid (Rose i rs), rid c') ∉ Z) as Hn by (apply HD; apply preorder_rid).
    assert (~ (heqb (t_hash ta (rid (Rose i rs))) (t_hash tb (rid c')) = true \/
               t_opaque ta (rid (Rose i rs)) = true \/ t_opaque tb (rid c') = true)) as Hno.
    { intros Hs. destruct (TW _ _ HF Hs Hn) as [(y & Y1 & Y2) (x & X1 & X2)].
      destruct HS as [HS|HS].
      - rewrite (HS _ _ Y1 Y2) in Ca; [done|apply preorder_rid].
      - rewrite (HS _ _ X1 X2) in Cb; [done|apply preorder_rid]. }
    destruct (heqb _ _) eqn:Eh in E; [exfalso; naive_solver|]. cbn [andb] in E.
    destruct (t_opaque ta _) eqn:Eo in E; [exfalso; naive_solver|].
    destruct (t_opaque tb _) eqn:Eo' in E; [exfalso; naive_solver|]. cbn [orb] in E.
    revert E. apply skip_all. intros [x y] Hp. apply elem_of_list_In, in_rev, elem_of_list_In in Hp.
    unfold td_push in Hp. apply elem_flat_map in Hp as (x' & Hx & Hp). apply elem_flat_map in Hp as (y' & Hy & Hp).
    destruct (negb _ && _) eqn:Eg; [|by apply elem_of_nil in Hp]. apply elem_of_list_singleton in Hp as [= -> ->].
    rewrite (pr_children _ _ PA _ Sa) in Hx. rewrite (pr_children _ _ PB _ Sb) in Hy. cbn [rsub] in Hx.
    apply elem_of_list_fmap in Hx as (u & -> & Hu). apply elem_of_list_fmap in Hy as (u' & -> & Hu').
    assert (subt u ra) as Su by (eapply subt_trans; [by apply (subt_child u (Rose i rs))|done]).
    assert (subt u' rb) as Su' by (eapply subt_trans; [by apply subt_child|done]).
    assert (keqb (t_kind ta (rid u)) (t_kind tb (rid u')) = true) as Ek.
    { apply andb_true_iff in Eg as [_ Eg]. apply orb_true_iff in Eg as [Eg|Eg]; [|done]. apply HK; [| |done].
      - apply (pr_iter_subt _ _ PA). by exists u.
      - apply (pr_iter_subt _ _ PB). by exists u'. }
    assert (forall x, x ∈ preorder u -> x ∈ preorder (Rose i rs)) as Iu.
    { intros x Hx. rewrite preorder_eq. right. apply elem_flat_map. by exists u. }
    assert (forall x, x ∈ preorder u' -> x ∈ preorder c') as Iu'.
    { intros x Hx. rewrite preorder_eq. right. apply elem_flat_map. by exists u'. }
    apply IH; try done.
    - by eapply (faces_child (Rose i rs) c').
    - intros x y Hx Hy. apply HD; auto.
    - destruct HS as [HS|HS]; [left|right]; intros x y H1 H2 H3; eapply HS; eauto.
  Qed.

  (** Equal subtrees are matched throughout. *)
  Lemma match_near r : forall r' f m, subt r ra -> subt r' rb -> near stop mate_node r r' -> rheight r < f ->
    (forall x, x ∈ preorder r -> contains_a m x = false) ->
    (forall y, y ∈ preorder r' -> contains_b m y = false) ->
    match_subtrees ta tb f (rid r) (rid r') m = Some (madds m (zips stop r r')).
  Proof.
    induction r as [i rs IH] using rose_ind'. intros r' f m Sa Sb HA Hf Ca Cb.
    inversion HA as [i' j rs0 rs' HR HF]; subst. destruct f as [|f]; [lia|].
    cbn [match_subtrees rid]. rewrite (Ca i) by (rewrite preorder_eq; left).
    rewrite (Cb j) by (rewrite preorder_eq; left). cbn [orb]. rewrite zips_eq.
    destruct HR as (_ & _ & HO). rewrite <- HO. unfold stop in *. destruct (t_opaque ta i) eqn:Eo; cbn [orb]; [done|].
    specialize (HF eq_refl).
    pose proof (pr_children _ _ PA _ Sa) as EA. pose proof (pr_children _ _ PB _ Sb) as EB. cbn [rid rsub] in EA, EB.
    rewrite EA, EB.
    change (madds m ((i, j) :: zipl (t_opaque ta) rs rs')) with (madds (m_add m i j) (zipl (t_opaque ta) rs rs')).
    assert (forall c, c ∈ rs -> subt c ra) as Sca
      by (intros c Hc; eapply subt_trans; [apply (subt_child c (Rose i rs) Hc)|done]).
    assert (forall c, c ∈ rs' -> subt c rb) as Scb
      by (intros c Hc; eapply subt_trans; [apply (subt_child c (Rose j rs') Hc)|done]).
    pose proof (subt_nodup _ _ (pr_nodup _ _ PA) Sa) as NA. pose proof (subt_nodup _ _ (pr_nodup _ _ PB) Sb) as NB.
    rewrite preorder_eq in NA, NB. cbn [rid rsub] in NA, NB.
    apply NoDup_cons in NA as [Na NA]. apply NoDup_cons in NB as [Nb NB].
    assert (forall c, c ∈ rs -> rheight c < f) as Hh.
    { intros c Hc. pose proof (rheight_child (Rose i rs) c Hc). lia. }
    assert (forall x, x ∈ flat_map preorder rs -> contains_a (m_add m i j) x = false) as Ca'.
    { intros x Hx. apply contains_a_false. rewrite get_b_add. destruct (Nat.eqb_spec i x) as [->|_]; [done|].
      apply contains_a_false, Ca. rewrite preorder_eq. by right. }
    assert (forall x, x ∈ flat_map preorder rs' -> contains_b (m_add m i j) x = false) as Cb'.
    { intros x Hx. apply contains_b_false. rewrite get_a_add. destruct (Nat.eqb_spec j x) as [->|_]; [done|].
      apply contains_b_false, Cb. rewrite preorder_eq. by right. }
    clear EA EB HA Ca Cb Na Nb Hf Sa Sb. revert Ca' Cb'. generalize (m_add m i j). clear m.
    induction HF as [|c c' rs rs' HAc HF IHF]; intros m Ca Cb; [done|]. cbn [map combine].
    cbn [flat_map] in *. apply NoDup_app in NA as (NA1 & NA2 & NA3). apply NoDup_app in NB as (NB1 & NB2 & NB3).
    rewrite (IH c ltac:(left) c' f m (Sca c ltac:(left)) (Scb c' ltac:(left)) HAc (Hh c ltac:(left))).
    2:{ intros x Hx. apply Ca. apply elem_of_app. by left. }
    2:{ intros x Hx. apply Cb. apply elem_of_app. by left. }
    cbn [zipl]. rewrite madds_app. apply IHF; try done.
    - intros t Ht. apply IH. by right.
    - intros t Ht. apply Sca. by right.
    - intros t Ht. apply Scb. by right.
    - intros t Ht. apply Hh. by right.
    - intros x Hx. apply Bool.not_true_iff_false. rewrite madds_contains_a. intros [Hc|Hc].
      + rewrite Ca in Hc; [done|]. apply elem_of_app. by right.
      + apply (NA2 x); [|done]. apply fst_elem in Hc as (y & Hc). by eapply zips_in_a.
    - intros x Hx. apply Bool.not_true_iff_false. rewrite madds_contains_b. intros [Hc|Hc].
      + rewrite Cb in Hc; [done|]. apply elem_of_app. by right.
      + apply (NB2 x); [|done]. apply snd_elem in Hc as (y & Hc). by eapply zips_in_b.
  Qed.

  (** The pairs in place below [c] and [c']. *)
  Definition own (c c' : rose) : Prop :=
    (forall p, p ∈ zips stop c c' -> p ∈ Z) /\
    (forall x y, (x, y) ∈ Z -> x ∈ preorder c \/ y ∈ preorder c' -> (x, y) ∈ zips stop c c').

  Lemma own_child c c' k u u' : subt c ra -> subt c' rb -> own c c' -> stop (rid c) = false ->
    rsub c !! k = Some u -> rsub c' !! k = Some u' -> own u u'.
  Proof.
    intros Sa Sb [O1 O2] Hs Hu Hu'.
    pose proof (subt_nodup _ _ (pr_nodup _ _ PA) Sa) as NA. pose proof (subt_nodup _ _ (pr_nodup _ _ PB) Sb) as NB.
    rewrite preorder_eq in NA, NB. apply NoDup_cons in NA as [Na NA]. apply NoDup_cons in NB as [Nb NB].
    assert (u ∈ rsub c) as Hui by by eapply elem_of_list_lookup_2.
    assert (u' ∈ rsub c') as Hui' by by eapply elem_of_list_lookup_2.
    destruct c as [i rs], c' as [j rs']. cbn [rid rsub] in *. split.
    - intros p Hp. apply O1. rewrite zips_eq, Hs. right. by eapply zipl_in.
    - intros x y HZ Hxy.
      assert ((x, y) ∈ zips stop (Rose i rs) (Rose j rs')) as Hz.
      { apply O2; [done|]. rewrite !preorder_eq. destruct Hxy as [Hx|Hy]; [left|right]; right; apply elem_flat_map; eauto. }
      rewrite zips_eq, Hs in Hz. apply elem_of_cons in Hz as [[= -> ->]|Hz].
      + exfalso. destruct Hxy as [Hx|Hy]; [apply Na|apply Nb]; apply elem_flat_map; eauto.
      + apply zipl_elem in Hz as (k2 & v & v' & Hv & Hv' & Hz).
        assert (k2 = k) as ->.
        { destruct Hxy as [Hx|Hy].
          - eapply (nodup_flat_index rs NA); [exact Hv|exact Hu| |exact Hx]. by eapply zips_in_a.
          - eapply (nodup_flat_index rs' NB); [exact Hv'|exact Hu'| |exact Hy]. by eapply zips_in_b. }
        congruence.
  Qed.

  Definition diag_done (c c' : rose) : Prop := forall m sf fuel st mf,
    rheight c < sf ->
    (forall x, x ∈ preorder c -> contains_a m x = false) ->
    (forall y, y ∈ preorder c' -> contains_b m y = false) ->
    tdl fuel sf ((rid c, rid c') :: st) m = Some mf ->
    exists fuel' l, tdl fuel' sf st (madds m l) = Some mf /\
      (forall p, p ∈ l -> p ∈ zips stop c c') /\
      (forall x y, (x, y) ∈ zips stop c c' -> settled x y -> (x, y) ∈ l).

  (** All pairs of children, the last one first. *)
  Section Rows.
    Variables c c' : rose.
    Hypothesis FC : faces c c'.
    Hypothesis OW : own c c'.
    Hypothesis Oa : t_opaque ta (rid c) = false.
    Hypothesis Ob : t_opaque tb (rid c') = false.
    Hypothesis NR : Forall2 (near stop mate_node) (rsub c) (rsub c').
    Hypothesis IH : forall u u', u ∈ rsub c -> faces u u' -> near stop mate_node u u' -> own u u' -> diag_done u u'.
    Variable m0 : matching.
    Hypothesis Ca : forall x, x ∈ preorder c -> contains_a m0 x = false.
    Hypothesis Cb : forall y, y ∈ preorder c' -> contains_b m0 y = false.

    Definition pushed (u : rose) (us : list rose) : list (nat * nat) :=
      flat_map (fun bc => if heqb (t_hash ta (rid u)) (t_hash tb bc) || keqb (t_kind ta (rid u)) (t_kind tb bc)
                          then [(rid u, bc)] else []) (map rid us).

    Lemma td_push_rows : td_push heqb keqb ta tb m0 (rid c) (rid c') = flat_map (fun u => pushed u (rsub c')) (rsub c).
    Proof.
      destruct (faces_subt _ _ FC) as [Sa Sb]. unfold td_push, pushed.
      rewrite (pr_children _ _ PA _ Sa), (pr_children _ _ PB _ Sb).
      rewrite flat_map_concat_map, map_map, <- flat_map_concat_map. apply flat_map_ext. intros u.
      assert (forall y, y ∈ map rid (rsub c') -> contains_b m0 y = false) as HC.
      { intros y Hy. apply Cb. apply elem_of_list_fmap in Hy as (v & -> & Hv). rewrite preorder_eq. right.
        apply elem_flat_map. exists v. split; [done|apply preorder_rid]. }
      revert HC. generalize (map rid (rsub c')). intros l. induction l as [|y l IHl]; intros HC; [done|].
      cbn [flat_map]. rewrite (HC y) by left. cbn [negb andb]. f_equal. apply IHl. intros z Hz. apply HC. by right.
    Qed.

    (** The pairs in place from row [i] on. *)
    Definition from_row (i : nat) (p : nat * nat) : Prop :=
      exists k u u', i <= k /\ rsub c !! k = Some u /\ rsub c' !! k = Some u' /\ p ∈ zips stop u u'.

    Lemma rows sf st mf : (forall u, u ∈ rsub c -> rheight u < sf) -> forall i, i <= length (rsub c) -> forall fuel l0,
      (forall p, p ∈ l0 -> from_row i p) ->
      (forall x y, from_row i (x, y) -> settled x y -> (x, y) ∈ l0) ->
      tdl fuel sf (rev (flat_map (fun u => pushed u (rsub c')) (take i (rsub c))) ++ st) (madds m0 l0) = Some mf ->
      exists fuel' l, tdl fuel' sf st (madds m0 l) = Some mf /\
        (forall p, p ∈ l -> from_row 0 p) /\
        (forall x y, from_row 0 (x, y) -> settled x y -> (x, y) ∈ l).
    Proof.
      intros Hsf. destruct (faces_subt _ _ FC) as [Sa Sb].
      pose proof (subt_nodup _ _ (pr_nodup _ _ PA) Sa) as NA. pose proof (subt_nodup _ _ (pr_nodup _ _ PB) Sb) as NB.
      rewrite preorder_eq in NA, NB. apply NoDup_cons in NA as [Na NA]. apply NoDup_cons in NB as [Nb NB].
      assert (forall k u, rsub c !! k = Some u -> forall x, x ∈ preorder u -> x ∈ preorder c) as Ia.
      { intros k u Hu x Hx. rewrite preorder_eq. right. apply elem_flat_map. exists u. split; [|done]. by eapply elem_of_list_lookup_2. }
      assert (forall k u, rsub c' !! k = Some u -> forall x, x ∈ preorder u -> x ∈ preorder c') as Ib.
      { intros k u Hu x Hx. rewrite preorder_eq. right. apply elem_flat_map. exists u. split; [|done]. by eapply elem_of_list_lookup_2. }
      assert (forall k u u', rsub c !! k = Some u -> rsub c' !! k = Some u' -> own u u') as Ok.
      { intros k u u' Hu Hu'. by eapply (own_child c c' k). }
      induction i as [|i IHi]; intros Hi fuel l0 H1 H2 E.
      { cbn [take flat_map rev app] in E. exists fuel, l0. done. }
      destruct (lookup_lt_is_Some_2 (rsub c) i) as (u & Hu); [lia|].
      destruct (Forall2_lookup_l _ _ _ _ _ NR Hu) as (u' & Hu' & HN).
      rewrite (take_S_r _ _ _ Hu), flat_map_app, rev_app_distr in E. cbn [flat_map] in E. rewrite app_nil_r in E.
      assert (rsub c' = take i (rsub c') ++ u' :: drop (S i) (rsub c')) as Es by (symmetry; by apply take_drop_middle).
      assert (pushed u (rsub c') = pushed u (take i (rsub c')) ++ (rid u, rid u') :: pushed u (drop (S i) (rsub c'))) as Ep.
      { rewrite Es at 1. unfold pushed. rewrite map_app, flat_map_app. cbn [map flat_map].
        inversion HN as [i1 j1 rs1 rs1' (HR & _ & _) _]; subst. cbn [rid]. rewrite HR, orb_true_r. done. }
      rewrite Ep, rev_app_distr in E. cbn [rev] in E. rewrite <- !app_assoc in E. cbn [app] in E.
      assert (u ∈ rsub c) as Hui by by eapply elem_of_list_lookup_2.
      assert (u' ∈ rsub c') as Hui' by by eapply elem_of_list_lookup_2.
      assert (forall k v', rsub c' !! k = Some v' -> k <> i ->
                heqb (t_hash ta (rid u)) (t_hash tb (rid v')) || keqb (t_kind ta (rid u)) (t_kind tb (rid v')) = true ->
                faces u v' /\ (forall x y, x ∈ preorder u -> y ∈ preorder v' -> (x, y) ∉ Z)) as HX.
      { intros k v' Hk Hne Eg. assert (v' ∈ rsub c') as Hv by by eapply elem_of_list_lookup_2. split.
        - eapply (faces_child c c'); try done. apply orb_true_iff in Eg as [Eg|Eg]; [|done]. apply HK; [| |done].
          + apply (pr_iter_subt _ _ PA). exists u. split; [|done]. eapply subt_trans; [by apply subt_child|done].
          + apply (pr_iter_subt _ _ PB). exists v'. split; [|done]. eapply subt_trans; [by apply subt_child|done].
        - intros x y Hx Hy HZ. destruct (Ok i u u' Hu Hu') as [_ O]. pose proof (O x y HZ (or_introl Hx)) as Hz.
          apply zips_in_b in Hz. apply Hne. by eapply (nodup_flat_index _ NB). }
      (* pairs with later nodes *)
      apply skip_all in E.
      2:{ intros [x y] Hp. apply elem_of_list_In, in_rev, elem_of_list_In in Hp. unfold pushed in Hp.
          apply elem_flat_map in Hp as (y0 & Hy & Hp). destruct (_ || _) eqn:Eg; [|by apply elem_of_nil in Hp].
          apply elem_of_list_singleton in Hp as [= -> ->]. apply elem_of_list_fmap in Hy as (v' & -> & Hv).
          apply elem_of_list_lookup_1 in Hv as (k & Hk). rewrite lookup_drop in Hk.
          destruct (HX _ _ Hk ltac:(lia) Eg) as [F1 F2].
          apply cross_skipped; [done|done|]. right. intros x y HZ Hset Hy.
          apply madds_contains_b. right.
          assert (S i + k < length (rsub c)) as Hlt.
          { rewrite (Forall2_length _ _ _ NR). by eapply lookup_lt_Some. }
          destruct (lookup_lt_is_Some_2 _ _ Hlt) as (v & Hv).
          destruct (Ok _ v v' Hv Hk) as [_ O]. apply (elem_snd _ x). apply H2; [|done].
          exists (S i + k), v, v'. split; [lia|]. split; [done|]. split; [done|]. apply O; [done|by right]. }
      destruct E as (f1 & E).
      (* the pair in place *)
      assert (forall x, x ∈ preorder u -> contains_a (madds m0 l0) x = false) as Ca1.
      { intros x Hx. apply Bool.not_true_iff_false. rewrite madds_contains_a. intros [Hc|Hc].
        - rewrite Ca in Hc; [done|]. by eapply Ia.
        - apply fst_elem in Hc as (y & Hc). apply H1 in Hc as (k & v & v' & Hk & Hv & Hv' & Hz). apply zips_in_a in Hz.
          assert (k = i); [|lia]. by eapply (nodup_flat_index _ NA). }
      assert (forall x, x ∈ preorder u' -> contains_b (madds m0 l0) x = false) as Cb1.
      { intros x Hx. apply Bool.not_true_iff_false. rewrite madds_contains_b. intros [Hc|Hc].
        - rewrite Cb in Hc; [done|]. by eapply Ib.
        - apply snd_elem in Hc as (y & Hc). apply H1 in Hc as (k & v & v' & Hk & Hv & Hv' & Hz). apply zips_in_b in Hz.
          assert (k = i); [|lia]. by eapply (nodup_flat_index _ NB). }
      assert (faces u u') as FU.
      { eapply (faces_child c c'); try done. inversion HN as [i1 j1 rs1 rs1' (HR & _ & _) _]; subst. done. }
      destruct (IH u u' Hui FU HN (Ok i u u' Hu Hu') (madds m0 l0) sf f1 _ mf (Hsf u Hui) Ca1 Cb1 E) as (f2 & l1 & E2 & L1 & L2).
      rewrite <- madds_app in E2.
      (* pairs with earlier nodes *)
      apply skip_all in E2.
      2:{ intros [x y] Hp. apply elem_of_list_In, in_rev, elem_of_list_In in Hp. unfold pushed in Hp.
          apply elem_flat_map in Hp as (y0 & Hy & Hp). destruct (_ || _) eqn:Eg; [|by apply elem_of_nil in Hp].
          apply elem_of_list_singleton in Hp as [= -> ->]. apply elem_of_list_fmap in Hy as (v' & -> & Hv).
          apply elem_of_list_lookup_1 in Hv as (k & Hk). apply lookup_take_Some in Hk as [Hk Hlt].
          destruct (HX _ _ Hk ltac:(lia) Eg) as [F1 F2].
          apply cross_skipped; [done|done|]. left. intros x y HZ Hset Hx.
          apply madds_contains_a. right. apply (elem_fst _ _ y). apply elem_of_app. right. apply L2; [|done].
          destruct (Ok _ u u' Hu Hu') as [_ O]. apply O; [done|by left]. }
      destruct E2 as (f3 & E3).
      apply IHi in E3; [done|lia| |].
      - intros p Hp. apply elem_of_app in Hp as [Hp|Hp].
        + apply H1 in Hp as (k & v & v' & Hk & Hp). exists k, v, v'. split; [lia|done].
        + exists i, u, u'. split; [lia|]. split; [done|]. split; [done|]. by apply L1.
      - intros x y (k & v & v' & Hk & Hv & Hv' & Hz) Hset. apply elem_of_app. destruct (decide (k = i)) as [->|Hne].
        + right. assert (v = u) as -> by congruence. assert (v' = u') as -> by congruence. by apply L2.
        + left. apply H2; [|done]. exists k, v, v'. split; [lia|done].
    Qed.
  End Rows.

  Lemma diag_all c : forall c', faces c c' -> near stop mate_node c c' -> own c c' -> diag_done c c'.
  Proof.
    induction c as [i rs IH] using rose_ind'. intros c' FC HN OW m sf fuel st mf Hh Ca Cb E.
    destruct (faces_subt _ _ FC) as [Sa Sb].
    destruct fuel as [|fuel]; [done|]. cbn [td_loop] in E.
    rewrite (Ca (rid (Rose i rs))) in E by apply preorder_rid. rewrite (Cb (rid c')) in E by apply preorder_rid.
    cbn [orb min_height cfg Nat.ltb Nat.leb] in E.
    pose proof (faces_kind _ _ FC) as Ek. rewrite Ek, andb_true_r in E.
    assert (t_opaque ta (rid (Rose i rs)) = t_opaque tb (rid c')) as Eo.
    { inversion HN as [i1 j1 rs1 rs1' (_ & _ & HO) _]; subst. done. }
    destruct (heqb (t_hash ta (rid (Rose i rs))) (t_hash tb (rid c'))) eqn:Eh in E.
    { rewrite (match_near (Rose i rs) c') in E by done. exists fuel, (zips stop (Rose i rs) c'). done. }
    rewrite <- Eo in E. destruct (t_opaque ta (rid (Rose i rs))) eqn:Es in E; cbn [orb] in E.
    { exists fuel, [(rid (Rose i rs), rid c')].
      inversion HN as [i1 j rs1 rs' _ _]; subst. rewrite zips_eq. cbn [rid] in *. unfold stop. rewrite Es. done. }
    assert (Forall2 (near stop mate_node) rs (rsub c')) as NR.
    { inversion HN as [i1 j rs1 rs' _ HF]; subst. by apply HF. }
    rewrite (td_push_rows (Rose i rs) c' FC m Cb) in E.
    rewrite <- (firstn_all (rsub (Rose i rs))) in E at 1.
    apply (rows (Rose i rs) c' FC OW Es) with (l0 := []) in E; try done.
    - destruct E as (f' & l & E & L1 & L2). exists f', l. split; [done|].
      inversion HN as [i1 j rs1 rs' _ HF E1 E2]; subst. cbn [rid rsub] in *. rewrite zips_eq. unfold stop in *. rewrite Es.
      split.
      + intros p Hp. right. apply L1 in Hp as (k & u & u' & _ & Hu & Hu' & Hz). by eapply zipl_in.
      + intros x y Hz Hset. apply elem_of_cons in Hz as [[= -> ->]|Hz].
        * destruct Hset as [Hset|Hset]; congruence.
        * apply L2; [|done]. apply zipl_elem in Hz as (k & u & u' & Hu & Hu' & Hz). exists k, u, u'. split; [lia|done].
    - by rewrite <- Eo.
    - intros u u' Hu. by apply IH.
    - intros u Hu. pose proof (rheight_child (Rose i rs) u Hu). lia.
    - intros p Hp. by apply elem_of_nil in Hp.
    - intros x y (k & u & u' & Hk & Hu & _) _. exfalso. apply lookup_lt_Some in Hu. lia.
  Qed.

  Lemma top_down_in_place m : top_down heqb keqb cfg ta tb m_empty = Some m ->
    exists l, m = madds m_empty l /\ (forall p, p ∈ l -> p ∈ Z) /\ (forall x y, (x, y) ∈ Z -> settled x y -> (x, y) ∈ l).
  Proof.
    unfold top_down. intros E. rewrite (pr_root _ _ PA), (pr_root _ _ PB) in E.
    apply (diag_all ra rb faces_root AL) in E; try done.
    - destruct E as (f & l & E & L). exists l. split; [|done]. destruct f; cbn [td_loop] in E; by injection E as <-.
    - rewrite (pr_iter _ _ PA). pose proof (rheight_lt_size ra). lia.
  Qed.

  (** ** The second phase *)

  Hypothesis RP : t_parent ta (rid ra) = None.
  (** Only the root has its kind. *)
  Hypothesis UB : forall y, y ∈ t_iter tb -> y ∉ opaque_descendants tb ->
    keqb (t_kind tb y) (t_kind ta (rid ra)) = true -> y = rid rb.
  Hypothesis SIM : forall x y, (x, y) ∈ Z -> settled x y \/ ge_thr cfg (sim (t_props ta x) (t_props tb y)) = true.
  (** Enough of the trees is unchanged, or both roots have no parent. *)
  Hypothesis HALF : settled (rid ra) (rid rb) \/
    rsub rb <> [] /\
    (t_parent tb (rid rb) = None \/
     exists S, NoDup (map fst S) /\ (forall x y, (x, y) ∈ S -> (x, y) ∈ Z /\ settled x y) /\
       ge_thr cfg (2 * length S, length (preorder ra) + length (preorder rb)) = true).

  Definition in_place_part (l : list (nat * nat)) : Prop :=
    (forall p, p ∈ l -> p ∈ Z) /\ (forall x y, (x, y) ∈ Z -> settled x y -> (x, y) ∈ l) /\ bijection (madds m_empty l).

  Lemma part_contains_a l x y : in_place_part l -> (x, y) ∈ Z ->
    (contains_a (madds m_empty l) x = true <-> (x, y) ∈ l).
  Proof.
    intros (L1 & _) HZ. rewrite madds_contains_a. split.
    - intros [Hc|Hc]; [done|]. apply fst_elem in Hc as (y' & Hc). by rewrite (Z_fun x y y' HZ (L1 _ Hc)).
    - intros Hin. right. by eapply elem_fst.
  Qed.
  Lemma part_contains_b l x y : in_place_part l -> (x, y) ∈ Z ->
    (contains_b (madds m_empty l) y = true <-> (x, y) ∈ l).
  Proof.
    intros (L1 & _) HZ. rewrite madds_contains_b. split.
    - intros [Hc|Hc]; [done|]. apply snd_elem in Hc as (x' & Hc). by rewrite (Z_inj x x' y HZ (L1 _ Hc)).
    - intros Hin. right. by eapply elem_snd.
  Qed.
  Lemma part_get_b l x y : in_place_part l -> (x, y) ∈ l -> get_b (madds m_empty l) x = Some y.
  Proof. intros (_ & _ & B) Hin. apply (bij_fwd _ B). rewrite madds_pairs. done. Qed.

  Lemma part_add l x y : in_place_part l -> (x, y) ∈ Z -> contains_a (madds m_empty l) x = false ->
    m_add (madds m_empty l) x y = madds m_empty (l ++ [(x, y)]) /\ in_place_part (l ++ [(x, y)]).
  Proof.
    intros HP HZ Hc. split; [by rewrite madds_app|]. pose proof HP as (L1 & L2 & B). split_and!.
    - intros p Hp. apply elem_of_app in Hp as [Hp|Hp]; [by apply L1|]. by apply elem_of_list_singleton in Hp as ->.
    - intros x' y' HZ' Hs. apply elem_of_app. left. by apply L2.
    - rewrite madds_app. cbn [madds fold_left fst snd]. apply bijection_add; [done| |].
      + done.
      + apply Bool.not_true_iff_false. rewrite (part_contains_b l x y HP HZ).
        rewrite <- (part_contains_a l x y HP HZ). by rewrite Hc.
  Qed.

  Lemma root_pair : (rid ra, rid rb) ∈ Z.
  Proof. unfold Z. inversion AL. rewrite zips_eq. left. Qed.
  Lemma Z_iter_a x y : (x, y) ∈ Z -> x ∈ t_iter ta.
  Proof. intros HZ. rewrite (pr_iter _ _ PA). by eapply zips_in_a. Qed.
  Lemma Z_iter_b x y : (x, y) ∈ Z -> y ∈ t_iter tb.
  Proof. intros HZ. rewrite (pr_iter _ _ PB). by eapply zips_in_b. Qed.

  Lemma all_a x : x ∈ t_iter ta -> x ∉ opaque_descendants ta -> exists y, (x, y) ∈ Z.
  Proof.
    intros Hx Ho. rewrite (pr_iter _ _ PA) in Hx.
    destruct (near_all_a stop mate_node ra rb x AL (pr_nodup _ _ PA) Hx) as [Hin|(o & O1 & O2 & O3 & O4)].
    - by apply fst_elem.
    - exfalso. apply Ho. apply (opaque_desc_elem ta). exists (rid o). rewrite (pr_iter _ _ PA), (pr_desc _ _ PA o O1).
      split; [apply preorder_subt; by exists o|done].
  Qed.
  Lemma all_b y : y ∈ t_iter tb -> (exists x, (x, y) ∈ Z) \/ y ∈ opaque_descendants tb.
  Proof.
    intros Hx. rewrite (pr_iter _ _ PB) in Hx.
    destruct (near_all_b stop mate_node ra rb y AL (pr_nodup _ _ PB) Hx) as [Hin|(o & o' & O1 & O1' & O2 & O3 & O4)].
    - left. by apply snd_elem.
    - right. apply (opaque_desc_elem tb). exists (rid o'). rewrite (pr_iter _ _ PB), (pr_desc _ _ PB o' O1').
      destruct O2 as (_ & _ & O2). rewrite <- O2. split; [apply preorder_subt; by exists o'|done].
  Qed.
  Lemma Z_kind x y : (x, y) ∈ Z -> mate_node x y.
  Proof.
    intros HZ. destruct (near_subt stop mate_node ra rb x y AL HZ) as (s & s' & _ & _ & HN & -> & -> & _).
    by inversion HN.
  Qed.

  Lemma pass1_root_in_place l opb : in_place_part l -> contains_a (madds m_empty l) (rid ra) = false ->
    rid rb ∉ opb -> (forall y, y ∈ opaque_descendants tb -> y ∈ opb) ->
    forall m1, (forall y, contains_b m1 y = true -> contains_b (madds m_empty l) y = true) ->
    pass1_step keqb sim cfg ta tb (opaque_descendants ta) (b_index tb m1 opb) (madds m_empty l) (rid ra)
    = m_add (madds m_empty l) (rid ra) (rid rb).
  Proof.
    intros HP Hc Hrb Hopb m1 Hm1. pose proof root_pair as HZ. pose proof HP as (L1 & L2 & B).
    assert (contains_b (madds m_empty l) (rid rb) = false) as Hcb.
    { apply Bool.not_true_iff_false. rewrite (part_contains_b l _ _ HP HZ), <- (part_contains_a l _ _ HP HZ). by rewrite Hc. }
    destruct HALF as [Hs|[Hne Hh]].
    { exfalso. pose proof (L2 _ _ HZ Hs) as Hin. apply (part_contains_a l _ _ HP HZ) in Hin. by rewrite Hc in Hin. }
    assert (ge_thr cfg (sim (t_props ta (rid ra)) (t_props tb (rid rb))) = true) as Hsim.
    { destruct (SIM _ _ HZ) as [Hs|Hs]; [|done]. exfalso.
      pose proof (L2 _ _ HZ Hs) as Hin. apply (part_contains_a l _ _ HP HZ) in Hin. by rewrite Hc in Hin. }
    unfold pass1_step. rewrite Hc. cbn [orb].
    assert (mem (rid ra) (opaque_descendants ta) = false) as ->.
    { apply mem_false. rewrite <- (pr_root _ _ PA). by eapply root_not_opaque_desc. }
    unfold matched_parent_b. rewrite RP.
    assert (by_kind keqb tb (b_index tb m1 opb) (t_kind ta (rid ra)) = [rid rb]) as El.
    { unfold by_kind, b_index. rewrite (pr_iter _ _ PB). pose proof (pr_nodup _ _ PB) as ND.
      pose proof UB as UB'. rewrite (pr_iter _ _ PB) in UB'. rewrite preorder_eq in *.
      apply NoDup_cons in ND as [ND _]. cbn [List.filter].
      assert (contains_b m1 (rid rb) = false) as ->.
      { apply Bool.not_true_iff_false. intros Hm. apply Hm1 in Hm. congruence. }
      assert (mem (rid rb) opb = false) as -> by by apply mem_false.
      cbn [negb andb List.filter]. destruct (Z_kind _ _ HZ) as (_ & -> & _). f_equal.
      assert (forall y, y ∈ flat_map preorder (rsub rb) -> y ∉ opb -> keqb (t_kind tb y) (t_kind ta (rid ra)) = false) as HN.
      { intros y Hy Ho. apply Bool.not_true_iff_false. intros HkE. apply ND. rewrite <- (UB' y); [done|by right| |done].
        intros Hin. apply Ho. by apply Hopb. }
      revert HN. generalize (flat_map preorder (rsub rb)). intros k. induction k as [|y k IHk]; intros HN; [done|].
      cbn [List.filter]. destruct (negb (contains_b m1 y) && negb (mem y opb)) eqn:Eb.
      - cbn [List.filter]. rewrite HN; [|left|]. { apply IHk. intros z Hz. apply HN. by right. }
        apply andb_true_iff in Eb as [_ Eb]. apply negb_true_iff in Eb. by apply mem_false.
      - apply IHk. intros z Hz. apply HN. by right. }
    unfold dice_best, root_candidate. rewrite El. cbn [fold_left find]. unfold dice_step.
    rewrite Hcb. rewrite (pr_children _ _ PB _ (subt_refl _)), map_length.
    destruct (rsub rb) as [|u us] eqn:Er; [done|]. cbn [length Nat.eqb].
    assert (ancestry_compatible ta tb (madds m_empty l) (rid ra) (rid rb) = true) as ->.
    { unfold ancestry_compatible. rewrite RP. destruct (t_parent tb (rid rb)) as [p|] eqn:Ep; [|done].
      destruct (get_a (madds m_empty l) p) as [z|] eqn:Ez; [|done]. exfalso.
      apply (pr_root_parent _ _ PB p Ep). apply (bij_bwd _ B) in Ez. rewrite madds_pairs in Ez. cbn [m_pairs m_empty app] in Ez.
      apply L1 in Ez. by eapply zips_in_b. }
    rewrite Hsim. cbn [negb]. rewrite andb_true_r.
    destruct Hh as [Hpb|(S & S1 & S2 & S3)].
    - destruct (ge_thr cfg (dice ta tb (madds m_empty l) (rid ra) (rid rb))); [done|]. rewrite Hpb. done.
    - assert (ge_thr cfg (dice ta tb (madds m_empty l) (rid ra) (rid rb)) = true) as ->; [|done].
      assert (dice ta tb (madds m_empty l) (rid ra) (rid rb) =
              (2 * dice_common ta tb (madds m_empty l) (rid ra) (rid rb), length (preorder ra) + length (preorder rb))) as Ed.
      { unfold dice. rewrite (pr_desc _ _ PA _ (subt_refl _)), (pr_desc _ _ PB _ (subt_refl _)). by rewrite (preorder_eq ra). }
      rewrite Ed. clear Ed. revert S3. unfold ge_thr. cbn [fst snd]. rewrite !Nat.leb_le. intros S3.
      assert (length S <= dice_common ta tb (madds m_empty l) (rid ra) (rid rb)) as Hle; [|nia].
      unfold dice_common. rewrite (pr_desc _ _ PA _ (subt_refl _)), (pr_desc _ _ PB _ (subt_refl _)).
      rewrite <- (map_length fst S). apply NoDup_incl_length; [by apply NoDup_ListNoDup|].
      intros x Hx. apply elem_of_list_In, fst_elem in Hx as (y & Hx). destruct (S2 _ _ Hx) as [Hz Hs].
      apply filter_In. split; [apply elem_of_list_In; by eapply zips_in_a|].
      rewrite (part_get_b l x y HP (L2 _ _ Hz Hs)). apply mem_true. by eapply zips_in_b.
  Qed.

  Lemma find_unique {A} (f : A -> bool) l x : x ∈ l -> f x = true -> (forall y, y ∈ l -> f y = true -> y = x) -> find f l = Some x.
  Proof.
    induction l as [|z l IH]; intros Hx Hf Hu; [by apply elem_of_nil in Hx|]. cbn [find].
    destruct (f z) eqn:Ez; [by rewrite (Hu z); [|left|]|].
    apply IH; [|done|intros y Hy; apply Hu; by right]. apply elem_of_cons in Hx as [->|Hx]; [congruence|done].
  Qed.

  Lemma pass1_child_in_place l idx u u' k s s' : in_place_part l -> subt u ra -> subt u' rb ->
    rsub u !! k = Some s -> rsub u' !! k = Some s' -> (rid u, rid u') ∈ l -> (rid s, rid s') ∈ Z ->
    contains_a (madds m_empty l) (rid s) = false -> mem (rid s) (opaque_descendants ta) = false ->
    pass1_step keqb sim cfg ta tb (opaque_descendants ta) idx (madds m_empty l) (rid s)
    = m_add (madds m_empty l) (rid s) (rid s').
  Proof.
    intros HP Su Su' Hs Hs' Hu HZ Hc Ho. pose proof HP as (L1 & L2 & B).
    assert (contains_b (madds m_empty l) (rid s') = false) as Hcb.
    { apply Bool.not_true_iff_false. rewrite (part_contains_b l _ _ HP HZ), <- (part_contains_a l _ _ HP HZ). by rewrite Hc. }
    unfold pass1_step. rewrite Hc, Ho. cbn [orb]. unfold matched_parent_b.
    destruct (pr_parent _ _ PA u k s Su Hs) as [-> Hpa]. rewrite (part_get_b l _ _ HP Hu).
    assert (pos_candidate keqb sim cfg ta tb (madds m_empty l) (rid s) (rid u') = Some (rid s')) as ->; [|done].
    unfold pos_candidate. rewrite (pr_children _ _ PB _ Su'). destruct (pr_parent _ _ PB u' k s' Su' Hs') as [_ Hpb].
    assert (s' ∈ rsub u') as Hin by by eapply elem_of_list_lookup_2.
    apply find_unique.
    - apply elem_of_list_In, filter_In. split; [apply elem_of_list_In; by apply elem_of_list_fmap_1|].
      rewrite Hcb. by destruct (Z_kind _ _ HZ) as (_ & -> & _).
    - rewrite Hpa, Hpb, Nat.eqb_refl. cbn [andb]. destruct (SIM _ _ HZ) as [Hset|Hset]; [|done].
      pose proof (L2 _ _ HZ Hset) as Hx. apply (part_contains_a l _ _ HP HZ) in Hx. by rewrite Hc in Hx.
    - intros y Hy Ey. apply elem_of_list_In, filter_In in Hy as [Hy _]. apply elem_of_list_In, elem_of_list_fmap in Hy as (v & -> & Hv).
      apply elem_of_list_lookup_1 in Hv as (k' & Hk'). destruct (pr_parent _ _ PB u' k' v Su' Hk') as [_ Hpv].
      apply andb_true_iff in Ey as [Ey _]. apply Nat.eqb_eq in Ey. rewrite Hpv, Hpa in Ey. subst k'. congruence.
  Qed.

  Lemma pass1_in_place opb l1 : in_place_part l1 -> rid rb ∉ opb -> (forall y, y ∈ opaque_descendants tb -> y ∈ opb) ->
    forall todo before l, preorder ra = before ++ todo -> in_place_part l -> (forall p, p ∈ l1 -> p ∈ l) ->
    (forall x y, (x, y) ∈ Z -> x ∈ before -> (x, y) ∈ l) ->
    exists l', fold_left (pass1_step keqb sim cfg ta tb (opaque_descendants ta) (b_index tb (madds m_empty l1) opb)) todo
                 (madds m_empty l) = madds m_empty l' /\
      in_place_part l' /\ (forall x y, (x, y) ∈ Z -> (x, y) ∈ l').
  Proof.
    intros HP1 Hrb Hopb. induction todo as [|x todo IH]; intros before l Ep HP Hl HB.
    { exists l. split; [done|]. split; [done|]. intros x y HZ. apply HB; [done|]. rewrite app_nil_r in Ep. rewrite <- Ep.
      by eapply zips_in_a. }
    cbn [fold_left].
    assert (x ∈ t_iter ta) as Hx. { rewrite (pr_iter _ _ PA), Ep. apply elem_of_app. right. left. }
    assert (exists l2, pass1_step keqb sim cfg ta tb (opaque_descendants ta) (b_index tb (madds m_empty l1) opb)
                         (madds m_empty l) x = madds m_empty l2 /\ in_place_part l2 /\ (forall p, p ∈ l -> p ∈ l2) /\
                       (forall y, (x, y) ∈ Z -> (x, y) ∈ l2)) as (l2 & -> & HP2 & Hl2 & Hx2).
    { destruct (contains_a (madds m_empty l) x) eqn:Ec.
      { exists l. split; [unfold pass1_step; by rewrite Ec|]. split; [done|]. split; [done|].
        intros y HZ. by apply (part_contains_a l x y HP HZ). }
      destruct (mem x (opaque_descendants ta)) eqn:Eo.
      { exists l. split; [unfold pass1_step; by rewrite Eo, orb_true_r|]. split; [done|]. split; [done|].
        intros y HZ. exfalso. apply mem_true in Eo. revert Eo. eapply (zips_outside_a ta ra PA ra rb x y); [constructor| |exact HZ].
        rewrite <- (pr_root _ _ PA). by eapply root_not_opaque_desc. }
      assert (exists y, (x, y) ∈ Z) as (y & HZ) by (apply all_a; [done|by apply mem_false]).
      assert (pass1_step keqb sim cfg ta tb (opaque_descendants ta) (b_index tb (madds m_empty l1) opb) (madds m_empty l) x
              = m_add (madds m_empty l) x y) as ->.
      { destruct (near_subt stop mate_node ra rb x y AL HZ) as (s & s' & S1 & S2 & HN & -> & -> & [[-> ->]|Hu]).
        - apply pass1_root_in_place; try done. intros y Hy. apply madds_contains_b. right.
          apply madds_contains_b in Hy as [Hy|Hy]; [done|]. apply snd_elem in Hy as (z & Hy). apply (elem_snd _ z). by apply Hl.
        - destruct Hu as (u & u' & k & U1 & U2 & U3 & U4 & U5 & U6).
          apply (pass1_child_in_place l _ u u' k); try done. apply HB; [done|].
          apply (preorder_parent_first ra (pr_nodup _ _ PA) before (rid s) todo u s); try done. by eapply elem_of_list_lookup_2. }
      destruct (part_add l x y HP HZ Ec) as [-> HP2]. exists (l ++ [(x, y)]). split; [done|]. split; [done|]. split.
      - intros p Hp. apply elem_of_app. by left.
      - intros y' HZ'. rewrite (Z_fun x y' y HZ' HZ). apply elem_of_app. right. left. }
    apply (IH (before ++ [x])); [|done| |].
    - by rewrite <- app_assoc.
    - intros p Hp. by apply Hl2, Hl.
    - intros x' y HZ Hb. apply elem_of_app in Hb as [Hb|Hb]; [by apply Hl2, HB|].
      apply elem_of_list_singleton in Hb as ->. by apply Hx2.
  Qed.

  Theorem compute_in_place : exists m, compute_matching heqb keqb sim cfg ta tb = Val m /\ bijection m /\ m_pairs m ≡ₚ Z.
  Proof.
    destruct (compute_matching_total heqb keqb sim cfg ta tb ra PA) as (m & E). exists m. split; [done|].
    pose proof (compute_matching_bijection _ _ _ _ _ _ _ E) as B. split; [done|].
    assert (forall l, in_place_part l -> (forall x y, (x, y) ∈ Z -> (x, y) ∈ l) -> m = madds m_empty l -> m_pairs m ≡ₚ Z) as Hfin.
    { intros l (L1 & _) L2 ->. rewrite madds_pairs in *. cbn [m_pairs m_empty app] in *. apply NoDup_Permutation.
      - apply (NoDup_fmap_1 fst). pose proof (bij_nodup_a _ B) as ND. by rewrite madds_pairs in ND.
      - apply (NoDup_fmap_1 fst). apply zips_nodup_fst. apply PA.
      - intros [x y]. split; [apply L1|apply L2]. }
    unfold compute_matching in E. destruct (top_down heqb keqb cfg ta tb m_empty) as [m0|] eqn:Et; [|done].
    injection E as E. assert (bijection m0) as B0.
    { eapply reach_bijection.
      eapply (top_down_reach heqb keqb cfg ta tb (fun _ _ => True) (fun _ _ => True) (fun _ _ => True)); eauto. }
    destruct (top_down_in_place m0 Et) as (l & -> & L1 & L2).
    unfold bottom_up in E.
    destruct (pass1_in_place (opaque_descendants tb) l) with (todo := preorder ra) (before := @nil nat) (l := l)
      as (l' & E1 & HP & HA); try done.
    - rewrite <- (pr_root _ _ PB). by eapply root_not_opaque_desc.
    - intros x y _ Hx. by apply elem_of_nil in Hx.
    - rewrite (pr_iter _ _ PA), E1 in E. apply (Hfin l' HP HA). rewrite <- E. apply fold_left_id. intros x Hx.
      unfold pass2_step. destruct (mem x (opaque_descendants ta)) eqn:Eo; [by rewrite orb_true_r|].
      destruct (all_a x) as (y & HZ); [by rewrite (pr_iter _ _ PA)|by apply mem_false|].
      assert (contains_a (madds m_empty l') x = true) as ->; [|done]. apply (part_contains_a l' x y HP HZ). by apply HA.
  Qed.
End InPlace.
