(** The diff after content was added or removed (C67): lifting the matching lemma
    to pages, the edit script, and the patches. *)
From stdpp Require Import list_numbers sorting.
From Verif Require Import Base Arena Matching Chawathe Dom HtmlDiff
  AttrProofs MatchProofs ArenaProofs ArenaOps TreeProofs DtreeProofs DomTree FrameProofs BuildProofs HashProofs ConvProofs
  ApplyProofs ShadowProofs SimProofs RoundProofs AssembleProofs NestProofs Instances DiffTotal TotalProofs SelfProofs RestyleProofs OpaqueProofs
  InPlaceSpec InPlaceMatch InPlaceProofs GrowMatch GrowSpec.

(** ** Paths and nodes *)

Lemma node_at_snoc {D} (a : arena D) q : forall i j k c, node_at a i q = Some j -> children a j !! k = Some c ->
  node_at a i (q ++ [k]) = Some c.
Proof.
  induction q as [|n q IH]; intros i j k c; cbn [node_at app]; [intros [= ->] ->; done|].
  destruct (children a i !! n); [apply IH|done].
Qed.

Lemma node_at_rat {D} (a : arena D) p : forall r c, is_tree a r -> rat r p = Some c -> node_at a (rid r) p = Some (rid c).
Proof.
  induction p as [|k p IH]; intros r c Ht; cbn [rat node_at]; [intros [= ->]; done|].
  rewrite (is_tree_children _ _ Ht), list_lookup_fmap. destruct (rsub r !! k) as [s|] eqn:Es; [|done]. cbn [fmap option_fmap option_map].
  apply IH. eapply is_tree_sub; [exact Ht|by eapply elem_of_list_lookup_2].
Qed.

(** ** Pairs and nodes *)

Definition unmarked (h : htree) : Prop := hall (fun _ l => NoDup (keys l) /\ is_opaque_props l = false) h.
Lemma unmarked_child h c : unmarked h -> c ∈ hchildren h -> unmarked c.
Proof. intros Hu. apply hall_eq in Hu as [_ Hu]. apply Hu. Qed.
Lemma unmarked_opaque h : unmarked h -> hopaque h = false.
Proof. intros Hu. apply hall_eq in Hu as [[_ Hu] _]. by rewrite hopaque_props. Qed.

Fixpoint mirror_in (p q : path) (k : nat) (cs cs' : list htree) : list pairing :=
  match cs, cs' with
  | c :: cs1, c' :: cs1' => mirror (p ++ [k]) (q ++ [k]) c c' ++ mirror_in p q (S k) cs1 cs1'
  | _, _ => []
  end.
Lemma mirror_elem p q tag ns l cs tag' ns' l' cs' :
  mirror p q (HElem tag ns l cs) (HElem tag' ns' l' cs') =
  ((p, q), (HElem tag ns l cs, HElem tag' ns' l' cs')) :: mirror_in p q 0 cs cs'.
Proof.
  cbn [mirror]. f_equal. generalize 0. revert cs'.
  induction cs as [|c cs IH]; intros [|c' cs'] k; [done|done|done|]. cbn [mirror_in]. f_equal. apply IH.
Qed.

Section Places.
  Variables (t : arena tdata) (a : arena dnode) (ra rb : rose).
  Hypothesis TA : is_tree t ra.
  Hypothesis TB : is_tree a rb.
  Variable stop : nat -> bool.
  Variable R : nat -> nat -> Prop.
  Variable same : nat -> nat -> bool.
  Hypothesis HST : forall u x, tholds t u x -> unmarked u -> stop x = false.
  Hypothesis HRR : forall u v x y, tholds t u x -> holds a v y -> unmarked u -> unmarked v -> same_label u v = true -> R x y.
  Hypothesis HEQ : forall u v s s', subt s ra -> subt s' rb -> tholds t u (rid s) -> holds a v (rid s') ->
    same (rid s) (rid s') = same_bare u v.

  (** A pair of nodes at a pair of places. *)
  Definition pair_ok (w : (nat * nat) * pairing) : Prop :=
    let '((x, y), ((p, q), (u, v))) := w in
    x ∈ preorder ra /\ y ∈ preorder rb /\
    tholds t u x /\ holds a v y /\ unmarked u /\ unmarked v /\ same_label u v = true /\
    node_at t (rid ra) p = Some x /\ node_at a (rid rb) q = Some y /\
    (same_bare u v = true \/ similar u v = true).

  Lemma bare_label u v : bare u = bare v -> same_label u v = true.
  Proof using Type.
    destruct u, v; cbn [bare same_label]; try done. intros [= -> -> _]. by apply hkind_eqb_eq.
  Qed.

  Lemma mirror_exist h : forall h' r r' p q, bare h = bare h' -> unmarked h -> unmarked h' ->
    subt r ra -> subt r' rb -> tholds t h (rid r) -> holds a h' (rid r') ->
    node_at t (rid ra) p = Some (rid r) -> node_at a (rid rb) q = Some (rid r') ->
    exists W, map snd W = mirror p q h h' /\ map fst W = zips stop r r' /\ near stop R r r' /\ Forall pair_ok W /\
      (forall x, x ∈ preorder r -> x ∈ map fst (map fst W)) /\ (forall y, y ∈ preorder r' -> y ∈ map snd (map fst W)).
  Proof using TA TB HST HRR.
    induction h as [s|s|tag ns l cs IH] using htree_ind'; intros h' r r' p q HB HU HU' Sr Sr' Hh Hh' Hp Hq.
    all: assert (is_tree t r) as Ht by (by eapply is_tree_subt); assert (is_tree a r') as Ht' by (by eapply is_tree_subt).
    all: pose proof (HRR _ _ _ _ Hh Hh' HU HU' (bare_label _ _ HB)) as HR0.
    all: assert (rid r ∈ preorder ra) as Pr by (apply preorder_subt; by exists r).
    all: assert (rid r' ∈ preorder rb) as Pr' by (apply preorder_subt; by exists r').
    all: pose proof (HST _ _ Hh HU) as Hst.
    1: exists [((rid r, rid r'), ((p, q), (HText s, h')))]. 2: exists [((rid r, rid r'), ((p, q), (HComment s, h')))].
    1,2: assert (rsub r = []) as Er by (pose proof Hh as HL; apply tholds_eq in HL as [_ HL]; rewrite (is_tree_children _ _ Ht) in HL;
        cbn [hchildren] in HL; destruct (rsub r); [done|inversion HL]);
      destruct h' as [tag' ns' l' cs'|s'|s']; cbn [bare] in HB; try done;
      assert (rsub r' = []) as Er' by (pose proof (holds_children _ _ _ Hh') as HL; rewrite (is_tree_children _ _ Ht') in HL;
        cbn [hchildren] in HL; destruct (rsub r'); [done|inversion HL]);
      destruct r as [i rs], r' as [j rs']; cbn [rid rsub] in *; subst rs rs';
      (split; [done|]); (split; [rewrite zips_eq; by destruct (stop i)|]);
      (split; [constructor; [done|by constructor]|]);
      (split; [apply Forall_singleton; split_and!; try done; left; by apply same_bare_eq|]);
      (split; intros x Hx; rewrite preorder_eq in Hx; cbn [rid rsub flat_map] in Hx; apply elem_of_list_singleton in Hx as ->; left).
    destruct h' as [tag' ns' l' cs'|s'|s']; cbn [bare] in HB; try done. injection HB as <- <- HB.
    rewrite mirror_elem.
    assert (exists W, map snd W = mirror_in p q 0 cs cs' /\ map fst W = zipl stop (rsub r) (rsub r') /\
              Forall2 (near stop R) (rsub r) (rsub r') /\ Forall pair_ok W /\
              (forall x, x ∈ flat_map preorder (rsub r) -> x ∈ map fst (map fst W)) /\
              (forall y, y ∈ flat_map preorder (rsub r') -> y ∈ map snd (map fst W))) as (W & W1 & W2 & W3 & W4 & W5 & W6).
    { assert (forall k c, rsub r !! k = Some c -> subt c ra /\ node_at t (rid ra) (p ++ [0 + k]) = Some (rid c)) as HS.
      { intros k c Hk. assert (c ∈ rsub r) as Hin by by eapply elem_of_list_lookup_2. split; [eapply subt_trans; [by apply subt_child|done]|].
        eapply node_at_snoc; [exact Hp|]; cbn [Nat.add]; by rewrite (is_tree_children _ _ Ht), list_lookup_fmap, Hk. }
      assert (forall k c, rsub r' !! k = Some c -> subt c rb /\ node_at a (rid rb) (q ++ [0 + k]) = Some (rid c)) as HS'.
      { intros k c Hk. assert (c ∈ rsub r') as Hin by by eapply elem_of_list_lookup_2. split; [eapply subt_trans; [by apply subt_child|done]|].
        eapply node_at_snoc; [exact Hq|]; cbn [Nat.add]; by rewrite (is_tree_children _ _ Ht'), list_lookup_fmap, Hk. }
      assert (forall c, c ∈ cs -> unmarked c) as HU1 by (intros c Hc; by eapply (unmarked_child _ _ HU)).
      assert (forall c, c ∈ cs' -> unmarked c) as HU2 by (intros c Hc; by eapply (unmarked_child _ _ HU')).
      apply tholds_eq in Hh as [_ HL]. apply holds_children in Hh' as HL'. cbn [hchildren] in HL, HL'.
      rewrite (is_tree_children _ _ Ht) in HL. rewrite (is_tree_children _ _ Ht') in HL'.
      revert HS HS' HU1 HU2 HL HL' HB. generalize (rsub r), (rsub r'). generalize 0. clear Ht Ht' Hh' Hp Hq HR0 Hst HU HU' Pr Pr' Sr Sr' r r'.
      revert cs'. induction cs as [|c cs IHc]; intros cs' k0 rs rs' HS HS' HU1 HU2 HL HL' HB; destruct cs' as [|c' cs'], rs as [|u rs], rs' as [|u' rs'];
        cbn [map] in *; try done; try (by inversion HL); try (by inversion HL').
      - exists []. split; [done|]. split; [done|]. split; [constructor|]. split; [constructor|]. split; intros x Hx; by apply elem_of_nil in Hx.
      - apply Forall2_cons in HL as [Hx HL]. apply Forall2_cons in HL' as [Hx' HL']. injection HB as HB1 HB2.
        destruct (HS 0 u eq_refl) as (S1 & S2). rewrite Nat.add_0_r in S2.
        destruct (HS' 0 u' eq_refl) as (S1' & S2'). rewrite Nat.add_0_r in S2'.
        destruct (IH c ltac:(left) c' u u' (p ++ [k0]) (q ++ [k0])) as (W1 & A1 & A2 & A3 & A4 & A5 & A6); try done;
          [apply HU1; left|apply HU2; left|].
        destruct (IHc ltac:(intros z Hz; apply IH; by right) cs' (S k0) rs rs') as (W2 & B1 & B2 & B3 & B4 & B5 & B6); try done.
        { intros k z Hk. replace (S k0 + k) with (k0 + S k) by lia. by apply (HS (S k)). }
        { intros k z Hk. replace (S k0 + k) with (k0 + S k) by lia. by apply (HS' (S k)). }
        { intros z Hz. apply HU1. by right. } { intros z Hz. apply HU2. by right. }
        exists (W1 ++ W2). cbn [zipl mirror_in flat_map]. rewrite !map_app, A1, A2, B1, B2. split; [done|]. split; [done|].
        split; [by constructor|]. split; [by apply Forall_app|]. rewrite <- A2, <- B2.
        split; intros x Hxx; apply elem_of_app; apply elem_of_app in Hxx as [Hxx|Hxx]; auto. }
    exists (((rid r, rid r'), ((p, q), (HElem tag ns l cs, HElem tag ns l' cs'))) :: W). cbn [map fst snd]. rewrite W1, W2.
    split; [done|]. destruct r as [i rs], r' as [j rs']. cbn [rid rsub] in *. split; [by rewrite zips_eq, Hst|].
    split; [by constructor|]. split.
    { constructor; [|done]. split_and!; try done. - by apply hkind_eqb_eq. - left. apply same_bare_eq. cbn [bare]. by rewrite HB. }
    rewrite <- W2. split; intros x Hx; rewrite preorder_eq in Hx; cbn [rid rsub] in Hx; apply elem_of_cons in Hx as [->|Hx];
      [left|right; by apply W5|left|right; by apply W6].
  Qed.

  (** All nodes below a tree. *)
  Lemma nodes_hold h : forall r x, is_tree t r -> tholds t h (rid r) -> x ∈ preorder r ->
    exists u, u ∈ nodes h /\ tholds t u x.
  Proof using Type.
    induction h as [s|s|tag ns l cs IH] using htree_ind'; intros r x Ht Hh Hx; rewrite preorder_eq in Hx; apply elem_of_cons in Hx as [->|Hx];
      try (by eexists; split; [left|done]).
    1,2: exfalso; apply tholds_eq in Hh as [_ HL]; rewrite (is_tree_children _ _ Ht) in HL; cbn [hchildren] in HL;
      destruct (rsub r); [by apply elem_of_nil in Hx|inversion HL].
    apply elem_flat_map in Hx as (s & Hs & Hx). pose proof Hs as Hs'. apply elem_of_list_lookup_1 in Hs as (k & Hk).
    destruct (tholds_sub t _ r k s Ht Hh Hk) as (c & Hc & Hhc). cbn [hchildren] in Hc. apply elem_of_list_lookup_2 in Hc.
    destruct (IH c Hc s x) as (u & U1 & U2); try done; [by eapply is_tree_sub|]. exists u. split; [|done].
    cbn [nodes]. right. apply elem_flat_map. by exists c.
  Qed.
  Lemma nodes_hold_b h : forall r x, is_tree a r -> holds a h (rid r) -> x ∈ preorder r ->
    exists u, u ∈ nodes h /\ holds a u x.
  Proof using Type.
    induction h as [s|s|tag ns l cs IH] using htree_ind'; intros r x Ht Hh Hx; rewrite preorder_eq in Hx; apply elem_of_cons in Hx as [->|Hx];
      try (by eexists; split; [left|done]).
    1,2: exfalso; pose proof (holds_children _ _ _ Hh) as HL; rewrite (is_tree_children _ _ Ht) in HL; cbn [hchildren] in HL;
      destruct (rsub r); [by apply elem_of_nil in Hx|inversion HL].
    apply elem_flat_map in Hx as (s & Hs & Hx). pose proof Hs as Hs'. apply elem_of_list_lookup_1 in Hs as (k & Hk).
    destruct (holds_sub a _ r k s Ht Hh Hk) as (c & Hc & Hhc). cbn [hchildren] in Hc. apply elem_of_list_lookup_2 in Hc.
    destruct (IH c Hc s x) as (u & U1 & U2); try done; [by eapply is_tree_sub|]. exists u. split; [|done].
    cbn [nodes]. right. apply elem_flat_map. by exists c.
  Qed.

  Notation growm := (grow stop R same).

  Lemma plan_exist pl : forall p q k k' cs cs' rs rs', fits_in pl k k' cs cs' = true ->
    (forall c, c ∈ cs -> unmarked c) -> (forall c, c ∈ cs' -> unmarked c) ->
    Forall2 (tholds t) cs (map rid rs) -> Forall2 (holds a) cs' (map rid rs') ->
    (forall n c, rs !! n = Some c -> subt c ra /\ node_at t (rid ra) (p ++ [k + n]) = Some (rid c)) ->
    (forall n c, rs' !! n = Some c -> subt c rb /\ node_at a (rid rb) (q ++ [k' + n]) = Some (rid c)) ->
    exists W ks, map snd W = pairs_in pl p q k k' cs cs' /\ map fst W = pairs_of ks /\ StronglySorted later ks /\
      Forall (fun e => k <= fst e /\ k' <= fst (snd e)) ks /\
      (forall i j L, (i, (j, L)) ∈ ks -> exists u u', rs !! (i - k) = Some u /\ rs' !! (j - k') = Some u' /\ growm u u' L /\
         (i = j \/ fixed stop same (rid u) (rid u'))) /\
      Forall pair_ok W /\
      (forall x, x ∈ flat_map preorder rs -> x ∈ map fst (map fst W) \/ exists u, u ∈ flat_map nodes (removed_in pl cs cs') /\ tholds t u x) /\
      (forall y, y ∈ flat_map preorder rs' -> y ∈ map snd (map fst W) \/ exists v, v ∈ flat_map nodes (added_in pl cs cs') /\ holds a v y).
  Proof using TA TB HST HRR HEQ.
    induction pl as [|below IHb rest IHr|rest IHr|rest IHr]; intros p q k k' cs cs' rs rs' HF HU1 HU2 HL HL' HS HS'.
    - destruct cs, cs'; try done. destruct rs; [|inversion HL]. destruct rs'; [|inversion HL'].
      exists [], []. cbn. split; [done|]. split; [done|]. split; [constructor|]. split; [constructor|]. split.
      { intros i j L Hin. by apply elem_of_nil in Hin. } split; [constructor|].
      split; intros x Hx; by apply elem_of_nil in Hx.
    - destruct cs as [|c cs], cs' as [|c' cs']; try done. destruct rs as [|u rs]; [inversion HL|]. destruct rs' as [|u' rs']; [inversion HL'|].
      cbn [map] in HL, HL'. apply Forall2_cons in HL as [Hx HL]. apply Forall2_cons in HL' as [Hx' HL'].
      cbn [fits_in] in HF. apply andb_true_iff in HF as [HF1 HF2].
      destruct (HS 0 u eq_refl) as (S1 & S2). rewrite Nat.add_0_r in S2.
      destruct (HS' 0 u' eq_refl) as (S1' & S2'). rewrite Nat.add_0_r in S2'.
      assert (unmarked c) as Uc by (apply HU1; left). assert (unmarked c') as Uc' by (apply HU2; left).
      assert (is_tree t u) as Ht by (by eapply is_tree_subt). assert (is_tree a u') as Ht' by (by eapply is_tree_subt).
      destruct (IHr p q (S k) (S k') cs cs' rs rs') as (W2 & ks & B1 & B2 & B3 & B4 & B5 & B6 & B7 & B8); try done.
      { intros z Hz. apply HU1. by right. } { intros z Hz. apply HU2. by right. }
      { intros n z Hn. replace (S k + n) with (k + S n) by lia. by apply (HS (S n)). }
      { intros n z Hn. replace (S k' + n) with (k' + S n) by lia. by apply (HS' (S n)). }
      assert (exists W1, map snd W1 = (if same_bare c c' then mirror (p ++ [k]) (q ++ [k']) c c'
                 else ((p ++ [k], q ++ [k']), (c, c')) :: pairs_in below (p ++ [k]) (q ++ [k']) 0 0 (hchildren c) (hchildren c')) /\
                growm u u' (map fst W1) /\ (k = k' \/ fixed stop same (rid u) (rid u')) /\ Forall pair_ok W1 /\
                (forall x, x ∈ preorder u -> x ∈ map fst (map fst W1) \/
                   exists v, v ∈ flat_map nodes (if same_bare c c' then [] else removed_in below (hchildren c) (hchildren c')) /\ tholds t v x) /\
                (forall y, y ∈ preorder u' -> y ∈ map snd (map fst W1) \/
                   exists v, v ∈ flat_map nodes (if same_bare c c' then [] else added_in below (hchildren c) (hchildren c')) /\ holds a v y))
        as (W1 & A1 & A2 & A3 & A4 & A5 & A6).
      { pose proof (HEQ c c' u u' S1 S1' Hx Hx') as Esame.
        destruct (same_bare c c') eqn:Eb.
        - apply same_bare_eq in Eb.
          destruct (mirror_exist c c' u u' (p ++ [k]) (q ++ [k']) Eb Uc Uc' S1 S1' Hx Hx' S2 S2') as (W1 & M1 & M2 & M3 & M4 & M5 & M6).
          exists W1. split; [done|]. split.
          { rewrite M2. destruct u as [i0 us], u' as [j0 us']. by constructor. }
          split; [right; by left|]. split; [done|]. split; intros x Hxx; left; auto.
        - cbn [orb] in HF1. apply andb_true_iff in HF1 as [HF1 HFb]. apply andb_true_iff in HF1 as [Ek Hsim]. apply Nat.eqb_eq in Ek.
          assert (same_label c c' = true) as Hlab by (unfold similar in Hsim; by apply andb_true_iff in Hsim as [? _]).
          assert (subt u ra) as Su by done.
          destruct (IHb (p ++ [k]) (q ++ [k']) 0 0 (hchildren c) (hchildren c') (rsub u) (rsub u')) as (W1 & ks1 & C1 & C2 & C3 & C4 & C5 & C6 & C7 & C8); try done.
          { intros z Hz. by apply (unmarked_child c z). } { intros z Hz. by apply (unmarked_child c' z). }
          { rewrite <- (is_tree_children _ _ Ht). by apply tholds_eq in Hx as [_ Hx]. }
          { rewrite <- (is_tree_children _ _ Ht'). by apply holds_children. }
          { intros n z Hn. assert (z ∈ rsub u) as Hin by by eapply elem_of_list_lookup_2. split; [eapply subt_trans; [by apply subt_child|done]|].
            eapply node_at_snoc; [exact S2|]; cbn [Nat.add]; by rewrite (is_tree_children _ _ Ht), list_lookup_fmap, Hn. }
          { intros n z Hn. assert (z ∈ rsub u') as Hin by by eapply elem_of_list_lookup_2. split; [eapply subt_trans; [by apply subt_child|done]|].
            eapply node_at_snoc; [exact S2'|]; cbn [Nat.add]; by rewrite (is_tree_children _ _ Ht'), list_lookup_fmap, Hn. }
          exists (((rid u, rid u'), ((p ++ [k], q ++ [k']), (c, c'))) :: W1). cbn [map fst snd]. rewrite C1. split; [done|].
          split.
          { destruct u as [i0 us], u' as [j0 us']. cbn [rid rsub] in *. rewrite C2. apply grow_node; try done.
            - by eapply (HRR c c').
            - by eapply (HST c).
            - intros i j L Hin. destruct (C5 i j L Hin) as (w & w' & D1 & D2 & D3 & D4). rewrite Nat.sub_0_r in D1, D2. by exists w, w'. }
          split; [by left|]. split.
          { constructor; [|done]. split_and!; try done; [apply preorder_subt; by exists u|apply preorder_subt; by exists u'|by right]. }
          split; intros x Hxx; rewrite preorder_eq in Hxx; apply elem_of_cons in Hxx as [->|Hxx]; [left; left| |left; left|].
          + destruct (C7 x Hxx) as [Hc|Hc]; [left; by right|by right].
          + destruct (C8 x Hxx) as [Hc|Hc]; [left; by right|by right]. }
      exists (W1 ++ W2), ((k, (k', map fst W1)) :: ks). cbn [pairs_in removed_in added_in]. rewrite !map_app, A1, B1.
      split; [done|]. split; [cbn [pairs_of flat_map snd]; by rewrite B2|]. split.
      { constructor; [done|]. rewrite Forall_forall in B4 |- *. intros e He. destruct (B4 e He). split; cbn; lia. }
      split. { constructor; [cbn; lia|]. eapply Forall_impl; [exact B4|]. cbn. intros e [? ?]. lia. }
      split.
      { intros i j L Hin. apply elem_of_cons in Hin as [[= -> -> ->]|Hin].
        - rewrite !Nat.sub_diag. exists u, u'. done.
        - destruct (B5 i j L Hin) as (w & w' & D1 & D2 & D3 & D4). rewrite Forall_forall in B4. destruct (B4 _ Hin) as [L1 L2]. cbn in L1, L2.
          exists w, w'. replace (i - k) with (S (i - S k)) by lia. replace (j - k') with (S (j - S k')) by lia. done. }
      split; [by apply Forall_app|]. cbn [flat_map]. split; intros x Hxx; apply elem_of_app in Hxx as [Hxx|Hxx].
      + destruct (A5 x Hxx) as [Hc|(v & V1 & V2)]; [left; apply elem_of_app; by left|]. right. exists v. rewrite flat_map_app. split; [|done].
        apply elem_of_app. by left.
      + destruct (B7 x Hxx) as [Hc|(v & V1 & V2)]; [left; apply elem_of_app; by right|]. right. exists v. rewrite flat_map_app. split; [|done].
        apply elem_of_app. by right.
      + destruct (A6 x Hxx) as [Hc|(v & V1 & V2)]; [left; apply elem_of_app; by left|]. right. exists v. rewrite flat_map_app. split; [|done].
        apply elem_of_app. by left.
      + destruct (B8 x Hxx) as [Hc|(v & V1 & V2)]; [left; apply elem_of_app; by right|]. right. exists v. rewrite flat_map_app. split; [|done].
        apply elem_of_app. by right.
    - destruct cs' as [|c' cs']; [by destruct cs|]. assert (fits_in rest k (S k') cs cs' = true) as HF' by by destruct cs.
      destruct rs' as [|u' rs']; [inversion HL'|]. cbn [map] in HL'. apply Forall2_cons in HL' as [Hx' HL'].
      destruct (HS' 0 u' eq_refl) as (S1' & S2').
      destruct (IHr p q k (S k') cs cs' rs rs') as (W2 & ks & B1 & B2 & B3 & B4 & B5 & B6 & B7 & B8); try done.
      { intros z Hz. apply HU2. by right. }
      { intros n z Hn. replace (S k' + n) with (k' + S n) by lia. by apply (HS' (S n)). }
      assert (pairs_in (New rest) p q k k' cs (c' :: cs') = pairs_in rest p q k (S k') cs cs') as -> by by destruct cs.
      assert (removed_in (New rest) cs (c' :: cs') = removed_in rest cs cs') as -> by by destruct cs.
      assert (added_in (New rest) cs (c' :: cs') = c' :: added_in rest cs cs') as -> by by destruct cs.
      exists W2, ks. split; [done|]. split; [done|]. split; [done|].
      split. { eapply Forall_impl; [exact B4|]. cbn. intros e [? ?]. lia. } split.
      { intros i j L Hin. destruct (B5 i j L Hin) as (w & w' & D1 & D2 & D3 & D4). rewrite Forall_forall in B4. destruct (B4 _ Hin) as [L1 L2]. cbn in L1, L2.
        exists w, w'. replace (j - k') with (S (j - S k')) by lia. done. }
      split; [done|]. split; [done|]. cbn [flat_map]. intros y Hy. apply elem_of_app in Hy as [Hy|Hy].
      + right. destruct (nodes_hold_b c' u' y) as (v & V1 & V2); try done; [by eapply is_tree_subt|]. exists v. split; [|done]. apply elem_of_app. by left.
      + destruct (B8 y Hy) as [Hc|(v & V1 & V2)]; [by left|]. right. exists v. split; [|done]. apply elem_of_app. by right.
    - destruct cs as [|c cs]; [done|]. assert (fits_in rest (S k) k' cs cs' = true) as HF' by by destruct cs'.
      destruct rs as [|u rs]; [inversion HL|]. cbn [map] in HL. apply Forall2_cons in HL as [Hx HL].
      destruct (HS 0 u eq_refl) as (S1 & S2).
      destruct (IHr p q (S k) k' cs cs' rs rs') as (W2 & ks & B1 & B2 & B3 & B4 & B5 & B6 & B7 & B8); try done.
      { intros z Hz. apply HU1. by right. }
      { intros n z Hn. replace (S k + n) with (k + S n) by lia. by apply (HS (S n)). }
      assert (pairs_in (Gone rest) p q k k' (c :: cs) cs' = pairs_in rest p q (S k) k' cs cs') as -> by by destruct cs'.
      assert (removed_in (Gone rest) (c :: cs) cs' = c :: removed_in rest cs cs') as -> by by destruct cs'.
      assert (added_in (Gone rest) (c :: cs) cs' = added_in rest cs cs') as -> by by destruct cs'.
      exists W2, ks. split; [done|]. split; [done|]. split; [done|].
      split. { eapply Forall_impl; [exact B4|]. cbn. intros e [? ?]. lia. } split.
      { intros i j L Hin. destruct (B5 i j L Hin) as (w & w' & D1 & D2 & D3 & D4). rewrite Forall_forall in B4. destruct (B4 _ Hin) as [L1 L2]. cbn in L1, L2.
        exists w, w'. replace (i - k) with (S (i - S k)) by lia. done. }
      split; [done|]. split; [|done]. cbn [flat_map]. intros y Hy. apply elem_of_app in Hy as [Hy|Hy].
      + right. destruct (nodes_hold c u y) as (v & V1 & V2); try done; [by eapply is_tree_subt|]. exists v. split; [|done]. apply elem_of_app. by left.
      + destruct (B7 y Hy) as [Hc|(v & V1 & V2)]; [by left|]. right. exists v. split; [|done]. apply elem_of_app. by right.
  Qed.

  Lemma all_exist pl h h' : fits_in pl 0 0 (hchildren h) (hchildren h') = true -> similar h h' = true ->
    unmarked h -> unmarked h' -> tholds t h (rid ra) -> holds a h' (rid rb) ->
    exists W, map snd W = pairs_by pl [] [] h h' /\ growm ra rb (map fst W) /\ Forall pair_ok W /\
      (forall x, x ∈ preorder ra -> x ∈ map fst (map fst W) \/ exists u, u ∈ flat_map nodes (removed pl h h') /\ tholds t u x) /\
      (forall y, y ∈ preorder rb -> y ∈ map snd (map fst W) \/ exists v, v ∈ flat_map nodes (added pl h h') /\ holds a v y).
  Proof using TA TB HST HRR HEQ.
    intros HF Hsim Uc Uc' Hx Hx'. unfold pairs_by, removed, added.
    pose proof (HEQ h h' ra rb (subt_refl _) (subt_refl _) Hx Hx') as Esame.
    assert (same_label h h' = true) as Hlab by (unfold similar in Hsim; by apply andb_true_iff in Hsim as [? _]).
    destruct (same_bare h h') eqn:Eb.
    - apply same_bare_eq in Eb.
      destruct (mirror_exist h h' ra rb [] [] Eb Uc Uc' (subt_refl _) (subt_refl _) Hx Hx' eq_refl eq_refl) as (W1 & M1 & M2 & M3 & M4 & M5 & M6).
      exists W1. split; [done|]. split.
      { rewrite M2. destruct ra as [i0 us], rb as [j0 us']. by constructor. }
      split; [done|]. split; intros x Hxx; left; auto.
    - destruct (plan_exist pl [] [] 0 0 (hchildren h) (hchildren h') (rsub ra) (rsub rb)) as (W1 & ks1 & C1 & C2 & C3 & C4 & C5 & C6 & C7 & C8); try done.
      { intros z Hz. by apply (unmarked_child h z). } { intros z Hz. by apply (unmarked_child h' z). }
      { rewrite <- (is_tree_children _ _ TA). by apply tholds_eq in Hx as [_ Hx]. }
      { rewrite <- (is_tree_children _ _ TB). by apply holds_children. }
      { intros n z Hn. assert (z ∈ rsub ra) as Hin by by eapply elem_of_list_lookup_2. split; [by apply subt_child|].
        eapply node_at_snoc; [done|]; cbn [Nat.add]; by rewrite (is_tree_children _ _ TA), list_lookup_fmap, Hn. }
      { intros n z Hn. assert (z ∈ rsub rb) as Hin by by eapply elem_of_list_lookup_2. split; [by apply subt_child|].
        eapply node_at_snoc; [done|]; cbn [Nat.add]; by rewrite (is_tree_children _ _ TB), list_lookup_fmap, Hn. }
      exists (((rid ra, rid rb), (([], []), (h, h'))) :: W1). cbn [map fst snd]. rewrite C1. split; [done|].
      split.
      { destruct ra as [i0 us], rb as [j0 us']. cbn [rid rsub] in *. rewrite C2. apply grow_node; try done.
        - by eapply (HRR h h').
        - by eapply (HST h).
        - intros i j L Hin. destruct (C5 i j L Hin) as (w & w' & D1 & D2 & D3 & D4). rewrite Nat.sub_0_r in D1, D2. by exists w, w'. }
      split.
      { constructor; [|done]. split_and!; try done; [apply preorder_rid|apply preorder_rid|by right]. }
      split; intros x Hxx; rewrite preorder_eq in Hxx; apply elem_of_cons in Hxx as [->|Hxx]; [left; left| |left; left|].
      + destruct (C7 x Hxx) as [Hc|Hc]; [left; by right|by right].
      + destruct (C8 x Hxx) as [Hc|Hc]; [left; by right|by right].
  Qed.
End Places.

(** ** The matching of two pages *)

Lemma pairs_in_nil pl : forall p q k k' cs, pairs_in pl p q k k' cs [] = [].
Proof. induction pl; intros p q k k' [|c cs]; cbn [pairs_in]; auto. Qed.

Lemma hall_nodes P h : forall u, hall P h -> u ∈ nodes h -> hall P u.
Proof.
  induction h as [s|s|tag ns l cs IH] using htree_ind'; intros u Hh Hu; cbn [nodes] in Hu; apply elem_of_cons in Hu as [->|Hu]; try done;
    try (by apply elem_of_nil in Hu).
  apply elem_flat_map in Hu as (c & Hc & Hu). apply hall_eq in Hh as [_ Hh]. by apply (IH c Hc u (Hh c Hc)).
Qed.

Lemma path_eqb_true p q : path_eqb p q = true <-> p = q.
Proof. unfold path_eqb. destruct (decide (p = q)); split; congruence. Qed.

Lemma alike_namesb_true l l' : alike_namesb l l' = true -> alike_names l l'.
Proof. unfold alike_namesb, alike_names. by intros ?%Nat.leb_le. Qed.

Lemma page_unmarked d b ats ts : plain_doc d b ats ts -> unmarked (page ts).
Proof.
  intros PD. apply hall_eq. split; [by split; [constructor|]|]. cbn [hchildren page]. intros c Hc.
  eapply hall_impl; [|by apply (pd_plain _ _ _ _ PD)]. by intros k l (_ & ? & ?).
Qed.

Section Lift.
  Context {H : Type}.
  Variables (heqb : H -> H -> bool) (hcomb : hkind -> option string -> list H -> H) (h0 : H).
  Hypothesis CF : collision_free heqb hcomb.
  Hypothesis HR : forall x, heqb x x = true.
  Variables (old new : document) (ob nb : nat) (oats : attrs) (ts us : list htree).
  Hypothesis PO : plain_doc old ob oats ts.
  Hypothesis PN : plain_doc new nb [] us.
  Variable pl : plan.
  Hypothesis CC : clear_change pl (page ts) (page us) = true.

  Record grown (t : arena tdata) (ta tb : dtree H hkind attrs string) (m : matching) (ra rb : rose)
      (W : list ((nat * nat) * pairing)) : Prop := {
    gr_built : built t bodyk ts;
    gr_a : presents ta ra;
    gr_b : presents tb rb;
    gr_ta : is_tree t ra;
    gr_tb : is_tree (doc_arena new) rb;
    gr_ra : rid ra = 0;
    gr_rb : rid rb = nb;
    gr_ea : mk_dtree hcomb h0 (fun d => d) t 0 = Val ta;
    gr_eb : mk_dtree hcomb h0 tdata_of (doc_arena new) nb = Val tb;
    gr_bij : bijection m;
    gr_pairs : m_pairs m ≡ₚ map fst W;
    gr_places : map snd W = pairs_by pl [] [] (page ts) (page us);
    gr_ok : Forall (pair_ok t (doc_arena new) ra rb) W;
    gr_grow : grow (t_opaque ta) (mate_node hkind_eqb ta tb) (fun x y => heqb (t_hash ta x) (t_hash tb y)) ra rb (map fst W)
  }.

  Lemma compared_grown t ta tb m : compared heqb hcomb h0 old new t ta tb m -> exists ra rb W, grown t ta tb m ra rb W.
  Proof using CF HR PO PN CC.
    intros (ob' & nb' & Eo & En & Et & Ea & Eb & EM).
    pose proof (pd_body _ _ _ _ PO). pose proof (pd_body _ _ _ _ PN).
    assert (ob' = ob) as -> by congruence. assert (nb' = nb) as -> by congruence.
    destruct (build_tree_ok (doc_arena old) ob _ ts (pd_wf _ _ _ _ PO) (pd_data _ _ _ _ PO) (pd_holds _ _ _ _ PO))
      as (t' & Et' & BT). assert (t' = t) as -> by congruence. clear Et'.
    destruct (built_tree t _ ts BT) as (ra & Hra & Hta & Hia).
    assert (0 < length t) as L0 by (eapply data_lt; apply BT).
    destruct (mk_dtree_presents hcomb h0 (fun d => d) t ra (bt_wf _ _ _ BT)) as (ta' & Ea' & PA); [by rewrite Hra|done|].
    destruct (tree_exists (doc_arena new) nb (pd_wf _ _ _ _ PN)) as (rb & Hrb & Htb).
    assert (nb < length (doc_arena new)) as L1 by (eapply data_lt; apply PN).
    destruct (mk_dtree_presents hcomb h0 tdata_of (doc_arena new) rb (pd_wf _ _ _ _ PN)) as (tb' & Eb' & PB); [by rewrite Hrb|done|].
    rewrite Hra in Ea'. rewrite Hrb in Eb'.
    assert (ta' = ta) as -> by congruence. assert (tb' = tb) as -> by congruence. clear Ea' Eb'.
    assert (forall s, subt s ra -> t_hash ta (rid s) = rhash hcomb (fun d => d) t s) as HA1.
    { intros s Hs. eapply (mk_dtree_hash hcomb h0 (fun d => d) t ra); try done; [apply BT|by rewrite Hra|by rewrite Hra]. }
    assert (forall s, subt s rb -> t_hash tb (rid s) = rhash hcomb tdata_of (doc_arena new) s) as HB1.
    { intros s Hs. eapply (mk_dtree_hash hcomb h0 tdata_of (doc_arena new) rb); try done; [apply PN|by rewrite Hrb|by rewrite Hrb]. }
    destruct (mk_dtree_fields _ _ _ _ _ _ Ea) as (A1 & A2 & A3 & A4 & A5 & A6 & A7 & A8 & A9).
    destruct (mk_dtree_fields _ _ _ _ _ _ Eb) as (B1 & B2 & B3 & B4 & B5 & B6 & B7 & B8 & B9).
    set (h := page ts) in *. set (h' := page us) in *. set (a := doc_arena new) in *.
    assert (unmarked h) as UH by (by eapply page_unmarked).
    assert (unmarked h') as UH' by (by eapply page_unmarked).
    assert (tholds t h (rid ra)) as Hh.
    { apply tholds_eq. rewrite Hra. split; [apply BT|apply (bt_holds _ _ _ BT)]. }
    assert (holds a h' (rid rb)) as Hh'.
    { apply holds_elem. rewrite Hrb. split; [apply PN|apply PN]. }
    assert (forall u x, tholds t u x -> t_kind ta x = td_kind (tdata_of_h u) /\ t_opaque ta x = hopaque u /\
              t_props ta x = td_props (tdata_of_h u)) as KA.
    { intros u x Hu. split; [|split]; [| |]. 2:{ rewrite A9. by apply stop_of. }
      - apply tholds_eq in Hu as [Hd _]. rewrite A2. unfold dkind. by rewrite Hd.
      - apply tholds_eq in Hu as [Hd _]. rewrite A3. unfold dprops. by rewrite Hd. }
    assert (forall v y, holds a v y -> t_kind tb y = td_kind (tdata_of_h v) /\ t_opaque tb y = hopaque v /\
              t_props tb y = td_props (tdata_of_h v)) as KB.
    { intros v y Hv. destruct (tdata_of_holds _ _ _ Hv) as (d & Hd & Ed). split; [|split]; [| |].
      2:{ rewrite B9. by apply stop_of_b. }
      - rewrite B2. unfold dkind. by rewrite Hd, Ed.
      - rewrite B3. unfold dprops. by rewrite Hd, Ed. }
    assert (forall u v s s', subt s ra -> subt s' rb -> tholds t u (rid s) -> holds a v (rid s') ->
              heqb (t_hash ta (rid s)) (t_hash tb (rid s')) = same_bare u v) as HEQ.
    { intros u v s s' Hs Hs' Hu Hv. rewrite HA1, HB1 by done.
      rewrite (rhash_tholds hcomb t u s), (rhash_holds hcomb a v s'); [by apply hhash_same|by eapply is_tree_subt|done|by eapply is_tree_subt|done]. }
    assert (forall u v x y, tholds t u x -> holds a v y -> x ∈ preorder ra -> y ∈ preorder rb ->
              heqb (t_hash ta x) (t_hash tb y) = same_bare u v) as HEQ2.
    { intros u v x y Hu Hv Hx Hy. apply preorder_subt in Hx as (s & Hs & <-). apply preorder_subt in Hy as (s' & Hs' & <-). by apply HEQ. }
    unfold clear_change in CC. apply andb_true_iff in CC as [CC1 HHALF]. apply andb_true_iff in CC1 as [CC1 HTW].
    apply andb_true_iff in CC1 as [HFIT HAP].
    destruct (all_exist t a ra rb Hta Htb (t_opaque ta) (mate_node hkind_eqb ta tb) (fun x y => heqb (t_hash ta x) (t_hash tb y)))
      with (pl := pl) (h := h) (h' := h') as (W & W1 & AL & W2 & CA & CB); try done.
    { intros u x Hu HU. destruct (KA u x Hu) as (_ & -> & _). by apply unmarked_opaque. }
    { intros u v x y Hu Hv HU HV Huv. destruct (KA u x Hu) as (K1 & K2 & _), (KB v y Hv) as (K3 & K4 & _). unfold mate_node.
      rewrite K1, K2, K3, K4, !unmarked_opaque by done. rewrite same_label_kind in Huv. apply hkind_eqb_eq in Huv.
      rewrite Huv. split; [|split]; [| |done]; by apply hkind_eqb_eq. }
    assert (t_parent ta (rid ra) = None) as RP. { rewrite A5, Hra. apply BT. }
    assert (forall x y p q u v, ((x, y), ((p, q), (u, v))) ∈ W -> pair_ok t a ra rb ((x, y), ((p, q), (u, v)))) as HW.
    { intros x y p q u v Hin. rewrite Forall_forall in W2. by apply W2. }
    assert (forall x y, (x, y) ∈ map fst W -> exists p q u v, ((x, y), ((p, q), (u, v))) ∈ W) as HWZ.
    { intros x y Hz. apply elem_of_list_In, in_map_iff in Hz as ([[x' y'] [[p q] [u v]]] & E & Hz).
      injection E as -> ->. exists p, q, u, v. by apply elem_of_list_In. }
    assert (forall e, e ∈ pairs_by pl [] [] h h' -> exists x y, ((x, y), e) ∈ W) as HWL.
    { intros e He. rewrite <- W1 in He. apply elem_of_list_In, in_map_iff in He as ([[x y] e'] & E & He). cbn in E. subst e'.
      exists x, y. by apply elem_of_list_In. }
    assert (forall x y p q u v, ((x, y), ((p, q), (u, v))) ∈ W -> (x, y) ∈ map fst W) as HWf.
    { intros x y p q u v Hin. apply elem_of_list_In, in_map_iff. eexists. split; [|by apply elem_of_list_In]. done. }
    assert (forall x y p q u v, ((x, y), ((p, q), (u, v))) ∈ W -> same_bare u v = true ->
              fixed (t_opaque ta) (fun x y => heqb (t_hash ta x) (t_hash tb y)) x y) as HFX.
    { intros x y p q u v Hin Hs. left. destruct (HW _ _ _ _ _ _ Hin) as (X1 & X2 & X3 & X4 & _). by rewrite (HEQ2 u v). }
    destruct (compute_grown heqb hkind_eqb props_sim 1 2 ta tb ra rb PA PB (map fst W) AL) as (m' & Em & BM & PM).
    - (* equal hashes *)
      intros x y Hx Hy Hh1. rewrite (pr_iter _ _ PA) in Hx. rewrite (pr_iter _ _ PB) in Hy.
      apply preorder_subt in Hx as (s & Hs & <-). apply preorder_subt in Hy as (s' & Hs' & <-). rewrite HA1, HB1 in Hh1 by done.
      destruct s as [i rs], s' as [j rs']. cbn [rhash] in Hh1. apply CF in Hh1 as (E & _). rewrite A2, B2. cbn [rid]. rewrite E.
      by apply hkind_eqb_eq.
    - (* twins *)
      assert (forall c c', sees hkind_eqb ta tb ra rb c c' -> exists p q u v, ((p, q), (u, v)) ∈ facing h h' /\
                unmarked u /\ unmarked v /\ rat ra p = Some c /\ rat rb q = Some c' /\
                tholds t u (rid c) /\ holds a v (rid c') /\ is_tree t c /\ is_tree a c') as HFF.
      { induction 1 as [|u u' c c' _ IH Ou Ou' Hc Hc' HK].
        - exists [], [], h, h'. split_and!; try done. apply facing_root.
        - destruct IH as (p & q & w & v & I1 & I2 & I3 & I6 & I7 & I8 & I9 & I10 & I11).
          apply elem_of_list_lookup_1 in Hc as (i & Hi). apply elem_of_list_lookup_1 in Hc' as (j & Hj).
          destruct (tholds_sub t w u i c I10 I8 Hi) as (x & Hx & Hxc).
          destruct (holds_sub a v u' j c' I11 I9 Hj) as (y & Hy & Hyc).
          destruct (KA _ _ Hxc) as (K3 & _). destruct (KB _ _ Hyc) as (K4 & _). rewrite K3, K4, <- same_label_kind in HK.
          exists (p ++ [i]), (q ++ [j]), x, y.
          split; [apply (facing_snoc h h' p q w v); try done; by apply unmarked_opaque|].
          split; [apply (unmarked_child w x I2); by eapply elem_of_list_lookup_2|].
          split; [apply (unmarked_child v y I3); by eapply elem_of_list_lookup_2|].
          split; [by rewrite (rat_snoc p ra u)|]. split; [by rewrite (rat_snoc q rb u')|]. split; [done|]. split; [done|].
          split; eapply is_tree_sub; [exact I10| |exact I11|]; by eapply elem_of_list_lookup_2. }
      intros c c' HFc Hs Hn. pose proof (sees_subt _ _ _ _ _ _ _ HFc) as [Sc Sc'].
      destruct (HFF c c' HFc) as (p & q & u & v & I1 & I2 & I3 & I6 & I7 & I8 & I9 & I10 & I11).
      assert (same_bare u v = true) as Hsb.
      { destruct Hs as [Hs|[Hs|Hs]].
        - by rewrite (HEQ u v c c') in Hs.
        - destruct (KA _ _ I8) as (_ & K1 & _). rewrite K1, unmarked_opaque in Hs; done.
        - destruct (KB _ _ I9) as (_ & K1 & _). rewrite K1, unmarked_opaque in Hs; done. }
      pose proof (node_at_rat t p ra c Hta I6) as Np. pose proof (node_at_rat a q rb c' Htb I7) as Nq.
      unfold no_twins_by in HTW. rewrite forallb_forall in HTW.
      specialize (HTW ((p, q), (u, v)) ltac:(by apply elem_of_list_In)). cbn beta iota in HTW.
      destruct (existsb _ _) eqn:Ex in HTW.
      { exfalso. apply Hn. apply existsb_exists in Ex as ([[p' q'] [u1 v1]] & Hin & Ex). apply andb_true_iff in Ex as [E1 E2].
        apply path_eqb_true in E1 as <-. apply path_eqb_true in E2 as <-.
        apply elem_of_list_In, HWL in Hin as (x & y & Hin). destruct (HW _ _ _ _ _ _ Hin) as (_ & _ & _ & _ & _ & _ & _ & M1 & M2 & _).
        rewrite Np in M1. rewrite Nq in M2. injection M1 as ->. injection M2 as ->. by eapply HWf. }
      clear Ex. rewrite Hsb in HTW. apply andb_true_iff in HTW as [T1 T2]. unfold kept_old, kept_new in T1, T2. split.
      + apply existsb_exists in T1 as ([[p' q'] [u1 v1]] & Hin & Ex). apply andb_true_iff in Ex as [E1 E2]. apply path_eqb_true in E1 as <-.
        apply elem_of_list_In, HWL in Hin as (x & y & Hin). destruct (HW _ _ _ _ _ _ Hin) as (_ & _ & _ & _ & _ & _ & _ & M1 & _).
        rewrite Np in M1. injection M1 as ->. exists y. split; [by eapply HWf|by eapply HFX].
      + apply existsb_exists in T2 as ([[p' q'] [u1 v1]] & Hin & Ex). apply andb_true_iff in Ex as [E1 E2]. apply path_eqb_true in E1 as <-.
        apply elem_of_list_In, HWL in Hin as (x & y & Hin). destruct (HW _ _ _ _ _ _ Hin) as (_ & _ & _ & _ & _ & _ & _ & _ & M2 & _).
        rewrite Nq in M2. injection M2 as ->. exists x. split; [by eapply HWf|by eapply HFX].
    - done.
    - (* only the root has its kind *)
      intros y Hy Hny Hk. rewrite (pr_iter _ _ PB), preorder_eq in Hy. apply elem_of_cons in Hy as [->|Hy]; [done|]. exfalso.
      apply elem_flat_map in Hy as (s & Hs & Hy). apply elem_of_list_lookup_1 in Hs as (k & Hks).
      destruct (holds_sub a h' rb k s Htb Hh' Hks) as (c & Hc & Hhc). apply elem_of_list_lookup_2 in Hc. cbn [hchildren h' page] in Hc.
      destruct (nodes_hold_b a c s y) as (v & V1 & V2); try done; [eapply is_tree_sub; [exact Htb|by eapply elem_of_list_lookup_2]|].
      pose proof (hall_nodes _ c v (pd_plain _ _ _ _ PN c Hc) V1) as Hpl. apply hall_eq in Hpl as [(Hpl & _) _].
      destruct (KB _ _ V2) as (K1 & _). destruct (KA _ _ Hh) as (K2 & _). rewrite K1, K2 in Hk. apply hkind_eqb_eq in Hk. by apply Hpl.
    - (* similar attributes *)
      intros x y Hz. destruct (HWZ x y Hz) as (p & q & u & v & Hin).
      destruct (HW _ _ _ _ _ _ Hin) as (X1 & X2 & X3 & X4 & X5 & X6 & X7 & _ & _ & [Hs|Hs]); [left; by eapply HFX|]. right.
      destruct (KA _ _ X3) as (_ & _ & K2). destruct (KB _ _ X4) as (_ & _ & K4). rewrite K2, K4.
      unfold similar in Hs. apply andb_true_iff in Hs as [_ Hs]. apply hall_eq in X5 as [[N1 _] _]. apply hall_eq in X6 as [[N2 _] _].
      destruct u, v; try done. by apply alike_similar, alike_namesb_true.
    - (* half *)
      destruct (same_bare h h') eqn:Esb.
      { left. left. cbn beta. rewrite (HEQ h h' ra rb); [done|constructor|constructor|done|done]. }
      right. unfold half_same, pairs_by in HHALF. rewrite Esb in HHALF. cbn [List.filter fst snd] in HHALF. rewrite Esb in HHALF.
      apply Nat.leb_le in HHALF. split.
      { intros E. assert (us = []) as E'.
        { pose proof (is_tree_children _ _ Htb) as Hc. rewrite E, Hrb in Hc. pose proof (pd_holds _ _ _ _ PN) as HN.
          fold a in HN. rewrite Hc in HN. by inversion HN. }
        unfold h' in HHALF. rewrite E' in HHALF. cbn [page hchildren] in HHALF. rewrite pairs_in_nil in HHALF. cbn [List.filter length] in HHALF. unfold h, page in HHALF. cbn [hsize] in HHALF. lia. }
      right. exists (map fst (List.filter (fun w => same_bare (fst (snd (snd w))) (snd (snd (snd w)))) W)). split; [|split].
      { assert (forall f (l : list ((nat * nat) * pairing)), NoDup (map fst (map fst l)) -> NoDup (map fst (map fst (List.filter f l)))) as HND.
        { clear. intros f. induction l as [|w l IH]; intros ND; [done|]. cbn [map List.filter] in *. apply NoDup_cons in ND as [N1 N2].
          destruct (f w); [|by apply IH]. cbn [map]. apply NoDup_cons. split; [|by apply IH].
          intros Hin. apply N1. clear -Hin. revert Hin. rewrite !map_map. intros Hin. apply elem_of_list_In, in_map_iff in Hin as (z & Hz & Hin).
          apply filter_In in Hin as [Hin _]. apply elem_of_list_In, in_map_iff. by exists z. }
        apply HND. eapply grow_nodup_fst; [exact AL|apply PA]. }
      { intros x y Hin. apply elem_of_list_In, in_map_iff in Hin as ([[x' y'] [[p q] [u v]]] & E & Hin). injection E as -> ->.
        apply filter_In in Hin as [Hin Hk]. apply elem_of_list_In in Hin. cbn [fst snd] in Hk. split; [by eapply HWf|by eapply HFX]. }
      unfold ge_thr. cbn [thr_num thr_den fst snd]. apply Nat.leb_le.
      rewrite (size_tholds t h ra Hta Hh), (size_holds a h' rb Htb Hh').
      assert (length (List.filter (fun e : pairing => same_bare (fst (snd e)) (snd (snd e))) (map snd W)) =
              length (map fst (List.filter (fun w => same_bare (fst (snd (snd w))) (snd (snd (snd w)))) W))) as E.
      { clear. rewrite map_length. induction W as [|w W IH]; [done|]. cbn [map List.filter]. destruct (same_bare _ _); cbn [length]; by rewrite IH. }
      rewrite W1 in E. unfold pairs_by in E. rewrite Esb in E. cbn [List.filter fst snd] in E. rewrite Esb in E. lia.
    - lia.
    - (* what is new and what is gone do not resemble one another *)
      intros x y Hx _ Hxn Hy _ Hyn. left. rewrite (pr_iter _ _ PA) in Hx. rewrite (pr_iter _ _ PB) in Hy.
      destruct (CA x Hx) as [?|(u & U1 & U2)]; [done|]. destruct (CB y Hy) as [?|(v & V1 & V2)]; [done|].
      destruct (KA _ _ U2) as (-> & _). destruct (KB _ _ V2) as (-> & _).
      unfold apart in HAP. rewrite forallb_forall in HAP. specialize (HAP u ltac:(by apply elem_of_list_In)).
      rewrite forallb_forall in HAP. specialize (HAP v ltac:(by apply elem_of_list_In)). rewrite same_label_kind in HAP.
      apply negb_true_iff in HAP. apply Bool.not_true_iff_false in HAP. apply Bool.not_true_iff_false. intros E. apply HAP.
      apply hkind_eqb_eq in E. rewrite E. by apply hkind_eqb_eq.
    - assert (m = m') as ->.
      { assert (contains_a m' (rid ra) = true) as HCR.
        { pose proof (grow_root _ _ _ _ _ _ AL) as Hin. rewrite <- PM in Hin. apply (bij_fwd _ BM) in Hin. unfold contains_a. by rewrite Hin. }
        unfold html_matching, diff_config in EM. rewrite Em in EM. cbn [obind] in EM. rewrite (pr_root _ _ PA), HCR in EM.
        rewrite andb_false_r in EM. by injection EM. }
      exists ra, rb, W. by split.
  Qed.
End Lift.
