(** The library's own tree type: building, and comparing trees of equal content.
    Properties C58, C59. *)
From Verif Require Import Base Arena Matching Chawathe ArenaProofs ArenaOps TreeProofs MatchProofs AttrProofs DtreeProofs
  SelfProofs TotalProofs CinTree.

(** ** Building *)

Section Build.
  Context {H K P T : Type}.
  Notation ND := (node_data H K P T).
  Notation TR := (tree H K P T).

  (** A call [add_child(parent, data)]. *)
  Definition call_parent (c : nat * ND) : nat := fst c.
  Fixpoint build_from (t : TR) (calls : list (nat * ND)) : outcome TR :=
    match calls with
    | [] => Val t
    | (p, d) :: l => let! r := add_child t p d in build_from (fst r) l
    end.

  (** The ids given out to the children of [i], in the order of the calls. *)
  Fixpoint kids (from : nat) (calls : list (nat * ND)) (i : nat) : list nat :=
    match calls with
    | [] => []
    | (p, _) :: l => (if Nat.eqb p i then [S from] else []) ++ kids (S from) l i
    end.

  Lemma kids_app calls : forall from c i,
    kids from (calls ++ [c]) i = kids from calls i ++ (if Nat.eqb (fst c) i then [S (from + length calls)] else []).
  Proof.
    induction calls as [|[p d] l IH]; intros from [q e] i; cbn [kids app length fst].
    - rewrite app_nil_r. by replace (from + 0) with from by lia.
    - rewrite IH, app_assoc. cbn [fst]. by replace (S from + length l) with (from + S (length l)) by lia.
  Qed.

  Record built (t : TR) (d0 : ND) (calls : list (nat * ND)) : Prop := {
    bu_wf : wf (tr_arena t);
    bu_root : tr_root t = 0;
    bu_len : length (tr_arena t) = S (length calls);
    bu_data0 : data (tr_arena t) 0 = Some d0;
    bu_data : forall k p d, calls !! k = Some (p, d) ->
      data (tr_arena t) (S k) = Some d /\ parent (tr_arena t) (S k) = Some p;
    bu_parent0 : parent (tr_arena t) 0 = None;
    bu_children : forall i, children (tr_arena t) i = kids 0 calls i
  }.

  Lemma built_new d0 : built (tree_new d0) d0 [].
  Proof.
    assert (wf (@nil (anode ND))) as W0.
    { split; [by intros ? ?; cbn; rewrite elem_of_nil| |]; [intros; apply NoDup_nil_2|]. intros i. exists []. by constructor. }
    destruct (new_node_full [] d0 W0) as (W & _). cbn in W.
    split; cbn; try done. intros [|i]; done.
  Qed.

  Lemma built_add t d0 calls p d : built t d0 calls -> p <= length calls ->
    exists t', add_child t p d = Val (t', S (length calls)) /\ built t' d0 (calls ++ [(p, d)]).
  Proof.
    intros [W Er El E0 Ed Ep Ec] Hp. destruct t as [a r]. cbn [tr_arena tr_root] in *. subst r.
    destruct (new_node_full a d W) as (W1 & L1 & P1 & C1 & D1 & Ch & Pa & Da). unfold add_child. cbn [tr_arena tr_root].
    change (new_node a d) with (fst (new_node a d), length a). revert W1 L1 P1 C1 D1 Ch Pa Da.
    generalize (fst (new_node a d)). intros a1 W1 L1 P1 C1 D1 Ch Pa Da.
    destruct (append_full a1 p (length a) W1) as (a' & E & LK); [lia|lia|done| |].
    { intros (l & Hc & Hin). destruct Hin as [?|Hin]; [lia|].
      revert p Hp Hc. induction l as [|q l IH]; intros p Hp Hc; [by apply elem_of_nil in Hin|].
      inversion Hc as [|? ? ? Hq Hc']; subst. rewrite Pa in Hq.
      pose proof (wf_parent_lt a q p W Hq) as Hlt.
      apply elem_of_cons in Hin as [<-|Hin]; [lia|]. apply (IH Hin q); [lia|done]. }
    rewrite E. cbn. exists (mkTree a' 0). split; [by rewrite El|]. destruct LK as [LW LL LD LC LP].
    split; cbn [tr_arena tr_root]; try done.
    - rewrite LL, L1, El, app_length. cbn. lia.
    - rewrite LD, Da by lia. done.
    - intros k q e Hk. apply lookup_app_Some in Hk as [Hk|[Hge Hk]].
      + apply lookup_lt_Some in Hk as Hlt. destruct (Ed k q e Hk) as [H1 H2].
        rewrite LD, LP, Da, Pa by lia. destruct (Nat.eqb_spec (S k) (length a)); [lia|]. done.
      + assert (k = length calls) as ->.
        { destruct (k - length calls) eqn:Ek; [lia|]. by destruct n. }
        rewrite Nat.sub_diag in Hk. injection Hk as <- <-. rewrite LD, LP.
        replace (S (length calls)) with (length a) by lia. by rewrite Nat.eqb_refl.
    - rewrite LP, Pa. destruct (Nat.eqb_spec 0 (length a)); [lia|]. done.
    - intros i. rewrite LC, kids_app, !Ch, !Ec. cbn [fst].
      rewrite (Nat.eqb_sym p i). destruct (Nat.eqb_spec i p) as [->|]; [|by rewrite app_nil_r].
      by rewrite El.
  Qed.

  Lemma build_from_spec calls : forall t d0 done, built t d0 done ->
    (forall k p d, calls !! k = Some (p, d) -> p <= length done + k) ->
    exists t', build_from t calls = Val t' /\ built t' d0 (done ++ calls).
  Proof.
    induction calls as [|[p d] l IH]; intros t d0 dn B Hv; cbn [build_from].
    { exists t. by rewrite app_nil_r. }
    destruct (built_add t d0 dn p d B) as (t1 & E1 & B1). { specialize (Hv 0 p d eq_refl). lia. }
    rewrite E1. cbn [obind fst]. destruct (IH t1 d0 (dn ++ [(p, d)]) B1) as (t' & E' & B').
    { intros k q e Hk. rewrite app_length. cbn. specialize (Hv (S k) q e Hk). lia. }
    exists t'. split; [done|]. by rewrite <- app_assoc in B'.
  Qed.

  (** Every node is below the root. *)
  Lemma built_reach t d0 calls r : built t d0 calls ->
    (forall k p d, calls !! k = Some (p, d) -> p <= k) ->
    is_tree (tr_arena t) r -> rid r = 0 -> forall i, i ∈ preorder r <-> i <= length calls.
  Proof.
    intros B Hv Hr E0 i. split.
    - intros Hi. pose proof (preorder_lt _ r i (bu_wf _ _ _ B) Hr) as HL. rewrite (bu_len _ _ _ B), E0 in HL.
      specialize (HL ltac:(lia) Hi). lia.
    - induction i as [i IH] using lt_wf_ind. intros Hi. destruct i as [|k]; [rewrite <- E0; apply preorder_rid|].
      destruct (lookup_lt_is_Some_2 calls k ltac:(lia)) as [[p d] Hk].
      destruct (bu_data _ _ _ B k p d Hk) as [_ Hp]. specialize (Hv k p d Hk).
      assert (p ∈ preorder r) as Hin by (apply IH; lia).
      apply preorder_subt in Hin as (s & Hs & <-). apply (wf_pc _ (bu_wf _ _ _ B)) in Hp.
      rewrite (is_tree_children _ s) in Hp by by eapply is_tree_subt.
      apply elem_of_list_fmap in Hp as (c & -> & Hc).
      eapply preorder_subt_incl; [eapply subt_trans; [by apply subt_child|exact Hs]|]. apply preorder_rid.
  Qed.

  (** What the algorithms see. *)
  Lemma tree_dtree_spec (t : TR) r : wf (tr_arena t) -> tr_root t < length (tr_arena t) ->
    is_tree (tr_arena t) r -> rid r = tr_root t ->
    exists u, tree_dtree t = Val u /\ presents u r /\ (forall i, t_opaque u i = false) /\
      t_parent u = parent (tr_arena t) /\
      (forall i d, data (tr_arena t) i = Some d ->
         t_hash u i = nd_hash d /\ t_kind u i = nd_kind d /\ t_props u i = nd_props d /\ t_text u i = nd_text d).
  Proof.
    intros W Hl Ht Er. destruct t as [a rt]. cbn [tr_arena tr_root] in *. subst rt. unfold tree_dtree, tree_get.
    cbn [tr_arena tr_root]. destruct (data a (rid r)) as [d0|] eqn:Ed.
    2:{ unfold data in Ed. destruct (a !! rid r) eqn:Ea; [done|]. apply lookup_ge_None in Ea. lia. }
    cbn [obind]. rewrite descendants_spec by done. rewrite post_order_spec by done. cbn [ofuel obind].
    eexists. split; [reflexivity|]. split; [|split; [done|split; [done|]]].
    2:{ intros i d Hi. cbn. by rewrite Hi. }
    split; simpl.
    - done.
    - by eapply is_tree_nodup.
    - done.
    - done.
    - intros s Hs. by apply is_tree_children, (is_tree_subt a s r).
    - intros s Hs. by rewrite descendants_spec by (try done; by eapply is_tree_subt).
    - intros s Hs. by rewrite height_spec by (try done; by eapply is_tree_subt).
    - intros s k c Hs Hk.
      assert (children a (rid s) !! k = Some (rid c)) as Hc.
      { rewrite is_tree_children by (by eapply is_tree_subt).
        by rewrite list_lookup_fmap, Hk. }
      split; [|by eapply position_spec].
      apply (wf_pc a W). by eapply elem_of_list_lookup_2.
    - intros p Hp. by eapply chain_parent_notin.
  Qed.
End Build.

(** ** Trees of equal content, any configuration *)

Lemma find_unique {A} (f : A -> bool) l b : b ∈ l -> f b = true -> (forall x, x ∈ l -> f x = true -> x = b) ->
  find f l = Some b.
Proof.
  induction l as [|y l IH]; intros Hb Hf Hu; [by apply elem_of_nil in Hb|]. cbn [find].
  destruct (f y) eqn:Ey; [f_equal; by apply Hu; [left|]|].
  apply IH; [|done|intros x Hx; apply Hu; by right].
  apply elem_of_cons in Hb as [->|]; [congruence|done].
Qed.

Lemma madds_get_b l x : forall m, x ∉ map fst l -> get_b (madds m l) x = get_b m x.
Proof.
  induction l as [|[a b] l IH]; intros m Hn; [done|]. cbn. unfold madds in IH. rewrite IH.
  - rewrite get_b_add. destruct (Nat.eqb_spec a x) as [->|]; [|done]. destruct Hn. cbn. left.
  - intros Hi. apply Hn. cbn. by right.
Qed.

Section Alike.
  Context {H K P T : Type}.
  Variable heqb : H -> H -> bool.
  Variable keqb : K -> K -> bool.
  Variable sim : P -> P -> ratio.
  Variable cfg : config.
  Variables ta tb : dtree H K P T.
  Variables ra rb : rose.
  Hypothesis PA : presents ta ra.
  Hypothesis PB : presents tb rb.
  Hypothesis NOA : forall x, t_opaque ta x = false.
  Hypothesis NOB : forall x, t_opaque tb x = false.
  Hypothesis RPA : t_parent ta (rid ra) = None.
  Hypothesis RPB : t_parent tb (rid rb) = None.
  Variable R : nat -> nat -> Prop.
  Hypothesis RH : forall x y, R x y -> heqb (t_hash ta x) (t_hash tb y) = true /\ heqb (t_hash tb y) (t_hash ta x) = true.
  Hypothesis RK : forall x y, R x y -> keqb (t_kind ta x) (t_kind tb y) = true /\ keqb (t_kind tb y) (t_kind ta x) = true.
  Hypothesis RS : forall x y, R x y -> ge_thr cfg (sim (t_props ta x) (t_props tb y)) = true.
  Hypothesis AL : alike R ra rb.
  Notation nostop := (fun _ : nat => false).
  Notation p1 := (pass1_step keqb sim cfg ta tb []).

  Lemma opaque_none_a : opaque_descendants ta = [].
  Proof. apply flat_map_nil. intros x _. by rewrite NOA. Qed.
  Lemma opaque_none_b : opaque_descendants tb = [].
  Proof. apply flat_map_nil. intros x _. by rewrite NOB. Qed.

  Lemma zips_fst r : forall r', alike R r r' -> map fst (zips nostop r r') = preorder r.
  Proof.
    induction r as [i rs IH] using rose_ind'. intros r' HA. inversion HA as [i' j rs0 rs' HR HF]; subst.
    rewrite zips_eq, preorder_eq. cbn [map fst rid rsub]. f_equal. clear HA.
    induction HF as [|c c' rs rs' HAc HF IHF]; [done|]. cbn [zipl flat_map]. rewrite map_app. f_equal.
    - apply IH; [left|done].
    - apply IHF. intros t Ht. apply IH. by right.
  Qed.
  Lemma zips_snd r : forall r', alike R r r' -> map snd (zips nostop r r') = preorder r'.
  Proof.
    induction r as [i rs IH] using rose_ind'. intros r' HA. inversion HA as [i' j rs0 rs' HR HF]; subst.
    rewrite zips_eq, preorder_eq. cbn [map snd rid rsub]. f_equal. clear HA.
    induction HF as [|c c' rs rs' HAc HF IHF]; [done|]. cbn [zipl flat_map]. rewrite map_app. f_equal.
    - apply IH; [left|done].
    - apply IHF. intros t Ht. apply IH. by right.
  Qed.

  (** A node whose parent is matched with the parent of its counterpart finds it by
      position. *)
  Lemma pass1_positional idx m u u' k s s' : subt u ra -> subt u' rb ->
    rsub u !! k = Some s -> rsub u' !! k = Some s' -> R (rid s) (rid s') -> get_b m (rid u) = Some (rid u') ->
    contains_a m (rid s) = false -> contains_b m (rid s') = false ->
    p1 idx m (rid s) = m_add m (rid s) (rid s').
  Proof.
    intros Su Su' Hs Hs' HR Hm Ca Cb. unfold pass1_step. rewrite Ca. cbn [orb mem existsb].
    destruct (pr_parent _ _ PA u k s Su Hs) as [Ep Eq]. destruct (pr_parent _ _ PB u' k s' Su' Hs') as [Ep' Eq'].
    unfold matched_parent_b. rewrite Ep, Hm.
    assert (pos_candidate keqb sim cfg ta tb m (rid s) (rid u') = Some (rid s')) as ->; [|done].
    unfold pos_candidate. apply find_unique.
    - apply elem_of_list_In, filter_In. split.
      + apply elem_of_list_In. rewrite (pr_children _ _ PB u' Su'). apply elem_of_list_fmap_1.
        by eapply elem_of_list_lookup_2.
      + rewrite Cb. cbn [negb andb]. by apply RK.
    - rewrite Eq, Eq', Nat.eqb_refl. cbn [andb]. by apply RS.
    - intros x Hx Hf. apply elem_of_list_In, filter_In in Hx as [Hx _]. apply elem_of_list_In in Hx.
      rewrite (pr_children _ _ PB u' Su') in Hx. apply elem_of_list_fmap in Hx as (c & -> & Hc).
      apply elem_of_list_lookup in Hc as [k' Hc]. destruct (pr_parent _ _ PB u' k' c Su' Hc) as [_ Eqc].
      apply andb_true_iff in Hf as [Hf _]. apply Nat.eqb_eq in Hf. rewrite Eqc, Eq in Hf. subst k'. congruence.
  Qed.

  Lemma pass1_children idx u u' rs rs' : subt u ra -> subt u' rb ->
    (forall c, c ∈ rs -> forall c' m k, rsub u !! k = Some c -> rsub u' !! k = Some c' -> alike R c c' ->
       get_b m (rid u) = Some (rid u') ->
       (forall x, x ∈ preorder c -> contains_a m x = false) -> (forall y, y ∈ preorder c' -> contains_b m y = false) ->
       fold_left (p1 idx) (preorder c) m = madds m (zips nostop c c')) ->
    Forall2 (alike R) rs rs' -> forall before before', rsub u = before ++ rs -> rsub u' = before' ++ rs' ->
    length before = length before' -> forall m, get_b m (rid u) = Some (rid u') ->
    (forall x, x ∈ flat_map preorder rs -> contains_a m x = false) ->
    (forall y, y ∈ flat_map preorder rs' -> contains_b m y = false) ->
    fold_left (p1 idx) (flat_map preorder rs) m = madds m (zipl nostop rs rs').
  Proof.
    intros Su Su' IH HF. induction HF as [|c c' rs rs' HAc HF IHF]; intros bf bf' E E' Hl m Hm Ca Cb; [done|].
    pose proof (subt_nodup _ _ (pr_nodup _ _ PA) Su) as NA. pose proof (subt_nodup _ _ (pr_nodup _ _ PB) Su') as NB.
    rewrite preorder_eq, E, flat_map_app in NA. rewrite preorder_eq, E', flat_map_app in NB.
    apply NoDup_cons in NA as [Na NA]. apply NoDup_cons in NB as [Nb NB].
    apply NoDup_app in NA as (_ & _ & NA). apply NoDup_app in NB as (_ & _ & NB).
    cbn [flat_map] in NA, NB, Ca, Cb |- *.
    apply NoDup_app in NA as (NA1 & NA2 & NA3). apply NoDup_app in NB as (NB1 & NB2 & NB3).
    rewrite fold_left_app. rewrite (IH c ltac:(left) c' m (length bf)).
    - cbn [zipl]. rewrite madds_app. apply (IHF (fun x Hx => IH x (elem_of_list_further _ _ _ Hx)) (bf ++ [c]) (bf' ++ [c'])).
      + by rewrite <- app_assoc.
      + by rewrite <- app_assoc.
      + rewrite !app_length. cbn. lia.
      + rewrite madds_get_b; [done|]. rewrite zips_fst by done. intros Hi. apply Na. rewrite elem_of_app. right.
        cbn [flat_map]. rewrite elem_of_app. by left.
      + intros x Hx. apply Bool.not_true_iff_false. rewrite madds_contains_a, zips_fst by done. intros [Hc|Hc].
        * rewrite Ca in Hc; [done|]. apply elem_of_app. by right.
        * by apply (NA2 x).
      + intros x Hx. apply Bool.not_true_iff_false. rewrite madds_contains_b, zips_snd by done. intros [Hc|Hc].
        * rewrite Cb in Hc; [done|]. apply elem_of_app. by right.
        * by apply (NB2 x).
    - rewrite E, lookup_app_r by lia. by rewrite Nat.sub_diag.
    - rewrite E', Hl, lookup_app_r by lia. by rewrite Nat.sub_diag.
    - done.
    - done.
    - intros x Hx. apply Ca. apply elem_of_app. by left.
    - intros x Hx. apply Cb. apply elem_of_app. by left.
  Qed.

  Lemma pass1_below idx r : forall r' m u u' k, subt u ra -> subt u' rb ->
    rsub u !! k = Some r -> rsub u' !! k = Some r' -> alike R r r' -> get_b m (rid u) = Some (rid u') ->
    (forall x, x ∈ preorder r -> contains_a m x = false) -> (forall y, y ∈ preorder r' -> contains_b m y = false) ->
    fold_left (p1 idx) (preorder r) m = madds m (zips nostop r r').
  Proof.
    induction r as [i rs IH] using rose_ind'. intros r' m u u' k Su Su' Hk Hk' HA Hm Ca Cb.
    inversion HA as [i' j rs0 rs' HR HF]; subst.
    assert (subt (Rose i rs) ra) as Sr by (eapply subt_trans; [apply subt_child; by eapply elem_of_list_lookup_2|done]).
    assert (subt (Rose j rs') rb) as Sr' by (eapply subt_trans; [apply subt_child; by eapply elem_of_list_lookup_2|done]).
    pose proof (subt_nodup _ _ (pr_nodup _ _ PA) Sr) as NA. pose proof (subt_nodup _ _ (pr_nodup _ _ PB) Sr') as NB.
    rewrite preorder_eq in NA, NB. cbn [rid rsub] in NA, NB. apply NoDup_cons in NA as [Na _]. apply NoDup_cons in NB as [Nb _].
    rewrite zips_eq, preorder_eq. cbn [fold_left rid rsub].
    pose proof (pass1_positional idx m u u' k (Rose i rs) (Rose j rs') Su Su' Hk Hk' HR Hm
      (Ca i (preorder_rid (Rose i rs))) (Cb j (preorder_rid (Rose j rs')))) as E1. cbn [rid] in E1. rewrite E1.
    change (madds m ((i, j) :: zipl nostop rs rs')) with (madds (m_add m i j) (zipl nostop rs rs')).
    eapply (pass1_children idx (Rose i rs) (Rose j rs') rs rs' Sr Sr' _ HF [] []); try done.
    - cbn [rid]. by rewrite get_b_add, Nat.eqb_refl.
    - intros x Hx. apply contains_a_false. rewrite get_b_add. destruct (Nat.eqb_spec i x) as [->|_]; [done|].
      apply contains_a_false, Ca. rewrite preorder_eq. by right.
    - intros x Hx. apply contains_b_false. rewrite get_a_add. destruct (Nat.eqb_spec j x) as [->|_]; [done|].
      apply contains_b_false, Cb. rewrite preorder_eq. by right.
    Unshelve.
    intros c Hc c' m' k' H1 H2 H3 H4 H5 H6. eapply (IH c Hc c' m' (Rose i rs) (Rose j rs') k'); done.
  Qed.

  Definition equal_matching : matching := madds m_empty (zips nostop ra rb).

  Lemma equal_all_a x : x ∈ t_iter ta -> contains_a equal_matching x = true.
  Proof. intros Hx. apply madds_contains_a. right. rewrite zips_fst by done. by rewrite <- (pr_iter _ _ PA). Qed.
  Lemma equal_all_b y : y ∈ t_iter tb -> contains_b equal_matching y = true.
  Proof. intros Hx. apply madds_contains_b. right. rewrite zips_snd by done. by rewrite <- (pr_iter _ _ PB). Qed.

  Lemma dice_common_empty a b : dice_common ta tb m_empty a b = 0.
  Proof. unfold dice_common. by induction (t_desc ta a). Qed.

  (** The root, nothing being matched, if it has children. *)
  Lemma pass1_root : rsub ra <> [] -> p1 (b_index tb m_empty []) m_empty (rid ra) = m_add m_empty (rid ra) (rid rb).
  Proof.
    intros Hne. inversion AL as [i j rs rs' HR HF]; subst. cbn [rid rsub] in *.
    unfold pass1_step. cbn [contains_a get_b vget m_ab m_empty lookup list_lookup orb mem existsb].
    change (contains_a m_empty i) with false. cbn [orb]. unfold matched_parent_b. rewrite RPA.
    assert (b_index tb m_empty [] = preorder (Rose j rs')) as ->.
    { unfold b_index. rewrite (pr_iter _ _ PB). generalize (preorder (Rose j rs')). intros l.
      induction l as [|y l IH]; [done|]. cbn [List.filter]. cbn. f_equal. exact IH. }
    assert (exists l, by_kind keqb tb (preorder (Rose j rs')) (t_kind ta i) = j :: l) as (l & El).
    { unfold by_kind. rewrite preorder_eq. cbn [List.filter rid rsub]. rewrite (proj2 (RK _ _ HR)). by eexists. }
    assert (t_children tb j <> []) as Hcb.
    { pose proof (pr_children _ _ PB _ (subt_refl _)) as E. cbn [rid rsub] in E. rewrite E. by inversion HF; subst. }
    assert (Nat.eqb (length (t_children tb j)) 0 = false) as Hc0 by (by destruct (t_children tb j)).
    assert (forall b, exists n, 0 < n /\ dice ta tb m_empty i b = (0, n)) as Hd.
    { intros b. unfold dice. pose proof (pr_desc _ _ PA _ (subt_refl _)) as E. cbn [rid] in E. rewrite dice_common_empty, E.
      rewrite preorder_eq. cbn [rid rsub length]. eexists. split; [|reflexivity]. lia. }
    destruct (thr_num cfg) as [|th] eqn:Eth.
    - assert (dice_best keqb sim cfg ta tb m_empty (preorder (Rose j rs')) i =
        Some (j, dice ta tb m_empty i j)) as ->; [|done].
      unfold dice_best. rewrite El. cbn [fold_left].
      assert (dice_step sim cfg ta tb m_empty i None j = Some (j, dice ta tb m_empty i j)) as ->.
      { unfold dice_step. change (contains_b m_empty j) with false. rewrite Hc0. unfold ancestry_compatible.
        rewrite RPA, RPB. cbn [andb negb]. rewrite (RS _ _ HR). cbn [negb]. unfold ge_thr. rewrite Eth. done. }
      clear El. induction l as [|b l IH]; [done|]. cbn [fold_left].
      assert (dice_step sim cfg ta tb m_empty i (Some (j, dice ta tb m_empty i j)) b = Some (j, dice ta tb m_empty i j)) as ->; [|done].
      unfold dice_step. destruct (Hd b) as (n & _ & ->). destruct (Hd j) as (n' & _ & ->). unfold ratio_gt. cbn [fst snd].
      rewrite !Nat.mul_0_l. cbn. rewrite andb_false_r. by repeat case_match.
    - assert (dice_best keqb sim cfg ta tb m_empty (preorder (Rose j rs')) i = None) as ->.
      { unfold dice_best. generalize (by_kind keqb tb (preorder (Rose j rs')) (t_kind ta i)). intros l'.
        induction l' as [|b l' IH]; [done|]. cbn [fold_left].
        assert (dice_step sim cfg ta tb m_empty i None b = None) as ->; [|done].
        unfold dice_step. destruct (Hd b) as (n & Hn & ->). unfold ge_thr at 2. cbn [fst snd]. rewrite Eth.
        destruct (Nat.leb_spec (S th * n) (0 * thr_den cfg)); [nia|]. cbn [andb]. by repeat case_match. }
      unfold root_candidate. rewrite El. cbn [find]. change (contains_b m_empty j) with false.
      rewrite RPB, (RS _ _ HR). cbn [negb andb]. destruct (t_children tb j); [done|]. done.
  Qed.

  Lemma compute_equal : compute_matching heqb keqb sim cfg ta tb = Val equal_matching.
  Proof.
    destruct (decide (rheight ra < min_height cfg)) as [Hh|Hh].
    - unfold compute_matching, top_down. rewrite (pr_root _ _ PA), (pr_root _ _ PB).
      assert (exists f, td_fuel ta tb = S f) as [f ->].
      { unfold td_fuel. destruct (length (t_iter ta)); cbn; eauto. }
      cbn [td_loop]. change (contains_a m_empty (rid ra)) with false. change (contains_b m_empty (rid rb)) with false.
      cbn [orb]. rewrite (pr_height _ _ PA ra (subt_refl _)).
      destruct (Nat.ltb_spec (rheight ra) (min_height cfg)); [|lia].
      assert (td_loop heqb keqb cfg ta tb f (S (length (t_iter ta))) [] m_empty = Some m_empty) as -> by (by destruct f).
      f_equal. unfold bottom_up. rewrite opaque_none_a, opaque_none_b.
      destruct (rsub ra) as [|c cs] eqn:Es.
      + unfold equal_matching. inversion AL as [i j rs rs' HR HF]. subst ra rb. cbn [rsub] in Es. subst rs. inversion HF; subst rs'.
        rewrite (pr_iter _ _ PA). cbn [preorder flat_map fold_left].
        assert (p1 (b_index tb m_empty []) m_empty i = m_empty) as ->.
        { unfold pass1_step. change (contains_a m_empty i) with false. cbn [orb mem existsb].
          unfold matched_parent_b. cbn [rid] in RPA. rewrite RPA.
          unfold dice_best, root_candidate, by_kind, b_index. rewrite (pr_iter _ _ PB). cbn [preorder flat_map List.filter].
          change (contains_b m_empty j) with false. cbn [negb andb mem existsb List.filter].
          rewrite (proj2 (RK _ _ HR)). cbn [fold_left find].
          pose proof (pr_children _ _ PB _ (subt_refl _)) as E. cbn [rid rsub map] in E.
          unfold dice_step. rewrite E. change (contains_b m_empty j) with false. done. }
        unfold pass2_step. change (contains_a m_empty i) with false. cbn [orb mem existsb].
        pose proof (pr_children _ _ PA _ (subt_refl _)) as EA. cbn [rid rsub map] in EA. rewrite EA. cbn [length Nat.eqb negb].
        unfold matched_parent_b. cbn [rid] in RPA, RPB. rewrite RPA.
        unfold by_kind, b_index. rewrite (pr_iter _ _ PB). cbn [preorder flat_map List.filter].
        change (contains_b m_empty j) with false. cbn [negb andb mem existsb List.filter].
        rewrite (proj2 (RK _ _ HR)). cbn [leaf_global]. change (contains_b m_empty j) with false.
        pose proof (pr_children _ _ PB _ (subt_refl _)) as EB. cbn [rid rsub map] in EB. rewrite EB. cbn [length Nat.eqb negb].
        unfold ancestry_compatible. rewrite RPA, RPB. cbn [andb negb]. rewrite (proj2 (RH _ _ HR)).
        by rewrite zips_eq.
      + assert (fold_left (p1 (b_index tb m_empty [])) (t_iter ta) m_empty = equal_matching) as ->.
        { rewrite (pr_iter _ _ PA). rewrite preorder_eq. cbn [fold_left]. rewrite pass1_root by (by rewrite Es).
          unfold equal_matching. pose proof (pr_nodup _ _ PA) as NA. pose proof (pr_nodup _ _ PB) as NB.
          pose proof (pass1_children (b_index tb m_empty []) ra rb) as PC.
          pose proof (pass1_below (b_index tb m_empty [])) as PBL.
          inversion AL as [i j rs rs' HR HF]. subst ra rb. cbn [rid rsub] in *. rewrite zips_eq.
          change (madds m_empty ((i, j) :: zipl nostop rs rs')) with (madds (m_add m_empty i j) (zipl nostop rs rs')).
          rewrite preorder_eq in NA, NB. cbn [rid rsub] in NA, NB. apply NoDup_cons in NA as [Na _]. apply NoDup_cons in NB as [Nb _].
          eapply (PC rs rs' (subt_refl _) (subt_refl _) _ HF [] []); try done.
          - by rewrite get_b_add, Nat.eqb_refl.
          - intros x Hx. apply contains_a_false. rewrite get_b_add. destruct (Nat.eqb_spec i x) as [->|_]; [done|]. done.
          - intros x Hx. apply contains_b_false. rewrite get_a_add. destruct (Nat.eqb_spec j x) as [->|_]; [done|]. done.
          Unshelve.
          intros c0 Hc c' m' k' H1 H2 H3 H4 H5 H6.
          eapply (PBL c0 c' m' (Rose i rs) (Rose j rs') k'); try done; constructor. }
        apply fold_left_id. intros x Hx. unfold pass2_step. by rewrite (equal_all_a x Hx).
    - assert (forall x y, R x y -> x ∉ opaque_descendants ta -> t_opaque ta x = t_opaque tb y) as RO
        by (intros; by rewrite NOA, NOB).
      assert (R (rid ra) (rid rb)) as HR0 by (by inversion AL).
      unfold compute_matching, top_down. rewrite (pr_root _ _ PA), (pr_root _ _ PB).
      assert (exists f, td_fuel ta tb = S f) as [f ->].
      { unfold td_fuel. destruct (length (t_iter ta)); cbn; eauto. }
      cbn [td_loop]. change (contains_a m_empty (rid ra)) with false. change (contains_b m_empty (rid rb)) with false.
      cbn [orb]. rewrite (pr_height _ _ PA ra (subt_refl _)).
      destruct (Nat.ltb_spec (rheight ra) (min_height cfg)); [lia|].
      rewrite (proj1 (RH _ _ HR0)), (proj1 (RK _ _ HR0)). cbn [andb].
      rewrite (match_alike ta tb ra rb PA PB R RO ra rb); try done; try constructor.
      2:{ rewrite opaque_none_a. apply not_elem_of_nil. }
      2:{ rewrite (pr_iter _ _ PA). pose proof (rheight_lt_size ra). lia. }
      assert (madds m_empty (zips (t_opaque ta) ra rb) = equal_matching) as ->.
      { unfold equal_matching. f_equal. clear -NOA. revert rb. induction ra as [i rs IH] using rose_ind'. intros [j rs'].
        rewrite !zips_eq, NOA. f_equal. revert rs'. induction rs as [|c rs IHr]; intros [|c' rs']; try done. cbn [zipl].
        rewrite (IH c ltac:(left)). f_equal. apply IHr. intros t Ht. apply IH. by right. }
      assert (td_loop heqb keqb cfg ta tb f (S (length (t_iter ta))) [] equal_matching = Some equal_matching) as -> by (by destruct f).
      f_equal. unfold bottom_up.
      rewrite (fold_left_id (pass1_step keqb sim cfg ta tb _ _)).
      + apply fold_left_id. intros x Hx. unfold pass2_step. by rewrite (equal_all_a x Hx).
      + intros x Hx. unfold pass1_step. by rewrite (equal_all_a x Hx).
  Qed.

  (** ** The script *)
  Context {C : Type}.
  Variable teqb : T -> T -> bool.
  Variable p_empty : P -> bool.
  Variable p_diff : P -> P -> C.
  Variable c_any : C -> bool.
  Variable c_len : C -> nat.
  Variable p_len : P -> nat.
  Hypothesis RT : forall x y, R x y -> otext_eqb teqb (t_text ta x) (t_text tb y) = true.
  Hypothesis RD : forall x y, R x y -> c_any (p_diff (t_props ta x) (t_props tb y)) = false /\
    p_len (t_props ta x) <= c_len (p_diff (t_props ta x) (t_props tb y)).

  Lemma equal_script : generate_edit_script teqb p_empty p_diff c_any c_len p_len ta tb equal_matching = [].
  Proof.
    assert (bijection equal_matching) as BJ by (eapply compute_matching_bijection, compute_equal).
    unfold generate_edit_script, edit_script_with. rewrite opaque_none_a, opaque_none_b.
    assert (m_pairs equal_matching = zips nostop ra rb) as EP.
    { unfold equal_matching. by rewrite madds_pairs. }
    rewrite (flat_map_nil (phase1 teqb p_empty p_diff c_any c_len p_len ta tb [] [])).
    2:{ intros [x y] Hin. rewrite EP in Hin. destruct (zips_subt _ R ra rb x y AL Hin) as (s & s' & _ & _ & HAs & -> & -> & _).
        assert (R (rid s) (rid s')) as HR by (by inversion HAs).
        unfold phase1. cbn [mem existsb orb]. rewrite (RT _ _ HR). cbn [app].
        destruct (RD _ _ HR) as [-> Hl]. cbn [orb].
        destruct (Nat.ltb_spec (c_len (p_diff (t_props ta (rid s)) (t_props tb (rid s')))) (p_len (t_props ta (rid s)))); [lia|].
        by destruct (_ && _). }
    rewrite (flat_map_nil (phase2 tb equal_matching [])).
    2:{ intros y Hy. unfold phase2. by rewrite (equal_all_b y Hy). }
    rewrite (flat_map_nil (phase4 ta tb equal_matching [] [])).
    2:{ intros [x y] Hin. pose proof Hin as Hin0. rewrite EP in Hin. unfold phase4. cbn [mem existsb orb].
        destruct (zips_subt _ R ra rb x y AL Hin) as (s & s' & Ss & Ss' & HAs & -> & -> & [[-> ->]|(u & u' & k & Su & Su' & Hk & Hk' & Hu & _)]).
        - by rewrite RPA.
        - destruct (pr_parent _ _ PA u k s Su Hk) as [-> ->]. destruct (pr_parent _ _ PB u' k s' Su' Hk') as [-> ->].
          assert (get_b equal_matching (rid u) = Some (rid u')) as ->.
          { apply (bij_fwd _ BJ). by rewrite EP. }
          by rewrite !Nat.eqb_refl. }
    rewrite (flat_map_nil (phase5 equal_matching [])); [done|].
    intros x Hx. unfold phase5. rewrite (equal_all_a x); [done|]. rewrite (pr_iter _ _ PA).
    rewrite (pr_post _ _ PA) in Hx. by apply postorder_elem.
  Qed.
End Alike.
