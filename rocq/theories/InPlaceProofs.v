(** Edits in place: the diff of two trees of one shape (C63). *)
From stdpp Require Import list_numbers.
From Verif Require Import Base Arena Matching Chawathe Dom HtmlDiff
  AttrProofs MatchProofs ArenaProofs ArenaOps TreeProofs DtreeProofs DomTree BuildProofs HashProofs AssembleProofs
  ApplyProofs ShadowProofs SimProofs RoundProofs Instances DiffTotal TotalProofs SelfProofs RestyleProofs OpaqueProofs
  InPlaceSpec InPlaceMatch.

(** ** Hashes of trees *)

Section TreeHash.
  Context {H : Type}.
  Variables (heqb : H -> H -> bool) (hcomb : hkind -> option string -> list H -> H).

  Fixpoint hhash (h : htree) : H :=
    match h with
    | HElem tag ns _ cs => hcomb (KElem tag ns) None (map hhash cs)
    | HText s => hcomb KText (Some s) []
    | HComment s => hcomb KComment (Some s) []
    end.

  Lemma hhash_eq h : hhash h = hcomb (td_kind (tdata_of_h h)) (td_text (tdata_of_h h)) (map hhash (hchildren h)).
  Proof. by destruct h. Qed.

  Lemma hhash_bare h : hhash (bare h) = hhash h.
  Proof.
    induction h as [s|s|tag ns l cs IH] using htree_ind'; [done|done|]. cbn [bare hhash]. f_equal.
    rewrite map_map. apply map_ext_in. intros c Hc. apply IH. by apply elem_of_list_In.
  Qed.

  Lemma hhash_faithful : collision_free heqb hcomb -> forall h h', heqb (hhash h) (hhash h') = true -> bare h = bare h'.
  Proof.
    intros CF h. induction h as [s|s|tag ns l cs IH] using htree_ind'; intros [tag' ns' l' cs'|s'|s']; cbn [hhash bare]; intros E;
      apply CF in E as (E1 & E2 & E3); try discriminate; try (injection E2 as ->; done).
    injection E1 as -> ->. f_equal. clear E2. revert cs' E3. induction cs as [|c cs IHc]; intros [|c' cs'] HF; cbn [map] in *;
      try by inversion HF.
    apply Forall2_cons in HF as [H1 H2]. f_equal; [apply IH; [left|done]|]. apply IHc; [|done]. intros u Hu. apply IH. by right.
  Qed.

  Lemma hhash_same h h' : collision_free heqb hcomb -> (forall x, heqb x x = true) ->
    heqb (hhash h) (hhash h') = same_bare h h'.
  Proof.
    intros CF HR. destruct (same_bare h h') eqn:E.
    - apply same_bare_eq in E. rewrite <- (hhash_bare h), E, hhash_bare. apply HR.
    - apply Bool.not_true_iff_false. intros Hh. apply hhash_faithful in Hh; [|done]. apply same_bare_eq in Hh. congruence.
  Qed.

  Lemma rhash_holds (a : arena dnode) h : forall r, is_tree a r -> holds a h (rid r) -> rhash hcomb tdata_of a r = hhash h.
  Proof.
    induction h as [s|s|tag ns l cs IH] using htree_ind'; intros [i rs] Ht Hh; rewrite hhash_eq; cbn [rhash];
      apply is_tree_eq in Ht as [Hc Hts]; cbn [rid] in *;
      destruct (tdata_of_holds _ _ _ Hh) as (d & Hd & Ed); pose proof (holds_children _ _ _ Hh) as HL;
      unfold dkind, dtext; rewrite Hd, Ed; f_equal; cbn [hchildren] in *; rewrite Hc in HL.
    1,2: destruct rs; [done|inversion HL].
    clear Hd Ed Hh Hc d. revert rs Hts HL. induction cs as [|c cs IHc]; intros [|r rs] Hts HL; cbn [map] in *; try by inversion HL.
    apply Forall2_cons in HL as [H1 H2]. f_equal.
    - apply IH; [left|apply Hts; left|done].
    - apply IHc; [|intros u Hu; apply Hts; by right|done]. intros u Hu. apply IH. by right.
  Qed.
  Lemma rhash_tholds (t : arena tdata) h : forall r, is_tree t r -> tholds t h (rid r) -> rhash hcomb (fun d => d) t r = hhash h.
  Proof.
    induction h as [s|s|tag ns l cs IH] using htree_ind'; intros [i rs] Ht Hh; rewrite hhash_eq; cbn [rhash];
      apply is_tree_eq in Ht as [Hc Hts]; cbn [rid] in *;
      apply tholds_eq in Hh as [Hd HL];
      unfold dkind, dtext; rewrite Hd; f_equal; cbn [hchildren] in *; rewrite Hc in HL.
    1,2: destruct rs; [done|inversion HL].
    clear Hd Hc. revert rs Hts HL. induction cs as [|c cs IHc]; intros [|r rs] Hts HL; cbn [map] in *; try by inversion HL.
    apply Forall2_cons in HL as [H1 H2]. f_equal.
    - apply IH; [left|apply Hts; left|done].
    - apply IHc; [|intros u Hu; apply Hts; by right|done]. intros u Hu. apply IH. by right.
  Qed.
End TreeHash.

(** ** Places *)

Lemma edited_opaque h h' : edited h h' -> hopaque h = hopaque h'.
Proof. destruct 1; cbn [hopaque]; congruence. Qed.
Lemma edited_kind h h' : edited h h' -> td_kind (tdata_of_h h) = td_kind (tdata_of_h h').
Proof. by destruct 1. Qed.
Lemma edited_children h h' : edited h h' -> hopaque h = false -> Forall2 edited (hchildren h) (hchildren h').
Proof. destruct 1; cbn [hopaque hchildren]; intros Ho; try constructor; [congruence|done]. Qed.
Lemma hopaque_props h : hopaque h = is_opaque_props (td_props (tdata_of_h h)).
Proof. by destruct h. Qed.

(** [p] is a place of [h] outside opaque content. *)
Fixpoint outside (h : htree) (p : path) : Prop :=
  match p with
  | [] => True
  | k :: p' => hopaque h = false /\ exists c, hchildren h !! k = Some c /\ outside c p'
  end.

Lemma outside_sym p : forall h h', edited h h' -> outside h' p -> outside h p.
Proof.
  induction p as [|k p IH]; intros h h' HE; cbn [outside]; [done|]. intros (Ho & c & Hc & Hp).
  pose proof (edited_opaque _ _ HE) as E. rewrite Ho in E. split; [done|].
  destruct (Forall2_lookup_r _ _ _ _ _ (edited_children _ _ HE E) Hc) as (c0 & Hc0 & Hcc).
  exists c0. split; [done|]. by eapply IH.
Qed.

Lemma outside_snoc p : forall h u k c, outside h p -> hat h p = Some u -> hopaque u = false -> hchildren u !! k = Some c ->
  outside h (p ++ [k]) /\ hat h (p ++ [k]) = Some c.
Proof.
  induction p as [|i p IH]; intros h u k c; cbn [outside hat app].
  - intros _ [= ->] Ho Hc. rewrite Hc. split; [|done]. split; [done|]. by exists c.
  - intros (Ho & d & Hd & Hp) Hu Hou Hc. rewrite Hd in *. destruct (IH d u k c Hp Hu Hou Hc) as [I1 I2]. split; [|done].
    split; [done|]. by exists d.
Qed.

Fixpoint rat (r : rose) (p : path) : option rose :=
  match p with
  | [] => Some r
  | k :: p' => match rsub r !! k with Some c => rat c p' | None => None end
  end.
Lemma rat_snoc p : forall r u k, rat r p = Some u -> rat r (p ++ [k]) = rsub u !! k.
Proof.
  induction p as [|i p IH]; intros r u k; cbn [rat app]; [intros [= ->]; by destruct (rsub u !! k)|].
  destruct (rsub r !! i); [apply IH|done].
Qed.

Lemma facing_in l cs tag ns l' cs' tag' ns' : forall i c j c' e,
  cs !! i = Some c -> cs' !! j = Some c' -> is_opaque_props l = false -> is_opaque_props l' = false ->
  same_label c c' = true -> e ∈ facing c c' ->
  ((i :: fst (fst e), j :: snd (fst e)), snd e) ∈ facing (HElem tag ns l cs) (HElem tag' ns' l' cs').
Proof.
  intros i c j c' e Hi Hj Ho Ho' HL He. cbn [facing]. right. rewrite Ho, Ho'. cbn [orb].
  change i with (0 + i). revert Hi. generalize 0 at 1 3. revert i. induction cs as [|d cs IH]; intros [|i] k Hi; try done.
  - cbn in Hi. injection Hi as ->. apply elem_of_app. left. apply elem_flat_map. exists (j, c'). cbn [fst snd]. split.
    + apply elem_of_list_lookup. exists j. rewrite lookup_zip_with, Hj, lookup_seq_lt by (by eapply lookup_lt_Some). done.
    + rewrite HL. rewrite Nat.add_0_r. apply elem_of_list_In, in_map_iff. exists e. split; [done|by apply elem_of_list_In].
  - apply elem_of_app. right. replace (k + S i) with (S k + i) by lia. by apply IH.
Qed.

Lemma facing_snoc h : forall h' p q u v i j c c', ((p, q), (u, v)) ∈ facing h h' ->
  hopaque u = false -> hopaque v = false -> hchildren u !! i = Some c -> hchildren v !! j = Some c' ->
  same_label c c' = true -> ((p ++ [i], q ++ [j]), (c, c')) ∈ facing h h'.
Proof.
  assert (forall h h' i j c c', hopaque h = false -> hopaque h' = false -> hchildren h !! i = Some c -> hchildren h' !! j = Some c' ->
            same_label c c' = true -> (([i], [j]), (c, c')) ∈ facing h h') as H0.
  { intros [tag ns l cs|s|s] [tag' ns' l' cs'|s'|s'] i j c c'; cbn [hopaque hchildren]; try done. intros Ho Ho' Hi Hj HL.
    apply (facing_in l cs tag ns l' cs' tag' ns' i c j c' (([], []), (c, c'))); try done. destruct c; left. }
  induction h as [s|s|tag ns l cs IH] using htree_ind'; intros h' p q u v i j c c' Hin.
  1,2: assert (p = [] /\ q = [] /\ h' = v) as (-> & -> & ->)
         by (cbn [facing] in Hin; apply elem_of_cons in Hin as [[= -> -> -> ->]|Hin]; [done|by apply elem_of_nil in Hin]);
       cbn [facing] in Hin; apply elem_of_cons in Hin as [[= ->]|Hin]; [|by apply elem_of_nil in Hin];
       intros; cbn [app]; by apply H0.
  cbn [facing] in Hin. apply elem_of_cons in Hin as [[= -> -> -> ->]|Hin]; [intros; cbn [app]; by apply H0|].
  destruct h' as [tag' ns' l' cs'|s'|s']; [|by apply elem_of_nil in Hin..].
  destruct (is_opaque_props l) eqn:Eo; [by apply elem_of_nil in Hin|].
  destruct (is_opaque_props l') eqn:Eo'; [by apply elem_of_nil in Hin|]. cbn [orb] in Hin.
  intros Hu Hv Hc Hc' HL.
  assert (exists i0 c0 j0 c0' e, cs !! i0 = Some c0 /\ cs' !! j0 = Some c0' /\ same_label c0 c0' = true /\ e ∈ facing c0 c0' /\
            ((p, q), (u, v)) = ((0 + i0 :: fst (fst e), j0 :: snd (fst e)), snd e)) as (i0 & c0 & j0 & c0' & e & I1 & I2 & I3 & I4 & I5).
  { revert Hin. generalize 0 at 2 3. clear. induction cs as [|d cs IH]; intros k Hin; [by apply elem_of_nil in Hin|].
    apply elem_of_app in Hin as [Hin|Hin].
    - apply elem_flat_map in Hin as ([j0 c0'] & Hz & Hin). cbn [fst snd] in *.
      destruct (same_label d c0') eqn:EL; [|by apply elem_of_nil in Hin].
      apply elem_of_list_In, in_map_iff in Hin as (e & E & He). apply elem_of_list_In in He.
      exists 0, d, j0, c0', e. split; [done|]. split.
      { apply elem_of_list_lookup in Hz as (n & Hn). apply lookup_zip_with_Some in Hn as (x & y & [= -> ->] & Hx & Hy).
        apply lookup_seq in Hx as [-> _]. done. }
      split; [done|]. split; [done|]. by rewrite Nat.add_0_r.
    - destruct (IH (S k) Hin) as (i0 & c0 & j0 & c0' & e & J1 & J2 & J3 & J4 & J5).
      exists (S i0), c0, j0, c0', e. split_and!; try done. rewrite J5. by rewrite <- plus_n_Sm. }
  cbn [Nat.add] in I5. destruct e as [[p' q'] [u' v']]. cbn [fst snd] in *. injection I5 as -> -> -> ->.
  assert (((p' ++ [i], q' ++ [j]), (c, c')) ∈ facing c0 c0') as Hin'.
  { apply (IH c0) with u' v'; try done. by eapply elem_of_list_lookup_2. }
  apply (facing_in l cs tag ns l' cs' tag' ns' i0 c0 j0 c0' _ I1 I2 Eo Eo' I3 Hin').
Qed.
Lemma facing_root h h' : (([], []), (h, h')) ∈ facing h h'.
Proof. destruct h; left. Qed.

Section Places.
  Variables (t : arena tdata) (a : arena dnode).
  Let stop := fun i => is_opaque_props (dprops (fun d => d) t i).

  Lemma stop_of h i : tholds t h i -> stop i = hopaque h.
  Proof. intros Hh. apply tholds_eq in Hh as [Hd _]. unfold stop, dprops. by rewrite Hd, hopaque_props. Qed.
  Lemma stop_of_b h j : holds a h j -> is_opaque_props (dprops tdata_of a j) = hopaque h.
  Proof. intros Hh. destruct (tdata_of_holds _ _ _ Hh) as (d & Hd & Ed). unfold dprops. by rewrite Hd, Ed, hopaque_props. Qed.

  Lemma tholds_at h r k c : is_tree t r -> tholds t h (rid r) -> hchildren h !! k = Some c ->
    exists s, rsub r !! k = Some s /\ tholds t c (rid s).
  Proof.
    intros Ht Hh Hc. apply tholds_eq in Hh as [_ HL]. rewrite (is_tree_children _ _ Ht) in HL.
    destruct (Forall2_lookup_l _ _ _ _ _ HL Hc) as (i & Hi & Hh). rewrite list_lookup_fmap in Hi.
    destruct (rsub r !! k) as [s|]; [|done]. injection Hi as <-. by exists s.
  Qed.
  Lemma holds_at h r k c : is_tree a r -> holds a h (rid r) -> hchildren h !! k = Some c ->
    exists s, rsub r !! k = Some s /\ holds a c (rid s).
  Proof.
    intros Ht Hh Hc. apply holds_children in Hh as HL. rewrite (is_tree_children _ _ Ht) in HL.
    destruct (Forall2_lookup_l _ _ _ _ _ HL Hc) as (i & Hi & Hh'). rewrite list_lookup_fmap in Hi.
    destruct (rsub r !! k) as [s|]; [|done]. injection Hi as <-. by exists s.
  Qed.
  Lemma tholds_sub h r k s : is_tree t r -> tholds t h (rid r) -> rsub r !! k = Some s ->
    exists c, hchildren h !! k = Some c /\ tholds t c (rid s).
  Proof.
    intros Ht Hh Hs. apply tholds_eq in Hh as [_ HL]. rewrite (is_tree_children _ _ Ht) in HL.
    assert (map rid (rsub r) !! k = Some (rid s)) as Hi by by rewrite list_lookup_fmap, Hs.
    destruct (Forall2_lookup_r _ _ _ _ _ HL Hi) as (c & Hc & Hh). by exists c.
  Qed.
  Lemma holds_sub h r k s : is_tree a r -> holds a h (rid r) -> rsub r !! k = Some s ->
    exists c, hchildren h !! k = Some c /\ holds a c (rid s).
  Proof.
    intros Ht Hh Hs. apply holds_children in Hh as HL. rewrite (is_tree_children _ _ Ht) in HL.
    assert (map rid (rsub r) !! k = Some (rid s)) as Hi by by rewrite list_lookup_fmap, Hs.
    destruct (Forall2_lookup_r _ _ _ _ _ HL Hi) as (c & Hc & Hh'). by exists c.
  Qed.

  Lemma outside_place p : forall h h' r r', edited h h' -> is_tree t r -> is_tree a r' -> tholds t h (rid r) -> holds a h' (rid r') ->
    outside h p -> exists u v c c', hat h p = Some u /\ hat h' p = Some v /\ rat r p = Some c /\ rat r' p = Some c' /\
      tholds t u (rid c) /\ holds a v (rid c') /\ edited u v /\ (rid c, rid c') ∈ zips stop r r'.
  Proof.
    induction p as [|k p IH]; intros h h' r r' HE Ht Ht' Hh Hh'; cbn [outside hat rat].
    - intros _. exists h, h', r, r'. destruct r as [i rs], r' as [j rs']. rewrite zips_eq. split_and!; try done. left.
    - intros (Ho & c & Hc & Hp). pose proof (edited_children _ _ HE Ho) as HF.
      destruct (Forall2_lookup_l _ _ _ _ _ HF Hc) as (c' & Hc' & HEc).
      destruct (tholds_at h r k c Ht Hh Hc) as (s & Hs & Hhs). destruct (holds_at h' r' k c' Ht' Hh' Hc') as (s' & Hs' & Hhs').
      rewrite Hc, Hc', Hs, Hs'.
      destruct (IH c c' s s' HEc) as (u & v & d & d' & I1 & I2 & I3 & I4 & I5 & I6 & I7 & I8); try done.
      { eapply is_tree_sub; [exact Ht|by eapply elem_of_list_lookup_2]. }
      { eapply is_tree_sub; [exact Ht'|by eapply elem_of_list_lookup_2]. }
      exists u, v, d, d'. split_and!; try done. pose proof (stop_of _ _ Hh) as Es.
      destruct r as [i rs], r' as [j rs']. cbn [rid rsub] in *. rewrite zips_eq. right. rewrite Es, Ho.
      eapply zipl_in; [exact Hs|exact Hs'|done].
  Qed.

  (** The pairs of nodes with their places. *)
  Definition spot_ok (sh : shadow) (w : (nat * nat) * (path * (htree * htree))) : Prop :=
    let '((x, y), (p, (u, v))) := w in
    tholds t u x /\ holds a v y /\ edited u v /\ spath sh x p.

  Lemma spots_exist (WT : wf t) sh (FS : fresh_shadow t sh) (R : nat -> nat -> Prop)
      (HRR : forall u v x y, tholds t u x -> holds a v y -> edited u v -> R x y) h :
    forall h' r r' p, edited h h' -> is_tree t r -> is_tree a r' ->
    tholds t h (rid r) -> holds a h' (rid r') -> spath sh (rid r) p -> rid r < length t ->
    (forall c, c ∈ rsub r -> 0 ∉ preorder c) ->
    exists W, map fst W = zips stop r r' /\ map snd W = spots p h h' /\ Forall (spot_ok sh) W /\ near stop R r r'.
  Proof.
    induction h as [s|s|tag ns l cs IH] using htree_ind'; intros h' r r' p HE Ht Ht' Hh Hh' Hp Hlt H0.
    1: exists [((rid r, rid r'), (p, (HText s, h')))]. 2: exists [((rid r, rid r'), (p, (HComment s, h')))].
    1,2: assert (rsub r = []) as Er by (pose proof Hh as HL; apply tholds_eq in HL as [_ HL]; rewrite (is_tree_children _ _ Ht) in HL;
        cbn [hchildren] in HL; destruct (rsub r); [done|inversion HL]);
      assert (rsub r' = []) as Er' by (pose proof (holds_children _ _ _ Hh') as HL; rewrite (is_tree_children _ _ Ht') in HL;
        inversion HE; subst; cbn [hchildren] in HL; destruct (rsub r'); [done|inversion HL]);
      destruct r as [i rs], r' as [j rs']; cbn [rid rsub] in *; subst rs rs';
      (split; [rewrite zips_eq; by destruct (stop i)|]);
      (split; [inversion HE; done|]); (split; [apply Forall_singleton; exact (conj Hh (conj Hh' (conj HE Hp)))|]);
      constructor; [by eapply HRR|by constructor].
    pose proof (HRR _ _ _ _ Hh Hh' HE) as HR0. pose proof (stop_of _ _ Hh) as Es. cbn [hopaque] in Es.
    assert (exists l' cs', h' = HElem tag ns l' cs') as (l' & cs' & ->) by (inversion HE; subst; eauto).
    rewrite spots_elem.
    destruct (is_opaque_props l) eqn:Eo.
    { exists [((rid r, rid r'), (p, (HElem tag ns l cs, HElem tag ns l' cs')))]. destruct r as [i rs], r' as [j rs']. cbn [rid] in *.
      rewrite zips_eq, Es. split; [done|]. split; [done|]. split; [apply Forall_singleton; exact (conj Hh (conj Hh' (conj HE Hp)))|]. constructor; [done|]. by rewrite Es. }
    pose proof (edited_children _ _ HE Eo) as HF. cbn [hchildren] in HF.
    assert (exists W, map fst W = zipl stop (rsub r) (rsub r') /\ map snd W = spots_in p 0 cs cs' /\ Forall (spot_ok sh) W /\
              Forall2 (near stop R) (rsub r) (rsub r')) as (W & W1 & W2 & W3 & W4).
    { assert (forall k c, rsub r !! k = Some c -> spath sh (rid c) (p ++ [0 + k]) /\ rid c < length t /\ is_tree t c /\
                (forall c', c' ∈ rsub c -> 0 ∉ preorder c')) as HS.
      { intros k c Hk. assert (c ∈ rsub r) as Hin by by eapply elem_of_list_lookup_2. split_and!.
        - apply (fresh_step t sh WT FS r); try done. intros E0. apply (H0 c Hin). rewrite <- E0. apply preorder_rid.
        - eapply (wf_child_lt _ _ _ WT). rewrite (is_tree_children _ _ Ht). apply elem_of_list_In, in_map. by apply elem_of_list_In.
        - by eapply is_tree_sub.
        - intros c' Hc'' Hx. apply (H0 c Hin). rewrite preorder_eq. right. apply elem_flat_map. by exists c'. }
      assert (forall c, c ∈ rsub r' -> is_tree a c) as HT' by (intros c Hc; by eapply is_tree_sub).
      apply tholds_eq in Hh as [_ HL]. apply holds_children in Hh' as HL'. cbn [hchildren] in HL, HL'.
      rewrite (is_tree_children _ _ Ht) in HL. rewrite (is_tree_children _ _ Ht') in HL'.
      revert HS HT' HL HL'. generalize (rsub r), (rsub r'). generalize 0 at 1 3. clear Ht Ht' Hh' Hp Hlt H0 HR0 Es HE r r'.
      induction HF as [|c c' cs cs' Hcc HF IHc]; intros k0 rs rs' HS HT' HL HL'; destruct rs as [|u rs], rs' as [|u' rs'];
        cbn [map] in *; try (by inversion HL); try (by inversion HL').
      - exists []. split; [done|]. split; [done|]. split; constructor.
      - apply Forall2_cons in HL as [Hx HL]. apply Forall2_cons in HL' as [Hx' HL'].
        destruct (HS 0 u eq_refl) as (S1 & S2 & S3 & S4). rewrite Nat.add_0_r in S1.
        destruct (IH c ltac:(left) c' u u' (p ++ [k0])) as (W1 & A1 & A2 & A3 & A4); try done; [apply HT'; left|].
        destruct (IHc ltac:(intros z Hz; apply IH; by right) (S k0) rs rs') as (W2 & B1 & B2 & B3 & B4); try done.
        { intros k z Hk. replace (S k0 + k) with (k0 + S k) by lia. by apply (HS (S k)). }
        { intros z Hz. apply HT'. by right. }
        exists (W1 ++ W2). cbn [zipl spots_in]. rewrite !map_app, A1, A2, B1, B2. split; [done|]. split; [done|].
        split; [by apply Forall_app|]. by constructor. }
    exists (((rid r, rid r'), (p, (HElem tag ns l cs, HElem tag ns l' cs'))) :: W). cbn [map fst snd]. rewrite W1, W2.
    destruct r as [i rs], r' as [j rs']. cbn [rid rsub] in *. rewrite zips_eq, Es. split; [done|]. split; [done|].
    split; [constructor; [exact (conj Hh (conj Hh' (conj HE Hp)))|done]|]. by constructor.
  Qed.
End Places.

(** ** The edit script *)

Section Script.
  Context {H : Type}.
  Variables ta tb : dtree H hkind attrs string.
  Variables ra rb : rose.
  Hypothesis PA : presents ta ra.
  Hypothesis PB : presents tb rb.
  Hypothesis AL : near (t_opaque ta) (mate_node hkind_eqb ta tb) ra rb.
  Hypothesis RP : t_parent ta (rid ra) = None.
  Variable m : matching.
  Hypothesis BM : bijection m.
  Hypothesis PM : m_pairs m ≡ₚ zips (t_opaque ta) ra rb.

  Lemma zips_outside_b r : forall r' x y, subt r' rb -> near (t_opaque ta) (mate_node hkind_eqb ta tb) r r' ->
    rid r' ∉ opaque_descendants tb -> (x, y) ∈ zips (t_opaque ta) r r' -> y ∉ opaque_descendants tb.
  Proof.
    induction r as [i rs IH] using rose_ind'. intros r' x y Sb HN Hb Hin. inversion HN as [i' j rs0 rs' HR HF]; subst. rewrite zips_eq in Hin.
    apply elem_of_cons in Hin as [[= -> ->]|Hin]; [done|].
    destruct (t_opaque ta i) eqn:Eo; [by apply elem_of_nil in Hin|].
    apply zipl_elem in Hin as (k & c & c' & Hc & Hc' & Hin).
    pose proof (Forall2_lookup_lr _ _ _ _ _ _ (HF eq_refl) Hc Hc') as HNc.
    apply elem_of_list_lookup_2 in Hc, Hc'.
    apply (IH c Hc c' x y); [eapply subt_trans; [by apply (subt_child c' (Rose j rs'))|exact Sb]|done| |done].
    apply (not_opaque_child tb rb PB j); try done.
    - apply (pr_iter_subt tb rb PB). by exists (Rose j rs').
    - destruct HR as (_ & _ & HR). congruence.
    - pose proof (pr_children _ _ PB _ Sb) as E. cbn [rid rsub] in E. rewrite E. by apply elem_of_list_fmap_1.
  Qed.

  Definition text_op (p : nat * nat) : list hop :=
    if otext_eqb String.eqb (t_text ta (fst p)) (t_text tb (snd p)) then []
    else match t_text tb (snd p) with Some s => [SetText (fst p) (snd p) s] | None => [] end.

  Lemma in_place_script : html_edit_script ta tb m = flat_map (fun p => text_op p ++ update_op ta tb p) (m_pairs m).
  Proof.
    assert (forall x y, (x, y) ∈ m_pairs m <-> (x, y) ∈ zips (t_opaque ta) ra rb) as HZ by (intros x y; by rewrite PM).
    unfold html_edit_script, generate_edit_script, edit_script_with.
    rewrite (flat_map_nil (phase2 _ _ _)).
    2:{ intros y Hy. unfold phase2. destruct (contains_b m y) eqn:Ec; [done|]. destruct (t_parent tb y); [|done].
        destruct (all_b hkind_eqb ta tb ra rb PB AL y Hy) as [(x & Hx)|Ho]; [|by apply mem_true in Ho as ->].
        exfalso. apply HZ in Hx. apply (bij_bwd _ BM) in Hx. unfold contains_b in Ec. by rewrite Hx in Ec. }
    rewrite (flat_map_nil (phase5 _ _)).
    2:{ intros x Hx. rewrite (pr_post _ _ PA) in Hx. apply postorder_elem in Hx. rewrite <- (pr_iter _ _ PA) in Hx.
        unfold phase5. destruct (contains_a m x) eqn:Ec; [done|]. destruct (mem x (opaque_descendants ta)) eqn:Eo; [done|].
        apply mem_false in Eo. destruct (all_a hkind_eqb ta tb ra rb PA AL x Hx Eo) as (y & Hy).
        exfalso. apply HZ in Hy. apply (bij_fwd _ BM) in Hy. unfold contains_a in Ec. by rewrite Hy in Ec. }
    rewrite (flat_map_nil (phase4 _ _ _ _ _)).
    2:{ intros [x y] Hin. unfold phase4. destruct (_ || _); [done|]. apply HZ in Hin.
        destruct (near_subt _ _ ra rb x y AL Hin) as (s & s' & S1 & S2 & HA & -> & -> & [[-> ->]|Hu]).
        - by rewrite RP.
        - destruct Hu as (u & u' & k & U1 & U2 & U3 & U4 & U5 & U6).
          destruct (pr_parent _ _ PA u k s U1 U3) as [-> ->]. destruct (pr_parent _ _ PB u' k s' U2 U4) as [-> ->].
          assert (get_b m (rid u) = Some (rid u')) as ->.
          { apply (bij_fwd _ BM). by apply HZ. }
          by rewrite !Nat.eqb_refl. }
    rewrite !app_nil_r.
    pose proof (root_not_opaque_desc ta ra PA) as NA. pose proof (root_not_opaque_desc tb rb PB) as NB.
    rewrite (pr_root _ _ PA) in NA. rewrite (pr_root _ _ PB) in NB.
    assert (forall x y, (x, y) ∈ m_pairs m -> mem x (opaque_descendants ta) = false /\ mem y (opaque_descendants tb) = false) as HO.
    { intros x y Hin. apply HZ in Hin. split; apply mem_false.
      - eapply (zips_outside_a ta ra PA ra rb); [constructor|done|exact Hin].
      - eapply (zips_outside_b ra rb); [constructor|done|done|exact Hin]. }
    revert HO. generalize (m_pairs m). intros l. induction l as [|[x y] l IH]; intros HO; [done|].
    cbn [flat_map]. f_equal; [|apply IH; intros x' y' Hin; apply HO; by right].
    destruct (HO x y) as [H1 H2]; [left|]. unfold phase1. rewrite H1, H2. done.
  Qed.
End Script.

(** ** Conversion *)

Lemma convert_loop_snoc {H} (tb : dtree H hkind attrs string) ins ops1 : forall s ops2,
  convert_loop tb ins s (ops1 ++ ops2) = let! s' := convert_loop tb ins s ops1 in convert_loop tb ins s' ops2.
Proof.
  induction ops1 as [|op ops1 IH]; intros s ops2; [done|]. cbn [convert_loop app].
  destruct (convert_op tb ins s op); cbn [obind]; [apply IH|done|done|done].
Qed.

Section Convert2.
  Context {H : Type}.
  Variables (heqb : H -> H -> bool) (hcomb : hkind -> option string -> list H -> H).
  Variables ta tb : dtree H hkind attrs string.
  Variables (t : arena tdata) (new : document) (sh : shadow).
  Let a := doc_arena new.
  Hypothesis WN : wf a.
  Hypothesis HPa : t_props ta = dprops (fun d => d) t.
  Hypothesis HPb : t_props tb = dprops tdata_of a.
  Hypothesis HTa : t_text ta = dtext (fun d => d) t.
  Hypothesis HTb : t_text tb = dtext tdata_of a.
  Hypothesis HOb : t_opaque tb = (fun i => is_opaque_props (dprops tdata_of a i)).
  Hypothesis FS : fresh_shadow t sh.
  Variable ins : list nat.

  Lemma own_ops x y p u v : tholds t u x -> holds a v y -> edited u v -> spath sh x p -> forall b2s out,
    exists ps, convert_loop tb ins (mkCS sh b2s out) (text_op ta tb (x, y) ++ update_op ta tb (x, y)) = Val (mkCS sh b2s (out ++ ps)) /\
      Forall2 edit_for (own_edits (p, (u, v))) ps.
  Proof.
    intros Hu Hv HE Hp b2s out. apply tholds_eq in Hu as [Hd _]. destruct (tdata_of_holds _ _ _ Hv) as (d & Hd' & Ed).
    assert (t_props ta x = td_props (tdata_of_h u)) as P1 by (rewrite HPa; unfold dprops; by rewrite Hd).
    assert (t_props tb y = td_props (tdata_of_h v)) as P2 by (rewrite HPb; unfold dprops; by rewrite Hd', Ed).
    assert (t_text ta x = td_text (tdata_of_h u)) as T1 by (rewrite HTa; unfold dtext; by rewrite Hd).
    assert (t_text tb y = td_text (tdata_of_h v)) as T2 by (rewrite HTb; unfold dtext; by rewrite Hd', Ed).
    assert (forall s s', td_text (tdata_of_h u) = Some s -> td_text (tdata_of_h v) = Some s' -> td_props (tdata_of_h u) = [] -> td_props (tdata_of_h v) = [] ->
              exists ps, convert_loop tb ins (mkCS sh b2s out) (text_op ta tb (x, y) ++ update_op ta tb (x, y)) = Val (mkCS sh b2s (out ++ ps)) /\
                Forall2 edit_for (if string_dec s s' then [] else [(p, EText s')]) ps) as HT.
    { intros s s' E1 E2 E3 E4. unfold text_op, update_op. cbn [fst snd]. rewrite T1, T2, E1, E2, P1, P2, E3, E4. cbn [otext_eqb props_empty andb].
      destruct (String.eqb_spec s s') as [->|Hn], (string_dec _ _) as [Hs|Hs]; try done.
      - exists []. split; [by rewrite !app_nil_r|]. apply Forall2_nil_2.
      - exists [PSetText p s']. cbn [app convert_loop convert_op cs_shadow].
        rewrite (spath_compute sh x p (fs_wf _ _ FS) Hp). cbn [obind]. split; [done|]. apply Forall2_cons_2; [done|apply Forall2_nil_2]. }
    assert (forall tag ns l l' cs cs', u = HElem tag ns l cs -> v = HElem tag ns l' cs' -> NoDup (keys l) -> NoDup (keys l') ->
              exists ps, convert_loop tb ins (mkCS sh b2s out) (text_op ta tb (x, y) ++ update_op ta tb (x, y)) = Val (mkCS sh b2s (out ++ ps)) /\
                Forall2 edit_for (if attrs_eq_dec l l' then [] else [(p, EAttrs l l')]) ps) as HA.
    { intros tag ns l l' cs cs' -> -> N1 N2. cbn [tdata_of_h td_props td_text] in *.
      unfold text_op. cbn [fst snd]. rewrite T1, T2. cbn [otext_eqb app].
      rewrite (update_op_cases ta tb x y l l') by done. destruct (attrs_eq_dec l l').
      - exists []. split; [by rewrite !app_nil_r|]. apply Forall2_nil_2.
      - exists [PUpdateProps p (props_diff l l')]. cbn [convert_loop convert_op cs_shadow].
        rewrite (spath_compute sh x p (fs_wf _ _ FS) Hp). cbn [obind]. split; [done|].
        constructor; [|constructor]. exists (props_diff l l'). split; [done|]. apply says_diff. }
    unfold own_edits. destruct HE; [by apply HT|by apply HT| |]; by eapply HA.
  Qed.

  Lemma convert_spots W : Forall (spot_ok t a sh) W -> forall b2s out,
    exists ps, convert_loop tb ins (mkCS sh b2s out) (flat_map (fun p => text_op ta tb p ++ update_op ta tb p) (map fst W))
               = Val (mkCS sh b2s (out ++ ps)) /\
      Forall2 edit_for (flat_map own_edits (map snd W)) ps.
  Proof.
    induction W as [|[[x y] [p [u v]]] W IH]; intros HF b2s out; cbn [map fst snd flat_map].
    { exists []. split; [by rewrite !app_nil_r|]. apply Forall2_nil_2. }
    apply Forall_cons in HF as [(Hu & Hv & HE & Hp) HF].
    destruct (own_ops x y p u v Hu Hv HE Hp b2s out) as (ps1 & E1 & F1).
    rewrite convert_loop_snoc, E1. cbn [obind]. destruct (IH HF b2s (out ++ ps1)) as (ps2 & E2 & F2).
    exists (ps1 ++ ps2). rewrite app_assoc. split; [done|]. by apply Forall2_app.
  Qed.

  Lemma opaque_spots W : Forall (spot_ok t a sh) W ->
    (forall x y p u v, ((x, y), (p, (u, v))) ∈ W -> heqb (t_hash ta x) (t_hash tb y) = same_bare u v) ->
    exists oc ps, opaque_contents heqb new ta tb (map fst W) = Val oc /\ opaque_patches sh oc = Val ps /\
      Forall2 edit_for (flat_map content_edits (map snd W)) ps.
  Proof.
    induction W as [|[[x y] [p [u v]]] W IH]; intros HF HH; cbn [map fst snd flat_map opaque_contents].
    { exists [], []. split; [done|]. split; [done|]. apply Forall2_nil_2. }
    apply Forall_cons in HF as [(Hu & Hv & HE & Hp) HF].
    destruct IH as (oc & ps & E1 & E2 & F); [done|intros; eapply HH; by right|].
    rewrite (HH x y p u v) by left. unfold content_edits at 1.
    assert (t_opaque tb y = hopaque u) as ->.
    { rewrite HOb, (edited_opaque _ _ HE). by apply stop_of_b. }
    destruct (hopaque u); cbn [negb andb]; [|by exists oc, ps].
    destruct (same_bare u v); cbn [negb]; [by exists oc, ps|].
    rewrite (serialize_inner_holds (doc_arena new) (hchildren v) y WN (holds_children _ _ _ Hv)). cbn [ofuel obind].
    rewrite E1. cbn [obind]. exists ((x, ser_ts false (hchildren v)) :: oc), (POpaqueChanged p (ser_ts false (hchildren v)) :: ps).
    split; [done|]. cbn [opaque_patches]. rewrite (spath_compute sh x p (fs_wf _ _ FS) Hp). cbn [obind]. rewrite E2. cbn [obind].
    split; [done|]. cbn [app]. by constructor.
  Qed.
End Convert2.

(** ** Sizes, similarity, labels *)

Lemma size_holds a h : forall r, is_tree a r -> holds a h (rid r) -> length (preorder r) = hsize h.
Proof.
  induction h as [s|s|tag ns l cs IH] using htree_ind'; intros r Ht Hh; rewrite preorder_eq; cbn [length hsize]; f_equal;
    pose proof (holds_children _ _ _ Hh) as HL; rewrite (is_tree_children _ _ Ht) in HL; cbn [hchildren] in HL.
  1,2: destruct (rsub r); [done|inversion HL].
  assert (forall u, u ∈ rsub r -> is_tree a u) as Hts by (intros u Hu; by eapply is_tree_sub).
  revert HL Hts. generalize (rsub r). clear Hh Ht. induction cs as [|c cs IHc]; intros [|u rs] HL Hts; cbn [map] in *; try by inversion HL.
  apply Forall2_cons in HL as [H1 H2]. cbn [flat_map]. rewrite app_length, (IH c ltac:(left) u); [|apply Hts; left|done].
  unfold list_sum. cbn [fold_right]. f_equal. apply IHc; [|done|intros z Hz; apply Hts; by right]. intros z Hz. apply IH. by right.
Qed.
Lemma size_tholds t h : forall r, is_tree t r -> tholds t h (rid r) -> length (preorder r) = hsize h.
Proof.
  induction h as [s|s|tag ns l cs IH] using htree_ind'; intros r Ht Hh; rewrite preorder_eq; cbn [length hsize]; f_equal;
    apply tholds_eq in Hh as [_ HL]; rewrite (is_tree_children _ _ Ht) in HL; cbn [hchildren] in HL.
  1,2: destruct (rsub r); [done|inversion HL].
  assert (forall u, u ∈ rsub r -> is_tree t u) as Hts by (intros u Hu; by eapply is_tree_sub).
  revert HL Hts. generalize (rsub r). clear Ht. induction cs as [|c cs IHc]; intros [|u rs] HL Hts; cbn [map] in *; try by inversion HL.
  apply Forall2_cons in HL as [H1 H2]. cbn [flat_map]. rewrite app_length, (IH c ltac:(left) u); [|apply Hts; left|done].
  unfold list_sum. cbn [fold_right]. f_equal. apply IHc; [|done|intros z Hz; apply Hts; by right]. intros z Hz. apply IH. by right.
Qed.

Lemma qdedup_nodup_id l : NoDup l -> qdedup l = l.
Proof.
  induction 1 as [|q l Hq ND IH]; [done|]. cbn [qdedup]. destruct (existsb (qname_eqb q) l) eqn:E; [|by rewrite IH].
  by apply existsb_qname in E.
Qed.
Lemma alike_similar l l' : NoDup (keys l) -> NoDup (keys l') -> alike_names l l' ->
  ge_thr (mkCfg 1 2 0) (props_sim l l') = true.
Proof.
  intros N1 N2 HA. unfold ge_thr, props_sim, alike_names in *. cbn [thr_num thr_den].
  destruct (andb (Nat.eqb (length l) 0) (Nat.eqb (length l') 0)) eqn:E.
  { destruct l, l'; done. }
  assert (fst (2 * length (List.filter (fun q => existsb (qname_eqb q) (qdedup (keys l'))) (qdedup (keys l))),
               length (qdedup (keys l)) + length (qdedup (keys l'))) = 2 * length (List.filter (fun q => existsb (qname_eqb q) (keys l')) (keys l)))
    as E1 by (rewrite !qdedup_nodup_id by done; done).
  assert (length (qdedup (keys l)) + length (qdedup (keys l')) = length l + length l') as E2.
  { rewrite !qdedup_nodup_id by done. unfold keys. by rewrite !map_length. }
  apply Nat.leb_le. destruct l as [|e l], l' as [|e' l']; [done| | |]; cbv zeta; cbn [fst snd] in *; rewrite E2, E1; lia.
Qed.

Lemma same_label_kind u v : same_label u v = hkind_eqb (td_kind (tdata_of_h u)) (td_kind (tdata_of_h v)).
Proof. by destruct u, v. Qed.

Lemma lacks_kind tag ns v : lacks tag ns v = true -> hkind_eqb (td_kind (tdata_of_h v)) (KElem tag ns) = false.
Proof. destruct v; cbn [lacks tdata_of_h td_kind]; [|done|done]. by intros [? _]%andb_true_iff; apply negb_true_iff. Qed.

Lemma spots_lacks tag ns h : forall h' p q u v, edited h h' -> lacks tag ns h' = true -> (q, (u, v)) ∈ spots p h h' -> lacks tag ns v = true.
Proof.
  induction h as [s|s|tg nsp l cs IH] using htree_ind'; intros h' p q u v HE HL Hin.
  1,2: cbn [spots] in Hin; apply elem_of_cons in Hin as [[= -> -> ->]|Hin]; [done|by apply elem_of_nil in Hin].
  assert (exists l' cs', h' = HElem tg nsp l' cs') as (l' & cs' & ->) by (inversion HE; subst; eauto).
  pose proof (edited_opaque _ _ HE) as Eo'. cbn [hopaque] in Eo'.
  rewrite spots_elem in Hin. apply elem_of_cons in Hin as [[= -> -> ->]|Hin]; [done|].
  destruct (is_opaque_props l) eqn:Eo; [by apply elem_of_nil in Hin|].
  pose proof (edited_children _ _ HE Eo) as HF. cbn [hchildren] in HF. cbn [lacks] in HL.
  apply andb_true_iff in HL as [_ HL]. rewrite <- Eo' in HL. cbn [orb] in HL.
  revert Hin. generalize 0. clear HE. induction HF as [|c c' cs cs' Hcc HF IHc]; intros k Hin; cbn [spots_in] in Hin; [by apply elem_of_nil in Hin|].
  cbn [forallb] in HL. apply andb_true_iff in HL as [L1 L2]. apply elem_of_app in Hin as [Hin|Hin].
  - eapply (IH c); [left|exact Hcc|done|exact Hin].
  - eapply IHc; [|done|exact Hin]. intros z Hz. apply IH. by right.
Qed.

Lemma flat_map_both {A B} (f g : A -> list B) l : flat_map f l ++ flat_map g l ≡ₚ flat_map (fun x => f x ++ g x) l.
Proof.
  induction l as [|x l IH]; [done|]. cbn [flat_map]. rewrite <- IH, <- !app_assoc. apply Permutation_app_head.
  rewrite !app_assoc. apply Permutation_app_tail. apply Permutation_app_comm.
Qed.
Lemma flat_map_perm {A B} (f : A -> list B) l l' : l ≡ₚ l' -> flat_map f l ≡ₚ flat_map f l'.
Proof.
  induction 1 as [|x l l' _ IH|x y l|l l1 l2 _ IH1 _ IH2]; [done| | |by etrans]; cbn [flat_map].
  - by rewrite IH.
  - rewrite !app_assoc. apply Permutation_app_tail. apply Permutation_app_comm.
Qed.

Definition edits (w : path * (htree * htree)) : list (path * edit) := own_edits w ++ content_edits w.

(** ** The diff *)

Section Diff.
  Context {H : Type}.
  Variables (heqb : H -> H -> bool) (hcomb : hkind -> option string -> list H -> H) (h0 : H).
  Hypothesis heqb_refl : forall h, heqb h h = true.
  Hypothesis CF : collision_free heqb hcomb.

  Theorem diff_in_place (new : document) (olda : arena dnode) ob nb tag ns oats ts ts' :
    wf olda -> wf (doc_arena new) ->
    data olda ob = Some (mkD (NElem tag oats) ns) ->
    data (doc_arena new) nb = Some (mkD (NElem tag []) ns) ->
    holds_list olda ts (children olda ob) -> holds_list (doc_arena new) ts' (children (doc_arena new) nb) ->
    Forall2 edited ts ts' -> forallb (lacks tag ns) ts' = true ->
    no_twins (HElem tag ns [] ts) (HElem tag ns [] ts') = true ->
    half_kept (HElem tag ns [] ts) (HElem tag ns [] ts') ->
    exists ps es, diff_bodies heqb hcomb h0 new olda ob nb = Val ps /\
      es ≡ₚ flat_map edits (spots [0] (HElem tag ns [] ts) (HElem tag ns [] ts')) /\
      Forall2 edit_for es ps.
  Proof.
    intros WO WN DO DN HO HN HF HLK HTW HHALF.
    destruct (build_tree_ok olda ob _ ts WO DO HO) as (t & Et & BT).
    destruct (built_tree t _ ts BT) as (ra & Hra & Hta & Hia).
    assert (0 < length t) as L0 by (eapply data_lt; apply BT).
    destruct (mk_dtree_presents hcomb h0 (fun d => d) t ra (bt_wf _ _ _ BT)) as (ta & Ea & PA); [by rewrite Hra|done|].
    destruct (tree_exists (doc_arena new) nb WN) as (rb & Hrb & Htb).
    destruct (mk_dtree_presents hcomb h0 tdata_of (doc_arena new) rb WN) as (tb & Eb & PB).
    { rewrite Hrb. by eapply data_lt. } { done. }
    assert (forall s, subt s ra -> t_hash ta (rid s) = rhash hcomb (fun d => d) t s) as HA1.
    { intros s Hs. eapply (mk_dtree_hash hcomb h0 (fun d => d) t ra); try done; [apply BT|by rewrite Hra]. }
    assert (forall s, subt s rb -> t_hash tb (rid s) = rhash hcomb tdata_of (doc_arena new) s) as HB1.
    { intros s Hs. eapply (mk_dtree_hash hcomb h0 tdata_of (doc_arena new) rb); try done. rewrite Hrb. by eapply data_lt. }
    rewrite Hra in Ea. rewrite Hrb in Eb.
    destruct (mk_dtree_fields _ _ _ _ _ _ Ea) as (A1 & A2 & A3 & A4 & A5 & A6 & A7 & A8 & A9).
    destruct (mk_dtree_fields _ _ _ _ _ _ Eb) as (B1 & B2 & B3 & B4 & B5 & B6 & B7 & B8 & B9).
    set (h := HElem tag ns [] ts) in *. set (h' := HElem tag ns [] ts') in *.
    set (a := doc_arena new) in *.
    assert (edited h h') as HE.
    { apply ed_elem; [constructor|constructor|done|done| |done]. right. unfold alike_names. cbn. lia. }
    assert (tholds t h (rid ra)) as Hh.
    { apply tholds_eq. rewrite Hra. split; [apply BT|apply (bt_holds _ _ _ BT)]. }
    assert (holds a h' (rid rb)) as Hh' by (apply holds_elem; by rewrite Hrb).
    assert (forall u x, tholds t u x -> t_kind ta x = td_kind (tdata_of_h u) /\ t_opaque ta x = hopaque u /\
              t_props ta x = td_props (tdata_of_h u)) as KA.
    { intros u x Hu. split; [|split]; [| |]. 2:{ rewrite A9. by apply stop_of. }
      - apply tholds_eq in Hu as [Hd _]. rewrite A2. unfold dkind. by rewrite Hd.
      - apply tholds_eq in Hu as [Hd _]. rewrite A3. unfold dprops. by rewrite Hd. }
    assert (forall v y, holds a v y -> t_kind tb y = td_kind (tdata_of_h v) /\ t_opaque tb y = hopaque v /\
              t_props tb y = td_props (tdata_of_h v)) as KB.
    { intros v y Hv. destruct (tdata_of_holds _ _ _ Hv) as (d & Hd & Ed). split; [|split]; [| |].
      2:{ rewrite B9. by apply stop_of_b. }
      - rewrite B2. unfold dkind. by rewrite Hd, Ed.
      - rewrite B3. unfold dprops. by rewrite Hd, Ed. }
    assert (forall u x, tholds t u x -> x ∈ preorder ra -> t_hash ta x = hhash hcomb u) as HA2.
    { intros u x Hu Hx. apply preorder_subt in Hx as (s & Hs & <-). rewrite HA1 by done. apply rhash_tholds; [by eapply is_tree_subt|done]. }
    assert (forall v y, holds a v y -> y ∈ preorder rb -> t_hash tb y = hhash hcomb v) as HB2.
    { intros v y Hv Hy. apply preorder_subt in Hy as (s & Hs & <-). rewrite HB1 by done. apply rhash_holds; [by eapply is_tree_subt|done]. }
    assert (forall u v x y, tholds t u x -> holds a v y -> x ∈ preorder ra -> y ∈ preorder rb ->
              heqb (t_hash ta x) (t_hash tb y) = same_bare u v) as HEQ.
    { intros u v x y Hu Hv Hx Hy. rewrite (HA2 u x), (HB2 v y) by done. by apply hhash_same. }
    destruct (shadow_new_full t (bt_wf _ _ _ BT) L0 (bt_root_parent _ _ _ BT)) as (sh & Esh & FS).
    assert (t_opaque ta = (fun i => is_opaque_props (dprops (fun d => d) t i))) as EO by done.
    destruct (spots_exist t a (bt_wf _ _ _ BT) sh FS (mate_node hkind_eqb ta tb)) with (h := h) (h' := h') (r := ra) (r' := rb) (p := [0])
      as (W & W1 & W2 & W3 & AL); try done.
    { intros u v x y Hu Hv Huv. destruct (KA u x Hu) as (K1 & K2 & _), (KB v y Hv) as (K3 & K4 & _). unfold mate_node.
      rewrite K1, K2, K3, K4, (edited_kind _ _ Huv), (edited_opaque _ _ Huv). split; [|split]; [| |done]; by apply hkind_eqb_eq. }
    { rewrite Hra. apply (spath_root _ 0 (S (length t)) 0); [by apply fs_root_parent|].
      by rewrite (fs_super _ _ FS), (fs_top _ _ FS). }
    { by rewrite Hra. }
    { intros c Hc H0. pose proof (pr_nodup _ _ PA) as NDp. rewrite preorder_eq in NDp. apply NoDup_cons in NDp as [NDp _].
      rewrite Hra in NDp. apply NDp. apply elem_flat_map. by exists c. }
    rewrite <- EO in W1, AL.
    assert (t_parent ta (rid ra) = None) as RP. { rewrite A5, Hra. apply BT. }
    (* what holds of a pair of nodes in place *)
    assert (forall x y p u v, ((x, y), (p, (u, v))) ∈ W -> spot_ok t a sh ((x, y), (p, (u, v))) /\ (x, y) ∈ zips (t_opaque ta) ra rb /\
              heqb (t_hash ta x) (t_hash tb y) = same_bare u v) as HW.
    { intros x y p u v Hin. rewrite Forall_forall in W3. pose proof (W3 _ Hin) as Hok. split; [done|].
      assert ((x, y) ∈ zips (t_opaque ta) ra rb) as Hz.
      { rewrite <- W1. apply elem_of_list_In, in_map_iff. exists ((x, y), (p, (u, v))). split; [done|by apply elem_of_list_In]. }
      split; [done|]. destruct Hok as (O1 & O2 & _). apply HEQ; try done; [by eapply zips_in_a|by eapply zips_in_b]. }
    assert (forall x y, (x, y) ∈ zips (t_opaque ta) ra rb -> exists p u v, ((x, y), (p, (u, v))) ∈ W) as HWZ.
    { intros x y Hz. rewrite <- W1 in Hz. apply elem_of_list_In, in_map_iff in Hz as ([[x' y'] [p [u v]]] & E & Hz).
      injection E as -> ->. exists p, u, v. by apply elem_of_list_In. }
    assert (forall x y p u v, ((x, y), (p, (u, v))) ∈ W -> kept (p, (u, v)) = true -> settled heqb ta tb x y) as HSET.
    { intros x y p u v Hin Hk. destruct (HW _ _ _ _ _ Hin) as ((O1 & O2 & _) & _ & E). unfold settled. rewrite E.
      destruct (KA _ _ O1) as (_ & -> & _). unfold kept in Hk. by apply orb_true_iff in Hk. }
    destruct (compute_in_place heqb hkind_eqb props_sim 1 2 ta tb ra rb PA PB AL) as (m & Em & BM & PM).
    - (* equal hashes *)
      intros x y Hx Hy Hh1. rewrite (pr_iter _ _ PA) in Hx. rewrite (pr_iter _ _ PB) in Hy.
      apply preorder_subt in Hx as (s & Hs & <-). apply preorder_subt in Hy as (s' & Hs' & <-). rewrite HA1, HB1 in Hh1 by done.
      destruct s as [i rs], s' as [j rs']. cbn [rhash] in Hh1. apply CF in Hh1 as (E & _). rewrite A2, B2. cbn [rid]. rewrite E.
      by apply hkind_eqb_eq.
    - (* twins *)
      assert (forall c c', faces hkind_eqb ta tb ra rb c c' -> exists p q u v, ((p, q), (u, v)) ∈ facing h h' /\
                outside h p /\ outside h' q /\ hat h p = Some u /\ hat h' q = Some v /\ rat ra p = Some c /\ rat rb q = Some c' /\
                tholds t u (rid c) /\ holds a v (rid c') /\ is_tree t c /\ is_tree a c') as HFF.
      { induction 1 as [|u u' c c' _ IH Ou Ou' Hc Hc' HK].
        - exists [], [], h, h'. split_and!; try done. apply facing_root.
        - destruct IH as (p & q & w & v & I1 & I2 & I3 & I4 & I5 & I6 & I7 & I8 & I9 & I10 & I11).
          apply elem_of_list_lookup_1 in Hc as (i & Hi). apply elem_of_list_lookup_1 in Hc' as (j & Hj).
          destruct (tholds_sub t w u i c I10 I8 Hi) as (x & Hx & Hxc).
          destruct (holds_sub a v u' j c' I11 I9 Hj) as (y & Hy & Hyc).
          destruct (KA _ _ I8) as (_ & K1 & _). destruct (KB _ _ I9) as (_ & K2 & _). rewrite Ou in K1. rewrite Ou' in K2.
          destruct (KA _ _ Hxc) as (K3 & _). destruct (KB _ _ Hyc) as (K4 & _). rewrite K3, K4, <- same_label_kind in HK.
          exists (p ++ [i]), (q ++ [j]), x, y.
          split; [by eapply facing_snoc|].
          destruct (outside_snoc p h w i x I2 I4 (eq_sym K1) Hx) as [J1 J2].
          destruct (outside_snoc q h' v j y I3 I5 (eq_sym K2) Hy) as [J3 J4].
          split; [done|]. split; [done|]. split; [done|]. split; [done|].
          split; [by rewrite (rat_snoc p ra u)|]. split; [by rewrite (rat_snoc q rb u')|]. split; [done|]. split; [done|].
          split; eapply is_tree_sub; [exact I10| |exact I11|]; by eapply elem_of_list_lookup_2. }
      intros c c' HFc Hs Hn. pose proof (faces_subt _ _ _ _ _ _ _ HFc) as [Sc Sc'].
      destruct (HFF c c' HFc) as (p & q & u & v & I1 & I2 & I3 & I4 & I5 & I6 & I7 & I8 & I9 & I10 & I11).
      assert (rid c ∈ preorder ra) as Pc by (apply preorder_subt; by exists c).
      assert (rid c' ∈ preorder rb) as Pc' by (apply preorder_subt; by exists c').
      destruct (KA _ _ I8) as (_ & K1 & _). destruct (KB _ _ I9) as (_ & K2 & _).
      assert (same_bare u v || hopaque u || hopaque v = true) as Hs'.
      { rewrite (HEQ u v), K1, K2 in Hs by done. apply orb_true_iff. rewrite orb_true_iff. tauto. }
      pose proof (outside_sym q h h' HE I3) as I3'.
      destruct (outside_place t a p h h' ra rb HE Hta Htb Hh Hh' I2) as (u1 & v1 & c1 & c1' & X1 & X2 & X3 & X4 & X5 & X6 & X7 & X8).
      destruct (outside_place t a q h h' ra rb HE Hta Htb Hh Hh' I3') as (u2 & v2 & c2 & c2' & Y1 & Y2 & Y3 & Y4 & Y5 & Y6 & Y7 & Y8).
      rewrite <- EO in X8, Y8. rewrite I4 in X1. injection X1 as <-. rewrite I6 in X3. injection X3 as <-.
      rewrite I5 in Y2. injection Y2 as <-. rewrite I7 in Y4. injection Y4 as <-.
      unfold no_twins in HTW. rewrite forallb_forall in HTW.
      specialize (HTW ((p, q), (u, v)) ltac:(by apply elem_of_list_In)). cbn beta iota in HTW.
      destruct (decide (p = q)) as [->|Hpq]. { rewrite I7 in X4. injection X4 as <-. done. }
      rewrite Hs' in HTW. apply andb_true_iff in HTW as [T1 T2]. unfold kept_at in T1, T2. rewrite I4, X2 in T1. rewrite Y1, I5 in T2.
      assert (forall x y w z r, tholds t w x -> holds a z y -> (x, y) ∈ zips (t_opaque ta) ra rb -> kept (r, (w, z)) = true -> settled heqb ta tb x y) as HS.
      { intros x y w z r G1 G2 G3 G4. unfold settled. rewrite (HEQ w z); [|done|done|by eapply zips_in_a|by eapply zips_in_b].
        destruct (KA _ _ G1) as (_ & -> & _). unfold kept in G4. by apply orb_true_iff in G4. }
      split.
      + exists (rid c1'). split; [done|]. by eapply (HS _ _ u v1 p).
      + exists (rid c2). split; [done|]. by eapply (HS _ _ u2 v q).
    - done.
    - (* only the root has its kind *)
      intros y Hy Hny Hk. destruct (all_b hkind_eqb ta tb ra rb PB AL y Hy) as [(x & Hx)|Ho]; [|done].
      destruct (KA _ _ Hh) as (KR & _). rewrite KR in Hk. change (td_kind (tdata_of_h h)) with (KElem tag ns) in Hk.
      destruct (HWZ x y Hx) as (p & u & v & Hin). destruct (HW _ _ _ _ _ Hin) as ((O1 & O2 & O3 & _) & _).
      destruct (KB _ _ O2) as (K2 & _). rewrite K2 in Hk.
      destruct W as [|w0 W]; [by apply elem_of_nil in Hin|].
      assert (snd w0 = ([0], (h, h')) /\ map snd W = spots_in [0] 0 ts ts') as [E1 E2].
      { cbn [map] in W2. unfold h, h' in W2. rewrite spots_elem in W2. cbn [is_opaque_props existsb] in W2. by injection W2 as -> ->. }
      assert (fst w0 = (rid ra, rid rb)) as E3.
      { cbn [map] in W1. destruct ra as [i rs], rb as [j rs']. rewrite zips_eq in W1. by injection W1 as -> _. }
      apply elem_of_cons in Hin as [<-|Hin]; [by injection E3 as _ ->|]. exfalso.
      assert ((p, (u, v)) ∈ spots_in [0] 0 ts ts') as Hsp.
      { rewrite <- E2. apply elem_of_list_In, in_map_iff. exists ((x, y), (p, (u, v))). split; [done|by apply elem_of_list_In]. }
      assert (lacks tag ns v = true) as HLv.
      { revert Hsp HLK HF. clear. generalize 0 at 2. intros k Hin HL HF. revert k Hin HL.
        induction HF as [|c c' cs cs' Hcc HF IHc]; intros k Hin HL; cbn [spots_in] in Hin; [by apply elem_of_nil in Hin|].
        cbn [forallb] in HL. apply andb_true_iff in HL as [L1 L2]. apply elem_of_app in Hin as [Hin|Hin].
        - eapply spots_lacks; [exact Hcc|done|exact Hin].
        - eapply IHc; [exact Hin|done]. }
      apply lacks_kind in HLv. congruence.
    - (* similar attributes *)
      intros x y Hz. destruct (HWZ x y Hz) as (p & u & v & Hin). destruct (HW _ _ _ _ _ Hin) as ((O1 & O2 & O3 & _) & _ & EH).
      destruct (KA _ _ O1) as (_ & K1 & K2). destruct (KB _ _ O2) as (_ & K3 & K4). rewrite K2, K4. unfold settled. rewrite EH, K1.
      inversion O3 as [s s'|s s'|tg nsp l l' cs cs' N1 N2 M1 M2|tg nsp l l' cs cs' N1 N2 M1 M2 HC HFc]; subst; cbn [hopaque tdata_of_h td_props].
      + by right.
      + by right.
      + left. right. done.
      + destruct HC as [HC|HC]; [|right; by apply alike_similar]. left. left. apply same_bare_eq. cbn [bare]. by rewrite HC.
    - (* half *)
      destruct ts' as [|c' ts''] eqn:Ets.
      { left. inversion HF; subst. left. rewrite (HEQ h h'); [by apply same_bare_eq|done|done|apply preorder_rid|apply preorder_rid]. }
      right. split.
      { pose proof (is_tree_children _ _ Htb) as Hc. rewrite Hrb in Hc. destruct (rsub rb); [|done]. rewrite Hc in HN. inversion HN. }
      right. exists (map fst (List.filter (fun w => kept (snd w)) W)). split; [|split].
      { assert (forall l, NoDup (map fst (map fst l)) -> NoDup (map fst (map fst (List.filter (fun w : (nat * nat) * (path * (htree * htree)) => kept (snd w)) l)))) as HND.
        { clear. induction l as [|w l IH]; intros ND; [done|]. cbn [map List.filter] in *. apply NoDup_cons in ND as [N1 N2].
          destruct (kept (snd w)); [|by apply IH]. cbn [map]. apply NoDup_cons. split; [|by apply IH].
          intros Hin. apply N1. clear -Hin. revert Hin. rewrite !map_map. intros Hin. apply elem_of_list_In, in_map_iff in Hin as (z & Hz & Hin).
          apply filter_In in Hin as [Hin _]. apply elem_of_list_In, in_map_iff. by exists z. }
        apply HND. rewrite W1. apply zips_nodup_fst. apply PA. }
      { intros x y Hin. apply elem_of_list_In, in_map_iff in Hin as ([[x' y'] [p [u v]]] & E & Hin). injection E as -> ->.
        apply filter_In in Hin as [Hin Hk]. apply elem_of_list_In in Hin. cbn [snd] in Hk.
        destruct (HW _ _ _ _ _ Hin) as (_ & Hz & _). split; [done|]. by eapply HSET. }
      unfold half_kept in HHALF. unfold ge_thr. cbn [thr_num thr_den fst snd]. apply Nat.leb_le.
      rewrite (size_tholds t h ra Hta Hh), (size_holds a h' rb Htb Hh'). rewrite <- W2 in HHALF.
      assert (length (List.filter kept (map snd W)) = length (map fst (List.filter (fun w => kept (snd w)) W))) as E.
      { clear. rewrite map_length. induction W as [|w W IH]; [done|]. cbn [map List.filter]. destruct (kept (snd w)); cbn [length]; by rewrite IH. }
      lia.
    - (* the script and the patches *)
      assert (contains_a m (rid ra) = true) as HCR.
      { assert ((rid ra, rid rb) ∈ m_pairs m) as Hin.
        { rewrite PM. destruct ra as [i rs], rb as [j rs']. rewrite zips_eq. left. }
        apply (bij_fwd _ BM) in Hin. unfold contains_a. by rewrite Hin. }
      assert (html_matching heqb ta tb = Val m) as EM.
      { unfold html_matching, diff_config. rewrite Em. cbn [obind]. rewrite (pr_root _ _ PA), HCR. by rewrite andb_false_r. }
      unfold diff_bodies. rewrite Et. cbn [obind]. rewrite Ea. cbn [obind]. unfold a in Eb. rewrite Eb. cbn [obind]. rewrite EM. cbn [obind].
      rewrite (in_place_script ta tb ra rb PA PB AL RP m BM PM).
      rewrite <- W1 in PM. destruct (Permutation_map_inv _ _ PM) as (W' & EW & PW).
      assert (Forall (spot_ok t a sh) W') as W3' by by rewrite <- PW.
      unfold convert_ops. rewrite Esh. cbn [obind].
      rewrite EW.
      destruct (opaque_spots heqb ta tb t new sh WN B9 FS W' W3') as (oc & ps2 & E1 & E2 & F2).
      { intros x y p u v Hin. rewrite <- PW in Hin. by destruct (HW _ _ _ _ _ Hin) as (_ & _ & ?). }
      rewrite E1. cbn [obind].
      match goal with |- context [convert_loop tb ?ins (mkCS sh ?b []) _] =>
        destruct (convert_spots ta tb t new sh A3 B3 A4 B4 FS ins W' W3' b []) as (ps1 & E3 & F1) end.
      rewrite E3. cbn [obind cs_out app].
      exists (ps1 ++ ps2), (flat_map own_edits (map snd W') ++ flat_map content_edits (map snd W')). split; [|split].
      + destruct oc; [cbn in E2; injection E2 as <-; by rewrite app_nil_r|]. rewrite E2. done.
      + rewrite flat_map_both. change (fun x => own_edits x ++ content_edits x) with edits. apply flat_map_perm.
        rewrite <- W2. by rewrite PW.
      + by apply Forall2_app.
  Qed.
End Diff.

(** ** Application *)

(** Content replaced: all of it is new. *)
Lemma apply_content parse (a : arena dnode) sl q n s :
  wf a -> navigate_slot_path a sl q = Val n -> n < length a ->
  exists a', apply_patch parse (a, sl) (POpaqueChanged q s) = ((a', sl), Val tt) /\
    wf a' /\ length a <= length a' /\ holds_list a' (parse s) (children a' n) /\
    (forall j, j < length a -> data a' j = data a j) /\
    (forall j, j < length a -> j <> n -> children a' j = children a j) /\
    (forall i, i ∈ children a' n -> length a <= i) /\
    (forall j c, length a <= j -> c ∈ children a' j -> length a <= c).
Proof.
  intros W Hq Hn. destruct (detach_all_full (children a n) a W) as (W1 & L1 & D1 & C1 & S1).
  set (a1 := detach_all a (children a n)) in *.
  assert (children a1 n = []) as E1.
  { destruct (children a1 n) as [|x l] eqn:E; [done|]. exfalso.
    assert (x ∈ children a1 n) as Hx by (rewrite E; left). apply C1 in Hx. naive_solver. }
  destruct (clone_under_all a1 n (parse s) W1 ltac:(lia)) as (a2 & ids & E2 & CL).
  assert (children a2 n = ids) as Ei.
  { rewrite (cl_children _ _ _ _ _ CL), Nat.eqb_refl, E1 by lia. done. }
  exists a2. split.
  { cbn [apply_patch]. unfold with_node. cbn [fst snd]. rewrite Hq. cbv zeta. fold a1. by rewrite E2. }
  split; [apply CL|]. split; [pose proof (cl_len _ _ _ _ _ CL); lia|]. split.
  { rewrite Ei. apply CL. }
  split; [|split; [|split]].
  - intros j Hj. rewrite (cl_data _ _ _ _ _ CL) by lia. apply D1.
  - intros j Hj Hjn. rewrite (cl_children _ _ _ _ _ CL) by lia. destruct (Nat.eqb_spec j n); [done|].
    apply S1. intros x Hx Hx'. apply Hjn. apply (wf_pc a W) in Hx, Hx'. congruence.
  - intros i. rewrite Ei, <- L1. apply CL.
  - intros j c. rewrite <- L1. by eapply cloned_closed.
Qed.

Section Apply.
  Variable parse : string -> list htree.
  Variable sl : slots.
  Variable a0 : arena dnode.
  Hypothesis W0 : wf a0.

  Definition node_ok (w : nat * (path * (htree * htree))) : Prop :=
    let '(n, (p, (u, v))) := w in holds a0 u n /\ edited u v /\ navigate_slot_path a0 sl p = Val n.

  (** Node [n] has become what the new tree has there. *)
  Definition done_at (a : arena dnode) (w : nat * (path * (htree * htree))) : Prop :=
    let '(n, (_, (u, v))) := w in
    match v with
    | HText s => node_kind a n = Some (NText s) /\ children a n = []
    | HComment s => node_kind a n = Some (NComment s) /\ children a n = []
    | HElem tag ns l cs => data a n = Some (mkD (NElem tag l) ns) /\
        if hopaque u then holds_list a cs (children a n) else children a n = children a0 n
    end.

  Lemma spot_nodes h : forall h' r p, edited h h' -> is_tree a0 r -> holds a0 h (rid r) ->
    navigate_slot_path a0 sl p = Val (rid r) ->
    exists W, map snd W = spots p h h' /\ NoDup (map fst W) /\ (forall x, x ∈ map fst W -> x ∈ preorder r) /\
      Forall node_ok W /\
      (forall a', (forall n q u v, (n, (q, (u, v))) ∈ W -> hopaque u = false -> children a' n = children a0 n) ->
         navigate_slot_path a' sl p = Val (rid r) ->
         forall n q x, (n, (q, x)) ∈ W -> navigate_slot_path a' sl q = Val n) /\
      (forall a', Forall (done_at a') W -> holds a' h' (rid r)) /\
      (forall n q u v s, (n, (q, (u, v))) ∈ W -> hopaque u = true -> subt s r -> rid s = n ->
         forall x, x ∈ flat_map preorder (rsub s) -> x ∉ map fst W).
  Proof.
    induction h as [s|s|tag ns l cs IH] using htree_ind'; intros h' r p HE Ht Hh Hn.
    1: exists [(rid r, (p, (HText s, h')))]. 2: exists [(rid r, (p, (HComment s, h')))].
    1,2: (split; [by inversion HE|]); (split; [apply NoDup_singleton|]);
      (split; [intros x Hx; apply elem_of_list_singleton in Hx as ->; apply preorder_rid|]);
      (split; [apply Forall_singleton; exact (conj Hh (conj HE Hn))|]);
      (split; [intros a' _ Hn' n q x Hx; apply elem_of_list_singleton in Hx as [= -> -> ->]; done|]);
      (split; [intros a' HD; apply Forall_cons in HD as [HD _]; inversion HE; subst; exact HD|]);
      intros n q u v s0 Hx Ho; apply elem_of_list_singleton in Hx as [= -> -> -> ->]; done.
    assert (exists l' cs', h' = HElem tag ns l' cs') as (l' & cs' & ->) by (inversion HE; subst; eauto).
    rewrite spots_elem. set (w0 := (rid r, (p, (HElem tag ns l cs, HElem tag ns l' cs')))).
    assert (node_ok w0) as K0 by exact (conj Hh (conj HE Hn)).
    destruct (is_opaque_props l) eqn:Eo.
    { exists [w0]. split; [done|]. split; [apply NoDup_singleton|].
      split; [intros x Hx; apply elem_of_list_singleton in Hx as ->; apply preorder_rid|].
      split; [by apply Forall_singleton|].
      split; [intros a' _ Hn' n q x Hx; apply elem_of_list_singleton in Hx as [= -> -> ->]; done|].
      split. { intros a' HD. apply Forall_cons in HD as [HD _]. unfold w0 in HD. cbn [done_at hopaque] in HD. rewrite Eo in HD. by apply holds_elem. }
      intros n q u v s0 Hx Ho Hs Es x Hin Hw. apply elem_of_list_singleton in Hx as [= -> -> -> ->].
      pose proof (is_tree_nodup _ _ W0 Ht) as ND.
      assert (s0 = r) as -> by (eapply subt_rid_inj; [exact ND|done|constructor|done]).
      rewrite preorder_eq in ND. apply NoDup_cons in ND as [ND _]. apply elem_of_list_singleton in Hw as ->. done. }
    pose proof (edited_children _ _ HE Eo) as HF. cbn [hchildren] in HF.
    pose proof (is_tree_children _ _ Ht) as Hc.
    pose proof (is_tree_nodup _ _ W0 Ht) as ND. rewrite preorder_eq in ND. apply NoDup_cons in ND as [Hni ND].
    assert (exists W, map snd W = spots_in p 0 cs cs' /\ NoDup (map fst W) /\ (forall x, x ∈ map fst W -> x ∈ flat_map preorder (rsub r)) /\
      Forall node_ok W /\
      (forall a', (forall n q u v, (n, (q, (u, v))) ∈ W -> hopaque u = false -> children a' n = children a0 n) ->
         (forall k c, rsub r !! k = Some c -> navigate_slot_path a' sl (p ++ [0 + k]) = Val (rid c)) ->
         forall n q x, (n, (q, x)) ∈ W -> navigate_slot_path a' sl q = Val n) /\
      (forall a', Forall (done_at a') W -> holds_list a' cs' (map rid (rsub r))) /\
      (forall n q u v c s, (n, (q, (u, v))) ∈ W -> hopaque u = true -> c ∈ rsub r -> subt s c -> rid s = n ->
         forall x, x ∈ flat_map preorder (rsub s) -> x ∉ map fst W)) as (W & A1 & A2 & A3 & A4 & A5 & A6 & A7).
    { apply holds_elem in Hh as [_ HL]. rewrite Hc in HL.
      assert (forall k u, rsub r !! k = Some u -> is_tree a0 u /\ navigate_slot_path a0 sl (p ++ [0 + k]) = Val (rid u)) as HN.
      { intros k u Hk. split; [eapply is_tree_sub; [exact Ht|by eapply elem_of_list_lookup_2]|].
        apply (navigate_slot_snoc _ _ _ (rid r)); [done|]. rewrite Hc. cbn [Nat.add]. by rewrite list_lookup_fmap, Hk. }
      clear K0 w0 Hni Hc Ht HE Hn. revert HN HL ND. generalize (rsub r). generalize 0. clear r.
      induction HF as [|c c' cs cs' Hcc HF IHc]; intros k0 rs HN HL ND; destruct rs as [|u rs]; cbn [map] in *; try (by inversion HL).
      - exists []. cbn [map spots_in]. split; [done|]. split; [constructor|]. split; [intros x Hx; by apply elem_of_nil in Hx|]. split; [constructor|].
        split; [intros a' _ _ n q x Hx; by apply elem_of_nil in Hx|]. split; [intros a' _; constructor|].
        intros n q u v c s Hx. by apply elem_of_nil in Hx.
      - apply Forall2_cons in HL as [Hx HL]. cbn [flat_map] in ND. apply NoDup_app in ND as (ND1 & ND2 & ND3).
        destruct (HN 0 u eq_refl) as [S1 S2]. rewrite Nat.add_0_r in S2.
        destruct (IH c ltac:(left) c' u (p ++ [k0]) Hcc S1 Hx S2) as (V1 & B1 & B2 & B3 & B4 & B5 & B6 & B7).
        destruct (IHc ltac:(intros z Hz; apply IH; by right) (S k0) rs) as (V2 & C1 & C2 & C3 & C4 & C5 & C6 & C7); try done.
        { intros k z Hk. replace (S k0 + k) with (k0 + S k) by lia. by apply (HN (S k)). }
        exists (V1 ++ V2). cbn [spots_in flat_map]. rewrite !map_app, B1, C1. split; [done|]. split.
        { apply NoDup_app. split; [done|]. split; [|done]. intros x X1 X2. apply (ND2 x); [by apply B3|by apply C3]. }
        split. { intros x Hx'. apply elem_of_app in Hx' as [Hx'|Hx']; apply elem_of_app; [left; by apply B3|right; by apply C3]. }
        split; [by apply Forall_app|]. split; [|split].
        + intros a' HC Hnav n q x Hin. apply elem_of_app in Hin as [Hin|Hin].
          * eapply (B5 a'); [| |exact Hin].
            { intros n' q' u' v' Hin'. apply (HC n' q' u' v'). apply elem_of_app. by left. }
            specialize (Hnav 0 u eq_refl). by rewrite Nat.add_0_r in Hnav.
          * eapply (C5 a'); [| |exact Hin].
            { intros n' q' u' v' Hin'. apply (HC n' q' u' v'). apply elem_of_app. by right. }
            intros k z Hk. replace (S k0 + k) with (k0 + S k) by lia. by apply (Hnav (S k)).
        + intros a' HD. apply Forall_app in HD as [D1 D2]. constructor; [by apply B6|by apply C6].
        + intros n q u' v' d s Hin Ho Hd Hs Es x Hx' Hw.
          assert (forall z, z ∈ flat_map preorder (rsub s) -> z ∈ preorder d) as Hsd.
          { intros z Hz. apply (preorder_subt_incl s); [done|]. rewrite preorder_eq. by right. }
          apply elem_of_cons in Hd as [->|Hd].
          * apply elem_of_app in Hw as [Hw|Hw].
            { apply elem_of_app in Hin as [Hin|Hin]; [by eapply (B7 n q u' v' s)|].
              apply (ND2 (rid s)); [apply preorder_subt; by exists s|]. rewrite Es. apply C3. apply (elem_fst _ n (q, (u', v'))). done. }
            apply (ND2 x); [by apply Hsd|by apply C3].
          * apply elem_of_app in Hw as [Hw|Hw].
            { apply (ND2 x); [by apply B3|]. apply elem_flat_map. exists d. split; [done|by apply Hsd]. }
            apply elem_of_app in Hin as [Hin|Hin]; [|by eapply (C7 n q u' v' d s)].
            apply (ND2 (rid s)); [rewrite Es; apply B3; by apply (elem_fst _ n (q, (u', v')))|].
            apply elem_flat_map. exists d. split; [done|]. apply preorder_subt. by exists s. }
    exists (w0 :: W). cbn [map]. rewrite A1. split; [done|]. split.
    { constructor; [|done]. intros Hin. by apply Hni, A3. }
    split. { intros x Hx. rewrite preorder_eq. apply elem_of_cons in Hx as [->|Hx]; [left|right; by apply A3]. }
    split; [by constructor|]. split; [|split].
    - intros a' HC Hn' n q x Hin. apply elem_of_cons in Hin as [[= -> -> ->]|Hin]; [done|].
      eapply (A5 a'); [| |exact Hin].
      { intros n' q' u' v' Hin'. apply (HC n' q' u' v'). by right. }
      intros k c Hk. apply (navigate_slot_snoc _ _ _ (rid r)); [done|].
      rewrite (HC (rid r) p (HElem tag ns l cs) (HElem tag ns l' cs')); [|left|done]. rewrite Hc. cbn [Nat.add]. by rewrite list_lookup_fmap, Hk.
    - intros a' HD. apply Forall_cons in HD as [D0 HD]. unfold w0 in D0. cbn [done_at hopaque] in D0. rewrite Eo in D0. destruct D0 as [D0 D1].
      apply holds_elem. split; [done|]. rewrite D1, Hc. by apply A6.
    - intros n q u v s Hin Ho Hs Es x Hx Hw. apply elem_of_cons in Hin as [[= -> -> -> ->]|Hin]; [cbn [hopaque] in Ho; congruence|].
      assert (n ∈ flat_map preorder (rsub r)) as Hn' by (apply A3; by apply (elem_fst _ n (q, (u, v)))).
      apply elem_flat_map in Hn' as (c & Hc' & Hn'). apply preorder_subt in Hn' as (s' & Hs' & Es').
      assert (s' = s) as ->.
      { eapply (subt_rid_inj r); [by eapply is_tree_nodup|eapply subt_trans; [exact Hs'|by apply subt_child]|done|congruence]. }
      apply elem_of_cons in Hw as [->|Hw]; [|by eapply (A7 n q u v c s)].
      apply Hni. apply elem_flat_map. exists c. split; [done|]. apply (preorder_subt_incl s); [done|]. rewrite preorder_eq. by right.
  Qed.

  (** What is there while the edits [todo] are still to be made. *)
  Definition spot_at (a : arena dnode) (todo : list (path * edit)) (w : nat * (path * (htree * htree))) : Prop :=
    let '(n, (p, (u, v))) := w in
    match u, v with
    | HText s, HText s' =>
        ((p, EText s') ∈ todo -> node_kind a n = Some (NText s)) /\
        ((p, EText s') ∉ todo -> node_kind a n = Some (NText s')) /\ children a n = []
    | HComment s, HComment s' =>
        ((p, EText s') ∈ todo -> node_kind a n = Some (NComment s)) /\
        ((p, EText s') ∉ todo -> node_kind a n = Some (NComment s')) /\ children a n = []
    | HElem tag ns l cs, HElem _ _ l' cs' =>
        ((p, EAttrs l l') ∈ todo -> data a n = Some (mkD (NElem tag l) ns)) /\
        ((p, EAttrs l l') ∉ todo -> data a n = Some (mkD (NElem tag l') ns)) /\
        (is_opaque_props l = false -> children a n = children a0 n) /\
        (is_opaque_props l = true -> (p, EContent cs') ∉ todo ->
           holds_list a cs' (children a n) /\
           ((forall i, i ∈ children a n -> length a0 <= i) \/ children a n = children a0 n))
    | _, _ => False
    end.

  Variable r : rose.
  Hypothesis HT : is_tree a0 r.
  Variable W : list (nat * (path * (htree * htree))).
  Hypothesis WND : NoDup (map fst W).
  Hypothesis WIN : forall x, x ∈ map fst W -> x ∈ preorder r.
  Hypothesis WOK : Forall node_ok W.
  Hypothesis WNAV : forall a', (forall n q u v, (n, (q, (u, v))) ∈ W -> hopaque u = false -> children a' n = children a0 n) ->
    forall n q x, (n, (q, x)) ∈ W -> navigate_slot_path a' sl q = Val n.
  Hypothesis WOP : forall n q u v s, (n, (q, (u, v))) ∈ W -> hopaque u = true -> subt s r -> rid s = n ->
         forall x, x ∈ flat_map preorder (rsub s) -> x ∉ map fst W.

  Record inv (a : arena dnode) (todo : list (path * edit)) : Prop := {
    iv_wf : wf a;
    iv_len : length a0 <= length a;
    iv_fresh : forall j c, length a0 <= j -> c ∈ children a j -> length a0 <= c;
    iv_rest : forall j, j < length a0 -> j ∉ map fst W -> data a j = data a0 j /\ children a j = children a0 j;
    iv_spots : forall w, w ∈ W -> spot_at a todo w
  }.

  Record changed (a a' : arena dnode) (n : nat) : Prop := {
    ch_wf : wf a';
    ch_len : length a <= length a';
    ch_fresh : forall j c, length a0 <= j -> c ∈ children a' j -> length a0 <= c;
    ch_same : forall j, j < length a -> j <> n -> data a' j = data a j /\ children a' j = children a j
  }.

  Lemma W_lt n x : (n, x) ∈ W -> n < length a0.
  Proof.
    intros Hin. destruct x as [p [u v]]. rewrite Forall_forall in WOK. destruct (WOK _ Hin) as (Hh & _).
    destruct (tdata_of_holds _ _ _ Hh) as (d & Hd & _). by eapply data_lt.
  Qed.
  Lemma W_path n n' p x x' : (n, (p, x)) ∈ W -> (n', (p, x')) ∈ W -> n = n' /\ x = x'.
  Proof.
    intros H1 H2. rewrite Forall_forall in WOK. pose proof (WOK _ H1) as K1. pose proof (WOK _ H2) as K2.
    destruct x as [u v], x' as [u' v']. destruct K1 as (_ & _ & K1), K2 as (_ & _ & K2). rewrite K1 in K2. injection K2 as ->.
    split; [done|]. pose proof (nodup_fst_inj _ _ _ _ WND H1 H2) as E. by injection E as -> ->.
  Qed.

  Lemma spot_persist a a' todo n0 : inv a todo -> n0 ∈ map fst W -> changed a a' n0 -> forall w, w ∈ W -> fst w <> n0 ->
    spot_at a' todo w.
  Proof.
    intros [I1 I2 I3 I4 I5] Hn0 [C1 C2 C3 C4] [n [p [u v]]] Hw Hne. cbn [fst] in Hne. pose proof (I5 _ Hw) as HS.
    pose proof (W_lt _ _ Hw) as Hlt. destruct (C4 n ltac:(lia) Hne) as [ED EC].
    assert (node_kind a' n = node_kind a n) as EK by (unfold node_kind; by rewrite ED).
    destruct u as [tag ns l cs|s|s], v as [tag' ns' l' cs'|s'|s']; cbn [spot_at] in *; try done.
    - rewrite ED, EC. destruct HS as (S1 & S2 & S3 & S4). split; [done|]. split; [done|]. split; [done|].
      intros Ho Hd. destruct (S4 Ho Hd) as [S5 S6]. split; [|done]. destruct S6 as [S6|S6].
      + apply (holds_list_agree (fun j => length a0 <= j /\ j < length a) a a'); [| | |done].
        * intros i Hi. split; [by apply S6|]. by eapply wf_child_lt.
        * intros j c [J1 J2] Hc. split; [by eapply I3|by eapply wf_child_lt].
        * intros j [J1 J2]. apply C4; [done|]. intros ->. 
          apply fst_elem in Hn0 as (x & Hn0). apply W_lt in Hn0. lia.
      + rewrite Forall_forall in WOK. destruct (WOK _ Hw) as (_ & _ & _).
        assert (n ∈ preorder r) as Hnr by (apply WIN; by apply (elem_fst _ n (p, (HElem tag ns l cs, HElem tag' ns' l' cs')))).
        apply preorder_subt in Hnr as (s & Hs & Es).
        pose proof (WOP n p _ _ s Hw Ho Hs Es) as HO.
        pose proof (is_tree_subt _ _ _ Hs HT) as Hts.
        assert (forall x, x ∈ flat_map preorder (rsub s) -> x < length a0) as Hlt'.
        { intros x Hx. apply elem_flat_map in Hx as (c & Hc & Hx). eapply (preorder_lt a0); [exact W0| | |exact Hx].
          - by eapply is_tree_sub.
          - eapply wf_child_lt; [exact W0|]. rewrite (is_tree_children _ _ Hts). by apply elem_of_list_fmap_1. }
        apply (holds_list_agree (fun j => j ∈ flat_map preorder (rsub s)) a a'); [| | |done].
        * intros i Hi. rewrite S6, <- Es, (is_tree_children _ _ Hts) in Hi. apply elem_of_list_fmap in Hi as (c & -> & Hc).
          apply elem_flat_map. exists c. split; [done|apply preorder_rid].
        * intros j c Hj Hc. destruct (I4 j (Hlt' j Hj) (HO j Hj)) as [_ E]. rewrite E in Hc.
          apply elem_flat_map in Hj as (d & Hd7 & Hj). apply elem_flat_map. exists d. split; [done|].
          apply preorder_subt in Hj as (z & Hz & <-).
          rewrite (is_tree_children _ _ (is_tree_subt _ _ _ Hz (is_tree_sub _ _ _ Hts Hd7))) in Hc.
          apply elem_of_list_fmap in Hc as (y & -> & Hy). apply (preorder_subt_incl z); [done|]. rewrite preorder_eq. right.
          apply elem_flat_map. exists y. split; [done|apply preorder_rid].
        * intros j Hj. apply C4; [pose proof (Hlt' j Hj); lia|]. intros ->. by apply (HO n0).
    - rewrite EK, EC. done.
    - rewrite EK, EC. done.
  Qed.

  Lemma spot_weaken a e todo w : fst e <> fst (snd w) -> spot_at a (e :: todo) w -> spot_at a todo w.
  Proof.
    destruct w as [n [p [u v]]], e as [q e]. cbn [fst snd]. intros Hne.
    assert (forall e', (p, e') ∈ todo -> (p, e') ∈ (q, e) :: todo) as H1 by (intros; by right).
    assert (forall e', (p, e') ∉ todo -> (p, e') ∉ (q, e) :: todo) as H2.
    { intros e' Hn Hin. apply elem_of_cons in Hin as [[= -> ->]|Hin]; done. }
    destruct u as [tag ns l cs|s|s], v as [tag' ns' l' cs'|s'|s']; cbn [spot_at]; naive_solver.
  Qed.

  Hypothesis PARSE : forall n p u v, (n, (p, (u, v))) ∈ W -> hopaque u = true -> same_bare u v = false ->
    parse (ser_ts false (hchildren v)) = hchildren v.

  Lemma inv_navigate a todo n p x : inv a todo -> (n, (p, x)) ∈ W -> navigate_slot_path a sl p = Val n.
  Proof.
    intros I Hin. apply (WNAV a) with x; [|done]. intros n' q u v Hin' Ho. pose proof (iv_spots _ _ I _ Hin') as HS.
    rewrite Forall_forall in WOK. destruct (WOK _ Hin') as (Hh & HE & _).
    destruct HE; cbn [spot_at hopaque] in *.
    - destruct HS as (_ & _ & ->). by destruct Hh as [_ ->].
    - destruct HS as (_ & _ & ->). by destruct Hh as [_ ->].
    - congruence.
    - by apply HS.
  Qed.

  (** One edit. *)
  Lemma apply_edit e todo p a w : edit_for e p -> e ∉ todo -> w ∈ W -> e ∈ edits (snd w) -> inv a (e :: todo) ->
    exists a', apply_patch parse (a, sl) p = ((a', sl), Val tt) /\ inv a' todo.
  Proof.
    intros HP Hnt Hw He I. destruct w as [n [q [u v]]]. cbn [snd] in He.
    pose proof (inv_navigate a (e :: todo) n q (u, v) I Hw) as Hnav.
    pose proof (W_lt _ _ Hw) as Hlt. pose proof (iv_len _ _ I) as Hlen.
    assert (n ∈ map fst W) as HnW by by apply (elem_fst _ n (q, (u, v))).
    assert (fst e = q) as Eq.
    { unfold edits in He. apply elem_of_app in He as [He|He].
      - unfold own_edits in He. destruct u as [tag ns l cs|s|s], v as [tag' ns' l' cs'|s'|s']; try (by apply elem_of_nil in He).
        + destruct (attrs_eq_dec l l'); [by apply elem_of_nil in He|]. apply elem_of_list_singleton in He as ->. done.
        + destruct (string_dec s s'); [by apply elem_of_nil in He|]. apply elem_of_list_singleton in He as ->. done.
        + destruct (string_dec s s'); [by apply elem_of_nil in He|]. apply elem_of_list_singleton in He as ->. done.
      - unfold content_edits in He. destruct (_ && _); [|by apply elem_of_nil in He]. apply elem_of_list_singleton in He as ->. done. }
    (* what is left to show *)
    assert (forall a', changed a a' n -> spot_at a' todo (n, (q, (u, v))) -> inv a' todo) as HI.
    { intros a' HC HS. split.
      - apply HC.
      - pose proof (ch_len _ _ _ HC). lia.
      - apply HC.
      - intros j Hj HjW. destruct (ch_same _ _ _ HC j) as [-> ->]; [lia|intros ->; done|]. by apply (iv_rest _ _ I).
      - intros [n' [q' x']] Hw'. destruct (decide (n' = n)) as [->|Hne].
        + pose proof (nodup_fst_inj _ _ _ _ WND Hw Hw') as E. by rewrite <- E.
        + apply (spot_weaken a' e todo).
          * cbn [fst snd]. rewrite Eq. intros ->. apply Hne. destruct (W_path _ _ _ _ _ Hw Hw') as [-> _]. done.
          * eapply spot_persist; [exact I|exact HnW|done|done|done]. }
    (* changes of the data of [n] *)
    assert (forall k, changed a (set_kind a n k) n) as HCH.
    { intros k. unfold set_kind. destruct (data a n) as [d|] eqn:Ed.
      - split.
        + apply wf_set_data. apply I.
        + by rewrite length_set_data.
        + intros j c Hj. rewrite children_set_data. by apply (iv_fresh _ _ I).
        + intros j Hj Hn. rewrite children_set_data, data_set_data by lia. by destruct (Nat.eqb_spec j n).
      - split; [apply I|done|apply (iv_fresh _ _ I)|done]. }
    pose proof (iv_spots _ _ I _ Hw) as HS.
    unfold edits in He. apply elem_of_app in He as [He|He].
    - unfold own_edits in He. destruct u as [tag ns l cs|s|s], v as [tag' ns' l' cs'|s'|s']; try (by apply elem_of_nil in He).
      + (* attributes *)
        destruct (attrs_eq_dec l l'); [by apply elem_of_nil in He|]. apply elem_of_list_singleton in He as ->.
        cbn [spot_at] in HS. destruct HS as (S1 & S2 & S3 & S4). pose proof (S1 ltac:(left)) as Hd. unfold edit_for in HP. cbn [fst snd] in HP.
        destruct (apply_update parse sl a q n tag ns l l' p (iv_wf _ _ I) Hnav Hd HP) as (a' & Ea & R & Hd').
        exists a'. split; [done|]. apply HI.
        * split; [apply R|by rewrite (rd_len _ _ _ R)| |].
          { intros j c. rewrite (rd_children _ _ _ R). apply (iv_fresh _ _ I). }
          { intros j Hj Hn. rewrite (rd_children _ _ _ R). split; [|done]. apply R. intros Hin. by apply elem_of_list_singleton in Hin. }
        * cbn [spot_at]. split; [done|]. split; [done|]. rewrite (rd_children _ _ _ R). split; [done|].
          intros Ho Hc. destruct (S4 Ho) as [S5 S6].
          { intros Hin. apply elem_of_cons in Hin as [E|Hin]; [discriminate E|done]. }
          split; [|done].
          (* the content is not [n] *)
          destruct S6 as [S6|S6].
          { apply (holds_list_agree (fun j => length a0 <= j) a a'); [done|apply (iv_fresh _ _ I)| |done].
            intros j Hj. rewrite (rd_children _ _ _ R). split; [|done]. apply R. intros Hin. apply elem_of_list_singleton in Hin as ->. lia. }
          assert (n ∈ preorder r) as Hnr by by apply WIN. apply preorder_subt in Hnr as (s & Hs & Es).
          pose proof (WOP n q _ _ s Hw Ho Hs Es) as HO. pose proof (is_tree_subt _ _ _ Hs HT) as Hts.
          assert (forall x, x ∈ flat_map preorder (rsub s) -> x < length a0) as Hlt'.
          { intros x Hx. apply elem_flat_map in Hx as (c & Hc' & Hx). eapply (preorder_lt a0); [exact W0| | |exact Hx].
            - by eapply is_tree_sub.
            - eapply wf_child_lt; [exact W0|]. rewrite (is_tree_children _ _ Hts). by apply elem_of_list_fmap_1. }
          apply (holds_list_agree (fun j => j ∈ flat_map preorder (rsub s)) a a'); [| | |done].
          { intros i Hi. rewrite S6, <- Es, (is_tree_children _ _ Hts) in Hi. apply elem_of_list_fmap in Hi as (c & -> & Hc').
            apply elem_flat_map. exists c. split; [done|apply preorder_rid]. }
          { intros j c Hj Hc'. destruct (iv_rest _ _ I j (Hlt' j Hj) (HO j Hj)) as [_ E]. rewrite E in Hc'.
            apply elem_flat_map in Hj as (d & Hd2 & Hj). apply elem_flat_map. exists d. split; [done|].
            apply preorder_subt in Hj as (z & Hz & <-).
            rewrite (is_tree_children _ _ (is_tree_subt _ _ _ Hz (is_tree_sub _ _ _ Hts Hd2))) in Hc'.
            apply elem_of_list_fmap in Hc' as (y & -> & Hy). apply (preorder_subt_incl z); [done|]. rewrite preorder_eq. right.
            apply elem_flat_map. exists y. split; [done|apply preorder_rid]. }
          intros j Hj. rewrite (rd_children _ _ _ R). split; [|done]. apply R. intros Hin. apply elem_of_list_singleton in Hin as ->.
          by apply (HO n).
      + (* text *)
        destruct (string_dec s s'); [by apply elem_of_nil in He|]. apply elem_of_list_singleton in He as ->.
        cbn [spot_at] in HS. destruct HS as (S1 & S2 & S3). pose proof (S1 ltac:(left)) as Hk. unfold edit_for in HP. cbn [fst snd] in HP. subst p.
        exists (set_kind a n (NText s')). split.
        { cbn [apply_patch]. unfold with_node. cbn [fst snd]. rewrite Hnav. by rewrite Hk. }
        apply HI; [apply HCH|]. cbn [spot_at]. unfold set_kind, node_kind in *. destruct (data a n) as [d|] eqn:Ed; [|done].
        rewrite data_set_data, Nat.eqb_refl, children_set_data by lia. done.
      + destruct (string_dec s s'); [by apply elem_of_nil in He|]. apply elem_of_list_singleton in He as ->.
        cbn [spot_at] in HS. destruct HS as (S1 & S2 & S3). pose proof (S1 ltac:(left)) as Hk. unfold edit_for in HP. cbn [fst snd] in HP. subst p.
        exists (set_kind a n (NComment s')). split.
        { cbn [apply_patch]. unfold with_node. cbn [fst snd]. rewrite Hnav. by rewrite Hk. }
        apply HI; [apply HCH|]. cbn [spot_at]. unfold set_kind, node_kind in *. destruct (data a n) as [d|] eqn:Ed; [|done].
        rewrite data_set_data, Nat.eqb_refl, children_set_data by lia. done.
    - (* content *)
      unfold content_edits in He. destruct (hopaque u) eqn:Ho; [|by apply elem_of_nil in He]. cbn [andb] in He.
      destruct (same_bare u v) eqn:Eb; [by apply elem_of_nil in He|]. cbn [negb] in He. apply elem_of_list_singleton in He as ->.
      unfold edit_for in HP. cbn [fst snd] in HP. subst p.
      destruct (apply_content parse a sl q n (ser_ts false (hchildren v)) (iv_wf _ _ I) Hnav ltac:(lia))
        as (a' & Ea & W' & L' & HL & HD & HC & HF & HFF).
      rewrite (PARSE n q u v Hw Ho Eb) in HL.
      exists a'. split; [done|]. apply HI.
      + split; [done|done| |].
        * intros j c Hj Hc. destruct (decide (j < length a)) as [Hja|Hja].
          { rewrite HC in Hc by lia. by eapply (iv_fresh _ _ I). }
          pose proof (HFF j c ltac:(lia) Hc). lia.
        * intros j Hj Hn. split; [by apply HD|by apply HC].
      + destruct u as [tag ns l cs|s|s]; [|done|done]. rewrite Forall_forall in WOK. destruct (WOK _ Hw) as (_ & HE & _).
        cbn [hopaque] in Ho.
        destruct v as [tag' ns' l' cs'|s'|s']; [|by inversion HE|by inversion HE].
        cbn [spot_at hchildren] in *. destruct HS as (S1 & S2 & S3 & S4). rewrite HD by lia. split.
        { intros Hin. apply S1. by right. }
        split. { intros Hin. apply S2. intros Hin'. apply elem_of_cons in Hin' as [E|Hin']; [discriminate E|done]. }
        split; [congruence|]. intros _ _. split; [done|]. left. intros i Hi. pose proof (HF i Hi). lia.
  Qed.

  Lemma apply_edits : forall es ps a, Forall2 edit_for es ps -> NoDup es ->
    (forall e, e ∈ es -> exists w, w ∈ W /\ e ∈ edits (snd w)) -> inv a es ->
    exists a', apply_all parse (a, sl) ps = ((a', sl), Val tt) /\ inv a' [].
  Proof.
    induction es as [|e es IH]; intros ps a HF ND HW I.
    - apply Forall2_nil_inv_l in HF as ->. by exists a.
    - apply Forall2_cons_inv_l in HF as (p & ps' & HP & HF & ->). apply NoDup_cons in ND as [N1 N2].
      destruct (HW e ltac:(left)) as (w & Hw & He).
      destruct (apply_edit e es p a w HP N1 Hw He I) as (a1 & E1 & I1).
      destruct (IH ps' a1 HF N2) as (a2 & E2 & I2); [intros e' He'; apply HW; by right|done|].
      exists a2. split; [|done]. cbn [apply_all]. by rewrite E1.
  Qed.

  Hypothesis KEEP : forall n p u v, (n, (p, (u, v))) ∈ W -> hopaque u = true -> same_bare u v = true -> hchildren u = hchildren v.

  Lemma inv_start es : es ≡ₚ flat_map edits (map snd W) -> inv a0 es.
  Proof.
    intros PE. split; [done|done| |done|].
    - intros j c Hj Hc. apply (wf_parent_lt a0 c j W0) in Hc as Hc2 || idtac. apply (wf_pc a0 W0) in Hc.
      pose proof (wf_parent_lt _ _ _ W0 Hc). lia.
    - intros [n [p [u v]]] Hw. rewrite Forall_forall in WOK. destruct (WOK _ Hw) as (Hh & HE & _).
      assert (forall e, e ∉ es -> e ∉ edits (p, (u, v))) as Hno.
      { intros e Hn Hin. apply Hn. rewrite PE. apply elem_flat_map. exists (p, (u, v)). split; [|done].
        apply elem_of_list_In, in_map_iff. exists (n, (p, (u, v))). split; [done|by apply elem_of_list_In]. }
      unfold edits, own_edits, content_edits in Hno.
      inversion HE; subst; cbn [spot_at].
      + destruct Hh as [Hk Hc]. split; [done|]. split; [|done]. intros Hn. apply Hno in Hn. destruct (string_dec s s') as [->|]; [done|].
        exfalso. apply Hn. left.
      + destruct Hh as [Hk Hc]. split; [done|]. split; [|done]. intros Hn. apply Hno in Hn. destruct (string_dec s s') as [->|]; [done|].
        exfalso. apply Hn. left.
      + apply holds_elem in Hh as [Hd HL]. split; [done|]. split.
        { intros Hn. apply Hno in Hn. destruct (attrs_eq_dec l l') as [->|]; [done|]. exfalso. apply Hn. left. }
        split; [done|]. intros _ Hn. apply Hno in Hn. split; [|by right].
        destruct (same_bare (HElem tag ns l cs) (HElem tag ns l' cs')) eqn:Eb.
        { pose proof (KEEP n p _ _ Hw ltac:(done) Eb) as E. cbn [hchildren] in E. by rewrite <- E. }
        exfalso. apply Hn. apply elem_of_app. right. cbn [hopaque hchildren]. rewrite H1. left.
      + apply holds_elem in Hh as [Hd HL]. split; [done|]. split.
        { intros Hn. apply Hno in Hn. destruct (attrs_eq_dec l l') as [->|]; [done|]. exfalso. apply Hn. left. }
        split; [done|]. congruence.
  Qed.

  Lemma inv_done a : inv a [] -> Forall (done_at a) W.
  Proof.
    intros I. apply Forall_forall. intros [n [p [u v]]] Hw. pose proof (iv_spots _ _ I _ Hw) as HS.
    rewrite Forall_forall in WOK. destruct (WOK _ Hw) as (Hh & HE & _).
    assert (forall e, (p, e) ∉ @nil (path * edit)) as Hnil by (intros e Hin; by apply elem_of_nil in Hin).
    inversion HE; subst; cbn [spot_at done_at hopaque] in *.
    - destruct HS as (_ & S & C). split; [by apply S|done].
    - destruct HS as (_ & S & C). split; [by apply S|done].
    - destruct HS as (_ & S & C & O). split; [by apply S|]. rewrite H1. by apply O.
    - destruct HS as (_ & S & C & O). split; [by apply S|]. rewrite H1. by apply C.
  Qed.
End Apply.

Section Order.
  Variable sl : slots.
  Variable a0 : arena dnode.

  Lemma edits_path w e : e ∈ edits w -> fst e = fst w.
  Proof.
    destruct w as [q [u v]]. unfold edits, own_edits, content_edits. cbn [fst]. intros He. apply elem_of_app in He as [He|He].
    - destruct u as [tag ns l cs|s|s], v as [tag' ns' l' cs'|s'|s']; try (by apply elem_of_nil in He).
      + destruct (attrs_eq_dec l l'); [by apply elem_of_nil in He|]. by apply elem_of_list_singleton in He as ->.
      + destruct (string_dec s s'); [by apply elem_of_nil in He|]. by apply elem_of_list_singleton in He as ->.
      + destruct (string_dec s s'); [by apply elem_of_nil in He|]. by apply elem_of_list_singleton in He as ->.
    - destruct (_ && _); [|by apply elem_of_nil in He]. by apply elem_of_list_singleton in He as ->.
  Qed.
  Lemma edits_nodup w : NoDup (edits w).
  Proof.
    destruct w as [q [u v]]. unfold edits, own_edits, content_edits.
    destruct u as [tag ns l cs|s|s], v as [tag' ns' l' cs'|s'|s']; cbn [hopaque andb app]; try apply NoDup_nil_2;
      repeat match goal with |- context [if ?b then _ else _] => destruct b end; cbn [app];
      try apply NoDup_nil_2; try apply NoDup_singleton.
    apply NoDup_cons. split; [|apply NoDup_singleton]. intros Hin. apply elem_of_list_singleton in Hin. discriminate.
  Qed.

  Lemma edits_all_nodup : forall W, NoDup (map fst W) -> Forall (node_ok sl a0) W -> NoDup (flat_map edits (map snd W)).
  Proof.
    induction W as [|w W IH]; intros ND HO; cbn [map flat_map]; [constructor|].
    pose proof HO as HO0. apply Forall_cons in HO as [O1 O2]. cbn [map] in ND. pose proof ND as ND0. apply NoDup_cons in ND as [N1 N2].
    apply NoDup_app. split; [apply edits_nodup|]. split; [|by apply IH]. intros e H1 H2.
    apply edits_path in H1. apply elem_flat_map in H2 as (x & Hx & H2). apply edits_path in H2.
    apply elem_of_list_In, in_map_iff in Hx as ([n' y] & <- & Hy). apply elem_of_list_In in Hy. cbn [snd] in *.
    destruct w as [n [q [u v]]], y as [q' [u' v']]. cbn [fst snd] in *. subst q q'.
    rewrite Forall_forall in O2. destruct O1 as (_ & _ & K1). destruct (O2 _ Hy) as (_ & _ & K2).
    rewrite K1 in K2. injection K2 as ->. apply N1. by apply (elem_fst _ n' (fst e, (u', v'))).
  Qed.
End Order.

(** The document after the patches. *)
Theorem apply_in_place parse (old : document) ob tag ns oats ts ts' es ps :
  wf (doc_arena old) -> body old = Some ob ->
  data (doc_arena old) ob = Some (mkD (NElem tag oats) ns) ->
  holds_list (doc_arena old) ts (children (doc_arena old) ob) ->
  Forall2 edited ts ts' -> NoDup (keys oats) -> is_opaque_props oats = false ->
  (forall p u v, (p, (u, v)) ∈ spots [0] (HElem tag ns [] ts) (HElem tag ns [] ts') -> hopaque u = true ->
     if same_bare u v then hchildren u = hchildren v else parse (ser_ts false (hchildren v)) = hchildren v) ->
  es ≡ₚ flat_map edits (spots [0] (HElem tag ns [] ts) (HElem tag ns [] ts')) ->
  Forall2 edit_for es ps ->
  exists d, apply_patches parse old ps = (d, Val tt) /\ wf (doc_arena d) /\ body d = Some ob /\
    holds (doc_arena d) (HElem tag ns oats ts') ob /\
    length (doc_arena old) <= length (doc_arena d) /\
    doc_root d = doc_root old /\ doc_doctype d = doc_doctype old /\
    (forall i, i < length (doc_arena old) ->
       children (doc_arena d) i = children (doc_arena old) i \/
       exists t l n, data (doc_arena old) i = Some (mkD (NElem t l) n) /\ is_opaque_props l = true) /\
    (forall i, i < length (doc_arena old) -> ~ above (doc_arena old) ob i ->
       data (doc_arena d) i = data (doc_arena old) i /\ children (doc_arena d) i = children (doc_arena old) i).
Proof.
  intros W0 Hb Hd HL HF N1 O1 HP PE HU. set (a0 := doc_arena old) in *. set (sl := [(0, ob)] : slots).
  destruct (tree_exists a0 ob W0) as (r & Hr & Ht).
  set (h := HElem tag ns oats ts). set (h' := HElem tag ns oats ts').
  assert (spots [0] h h' = ([0], (h, h')) :: spots_in [0] 0 ts ts') as Eh.
  { unfold h, h'. rewrite spots_elem. by rewrite O1. }
  assert (spots [0] (HElem tag ns [] ts) (HElem tag ns [] ts') =
          ([0], (HElem tag ns [] ts, HElem tag ns [] ts')) :: spots_in [0] 0 ts ts') as E0 by (by rewrite spots_elem).
  assert (edited h h') as HE.
  { apply ed_elem; try done. right. unfold alike_names.
    assert (List.filter (fun q => existsb (qname_eqb q) (keys oats)) (keys oats) = keys oats) as ->.
    { assert (forall l, (forall q, q ∈ l -> q ∈ keys oats) -> List.filter (fun q => existsb (qname_eqb q) (keys oats)) l = l) as E; [|by apply E].
      induction l as [|q l IH]; intros Hl; [done|]. cbn [List.filter].
      assert (existsb (qname_eqb q) (keys oats) = true) as ->.
      { apply existsb_exists. exists q. split; [apply elem_of_list_In, Hl; left|]. by apply qname_eqb_eq. }
      f_equal. apply IH. intros q' Hq'. apply Hl. by right. }
    assert (length (keys oats) = length oats) as -> by apply map_length. lia. }
  assert (holds a0 h (rid r)) as Hh by (rewrite Hr; by apply holds_elem).
  destruct (spot_nodes sl a0 W0 h h' r [0] HE Ht Hh) as (W & A1 & A2 & A3 & A4 & A5 & A6 & A7).
  { cbn. by rewrite Hr. }
  assert (forall n p u v, (n, (p, (u, v))) ∈ W -> hopaque u = true ->
     if same_bare u v then hchildren u = hchildren v else parse (ser_ts false (hchildren v)) = hchildren v) as HP'.
  { intros n p u v Hin Ho. apply (HP p u v); [|done].
    assert ((p, (u, v)) ∈ map snd W) as Hin'.
    { apply elem_of_list_In, in_map_iff. exists (n, (p, (u, v))). split; [done|by apply elem_of_list_In]. }
    rewrite A1, Eh in Hin'. rewrite E0. apply elem_of_cons in Hin' as [E|Hin']; [|by right].
    injection E as -> -> ->. unfold h in Ho. cbn [hopaque] in Ho. congruence. }
  assert (es ≡ₚ flat_map edits (map snd W)) as PE'.
  { rewrite PE, A1, Eh, E0. cbn [flat_map]. unfold edits at 1 3. unfold own_edits, content_edits, h, h'.
    cbn [hopaque]. rewrite O1. destruct (attrs_eq_dec oats oats); [|done]. destruct (attrs_eq_dec [] []); [|done]. done. }
  assert (forall a', (forall n q u v, (n, (q, (u, v))) ∈ W -> hopaque u = false -> children a' n = children a0 n) ->
    forall n q x, (n, (q, x)) ∈ W -> navigate_slot_path a' sl q = Val n) as A5'.
  { intros a' HC. apply A5; [done|]. cbn. by rewrite Hr. }
  destruct (apply_edits parse sl a0 W0 r Ht W A2 A3 A4 A5' A7) with (es := es) (ps := ps) (a := a0) as (a' & EA & I).
  { intros n p u v Hin Ho Eb. specialize (HP' n p u v Hin Ho). by rewrite Eb in HP'. }
  { done. }
  { rewrite PE'. by eapply edits_all_nodup. }
  { intros e He. rewrite PE' in He. apply elem_flat_map in He as (x & Hx & He).
    apply elem_of_list_In, in_map_iff in Hx as (w & <- & Hw). exists w. split; [by apply elem_of_list_In|done]. }
  { eapply inv_start; try done. intros n p u v Hin Ho Eb. specialize (HP' n p u v Hin Ho). by rewrite Eb in HP'. }
  assert (holds a' h' ob) as Hh'. { rewrite <- Hr. apply A6. eapply inv_done; done. }
  (* outside the body *)
  assert (forall i, i < length a0 -> ~ above a0 ob i -> data a' i = data a0 i /\ children a' i = children a0 i) as HOUT.
  { intros i Hi Hna. apply (iv_rest _ _ _ _ I); [done|]. intros Hin. apply Hna. apply A3 in Hin. rewrite <- Hr.
    destruct (wf_chain _ W0 (rid r)) as (lr & Hlr).
    destruct (pre_chain _ _ _ _ W0 Ht Hin Hlr) as (l1 & k & Hk & E).
    exists k. split; [done|]. destruct l1 as [|x l1]; [left; by injection E as -> _|].
    right. injection E as _ ->. apply elem_of_app. right. left. }
  assert (ob ∈ children a0 (doc_root old)) as Hbc.
  { unfold body, body_in in Hb. apply find_some in Hb as [Hb _]. by apply elem_of_list_In. }
  assert (parent a0 ob = Some (doc_root old)) as Hbp by by apply (wf_pc a0 W0).
  assert (~ above a0 ob (doc_root old)) as Hroot.
  { intros (k & Hk & Hor). pose proof (chain_up a0 ob (doc_root old) k Hbp Hk) as Hk2. apply chain_not_self in Hk2.
    apply Hk2. destruct Hor as [->|Hor]; [left|by right]. }
  assert (doc_root old < length a0) as Hrl by by eapply wf_parent_lt.
  assert (children a' (doc_root old) = children a0 (doc_root old)) as Ecr by by apply HOUT.
  assert (forall c, c ∈ children a0 (doc_root old) -> has_tag a' "body" c = has_tag a0 "body" c) as Etag.
  { intros c Hc. unfold has_tag, node_kind. destruct (decide (c = ob)) as [->|Hne].
    - apply holds_elem in Hh' as [-> _]. by rewrite Hd.
    - destruct (HOUT c) as [-> _]; [by eapply wf_child_lt| |done]. intros (k & Hk & Hor).
      destruct Hor as [->|Hor]; [done|]. apply (wf_pc a0 W0) in Hc. destruct Hk as [c Hn|c p l Hp Hk]; [by apply elem_of_nil in Hor|].
      rewrite Hc in Hp. injection Hp as <-. apply Hroot. exists l. split; [done|]. apply elem_of_cons in Hor as [->|Hor]; [by left|by right]. }
  assert (body (mkDoc a' (doc_root old) (doc_doctype old)) = Some ob) as Hb2.
  { revert Hb Etag. unfold body, body_in. cbn [doc_arena doc_root]. rewrite Ecr. fold a0.
    generalize (children a0 (doc_root old)). intros k. induction k as [|c k IH]; [done|]. cbn [find]. intros Hb Etag.
    rewrite Etag by left. destruct (has_tag a0 "body" c); [done|]. apply IH; [done|]. intros c' Hc'. apply Etag. by right. }
  assert (forall i, i < length a0 -> children a' i = children a0 i \/
       exists t l n, data a0 i = Some (mkD (NElem t l) n) /\ is_opaque_props l = true) as HCH.
  { intros i Hi. destruct (decide (i ∈ map fst W)) as [Hin|Hin]; [|left; by apply (iv_rest _ _ _ _ I)].
    apply fst_elem in Hin as ([p [u v]] & Hin). pose proof (iv_spots _ _ _ _ I _ Hin) as HS.
    rewrite Forall_forall in A4. destruct (A4 _ Hin) as (Hu & HEu & _).
    inversion HEu; subst; cbn [spot_at] in HS.
    - left. destruct Hu as [_ ->]. by apply HS.
    - left. destruct Hu as [_ ->]. by apply HS.
    - right. apply holds_elem in Hu as [Hu _]. eauto.
    - left. by apply HS. }
  exists (mkDoc a' (doc_root old) (doc_doctype old)). split.
  { destruct ps as [|q qs].
    - cbn in EA. injection EA as <-. unfold a0. cbn [apply_patches]. by destruct old.
    - unfold apply_patches, init_patch_slots, ensure_body. rewrite Hb. cbn [obind]. fold a0. fold sl. by rewrite EA. }
  cbn [doc_arena doc_root doc_doctype]. split_and!; try done; apply I.
Qed.
