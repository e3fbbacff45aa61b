(** Diffing two trees that differ in attributes only (C41). *)
From stdpp Require Import list_numbers.
From Verif Require Import Base Arena Matching Chawathe Dom HtmlDiff
  AttrProofs MatchProofs ArenaProofs TreeProofs DtreeProofs DomTree BuildProofs HashProofs AssembleProofs
  ApplyProofs ShadowProofs SimProofs RoundProofs Instances DiffTotal SelfProofs.

(** ** The specification *)

(** The same tree but for attributes; the marker for opaque elements is on the
    same elements, and opaque content is the same. *)
Inductive restyled : htree -> htree -> Prop :=
| rs_text s : restyled (HText s) (HText s)
| rs_comment s : restyled (HComment s) (HComment s)
| rs_elem tag ns l l' cs cs' :
    NoDup (keys l) -> NoDup (keys l') ->
    is_opaque_props l = is_opaque_props l' ->
    (is_opaque_props l = true -> cs = cs') ->
    Forall2 restyled cs cs' ->
    restyled (HElem tag ns l cs) (HElem tag ns l' cs').

Lemma attrs_eq_dec (l l' : attrs) : {l = l'} + {l <> l'}.
Proof. repeat decide equality. Defined.

(** The elements outside opaque content whose attributes differ, in document
    order: path, old and new attributes. *)
Fixpoint changes_at (p : path) (h h' : htree) {struct h} : list (path * (attrs * attrs)) :=
  match h, h' with
  | HElem _ _ l cs, HElem _ _ l' cs' =>
      (if attrs_eq_dec l l' then [] else [(p, (l, l'))]) ++
      (if is_opaque_props l then []
       else (fix go (k : nat) (cs cs' : list htree) : list (path * (attrs * attrs)) :=
               match cs, cs' with
               | c :: cs1, c' :: cs1' => changes_at (p ++ [k]) c c' ++ go (S k) cs1 cs1'
               | _, _ => []
               end) 0 cs cs')
  | _, _ => []
  end.
Fixpoint changes_in (p : path) (k : nat) (cs cs' : list htree) : list (path * (attrs * attrs)) :=
  match cs, cs' with
  | c :: cs1, c' :: cs1' => changes_at (p ++ [k]) c c' ++ changes_in p (S k) cs1 cs1'
  | _, _ => []
  end.
Lemma changes_at_elem p tag ns l cs tag' ns' l' cs' :
  changes_at p (HElem tag ns l cs) (HElem tag' ns' l' cs') =
  (if attrs_eq_dec l l' then [] else [(p, (l, l'))]) ++
  (if is_opaque_props l then [] else changes_in p 0 cs cs').
Proof.
  cbn [changes_at]. f_equal. destruct (is_opaque_props l); [done|]. generalize 0. revert cs'.
  induction cs as [|c cs IH]; intros [|c' cs'] k; [done|done|done|]. cbn [changes_in]. f_equal. apply IH.
Qed.

(** A patch that turns attributes [l] into [l']. *)
Definition says (l l' : attrs) (ch : list prop_change) : Prop :=
  Forall2 (fun c kv => pc_name c = PAttr (fst kv) /\
             match pc_value c with Some v => v = snd kv | None => attr_get (fst kv) l = Some (snd kv) end) ch l'.
Definition update_for (e : path * (attrs * attrs)) (p : patch) : Prop :=
  exists ch, p = PUpdateProps (fst e) ch /\ says (fst (snd e)) (snd (snd e)) ch.

Lemma says_loop l od y : forall forced, says l y (props_diff_loop l od forced y).
Proof.
  unfold says. induction y as [|[k v] y IH]; intros forced; cbn [props_diff_loop]; constructor; [|apply IH].
  cbn [pc_name pc_value fst snd]. split; [done|].
  destruct (attr_get k l) as [w|] eqn:E; [|by rewrite andb_false_l].
  destruct (String.eqb_spec w v) as [->|_]; [|done]. cbn [andb]. by destruct (negb _).
Qed.
Lemma says_diff l l' : says l l' (props_diff l l').
Proof. apply says_loop. Qed.
Lemma says_rebuild l l' ch : says l l' ch -> rebuild_attrs l ch = l'.
Proof.
  unfold says, rebuild_attrs. induction 1 as [|c [k v] ch l' [Hn Hv] HF IH]; [done|]. cbn [flat_map]. rewrite Hn, IH.
  cbn [fst snd] in *. destruct (pc_value c); [by subst|]. by rewrite Hv.
Qed.

(** ** The edit script *)

Section Script.
  Context {H : Type}.
  Variable heqb : H -> H -> bool.
  Variables ta tb : dtree H hkind attrs string.
  Variables ra rb : rose.
  Hypothesis PA : presents ta ra.
  Hypothesis PB : presents tb rb.

  Definition near_node (x y : nat) : Prop :=
    t_kind ta x = t_kind tb y /\ t_text ta x = t_text tb y /\
    (x ∉ opaque_descendants ta -> t_opaque ta x = t_opaque tb y).

  Hypothesis AL : alike near_node ra rb.
  Hypothesis HH : heqb (t_hash ta (rid ra)) (t_hash tb (rid rb)) = true.
  Hypothesis RP : t_parent ta (rid ra) = None.

  Let m := self_matching ta ra rb.

  Lemma near_root : near_node (rid ra) (rid rb).
  Proof. by inversion AL. Qed.
  Lemma near_opaque x y : near_node x y -> x ∉ opaque_descendants ta -> t_opaque ta x = t_opaque tb y.
  Proof. by intros (_ & _ & HO). Qed.

  Lemma html_matching_near : html_matching heqb ta tb = Val m.
  Proof.
    unfold html_matching, diff_config.
    rewrite (compute_self heqb hkind_eqb props_sim 1 2 ta tb ra rb PA PB near_node near_opaque AL HH).
    - cbn [obind]. rewrite (pr_root _ _ PA). fold m.
      assert (contains_a m (rid ra) = true) as -> by (by eapply self_root). by rewrite andb_false_r.
    - destruct near_root as [-> _]. by apply hkind_eqb_eq.
  Qed.

  Lemma near_bijection : bijection m.
  Proof.
    eapply (compute_matching_bijection heqb hkind_eqb props_sim (mkCfg 1 2 0) ta tb).
    apply (compute_self heqb hkind_eqb props_sim 1 2 ta tb ra rb PA PB near_node near_opaque AL HH).
    destruct near_root as [-> _]. by apply hkind_eqb_eq.
  Qed.

  Lemma near_pairs : m_pairs m = zips (t_opaque ta) ra rb.
  Proof. unfold m, self_matching. by rewrite madds_pairs. Qed.

  Definition update_op (p : nat * nat) : list hop :=
    let '(a, b) := p in
    if props_empty (t_props ta a) && props_empty (t_props tb b) then []
    else
      let ch := props_diff (t_props ta a) (t_props tb b) in
      if any_different ch || Nat.ltb (length ch) (length (t_props ta a))
      then [UpdateProperties a b ch] else [].

  (** Zipped nodes are outside opaque content. *)
  Lemma zips_outside r : forall r', subt r ra -> subt r' rb -> alike near_node r r' ->
    rid r ∉ opaque_descendants ta -> rid r' ∉ opaque_descendants tb ->
    forall x y, (x, y) ∈ zips (t_opaque ta) r r' -> x ∉ opaque_descendants ta /\ y ∉ opaque_descendants tb.
  Proof.
    assert (forall (t : dtree H hkind attrs string) rt u c, presents t rt -> subt u rt -> c ∈ rsub u ->
              rid u ∉ opaque_descendants t -> t_opaque t (rid u) = false -> rid c ∉ opaque_descendants t) as Hstep.
    { intros t rt u c PT Su Hc Hu Ho Hin. apply (opaque_desc_elem t) in Hin as (o & Hoi & Hot & Hd & Hne).
      rewrite (pr_iter _ _ PT) in Hoi. apply preorder_subt in Hoi as (so & Sso & <-).
      rewrite (pr_desc _ _ PT so Sso) in Hd. apply preorder_subt in Hd as (sc & Ssc & Ec).
      assert (subt c rt) as Sc by (eapply subt_trans; [by apply subt_child|done]).
      assert (sc = c) as ->.
      { eapply subt_rid_inj; [apply (pr_nodup _ _ PT)|by eapply subt_trans|done|done]. }
      destruct (elem_of_list_lookup_1 _ _ Hc) as [k Hk].
      destruct (pr_parent _ _ PT u k c Su Hk) as [E1 _].
      assert (exists v, subt v so /\ c ∈ rsub v) as (v & Sv & Hv).
      { destruct (subt_parent so c Ssc) as [->|(v & k' & Sv & Hv)]; [done|]. exists v. split; [done|].
        by eapply elem_of_list_lookup_2. }
      destruct (elem_of_list_lookup_1 _ _ Hv) as [k' Hk'].
      assert (subt v rt) as Svr by (by eapply subt_trans).
      destruct (pr_parent _ _ PT v k' c Svr Hk') as [E2 _]. rewrite E1 in E2. injection E2 as E2.
      assert (u = v) as <- by (eapply subt_rid_inj; [apply (pr_nodup _ _ PT)|done|done|done]).
      destruct (decide (rid u = rid so)) as [E|Hn]; [rewrite E in Ho; congruence|].
      apply Hu. apply (opaque_desc_elem t). exists (rid so). rewrite (pr_iter _ _ PT), (pr_desc _ _ PT so Sso).
      split; [apply preorder_subt; by exists so|]. split; [done|]. split; [|done]. apply preorder_subt. by exists u. }
    induction r as [i rs IH] using rose_ind'. intros r' Sr Sr' HA Ha Hb x y Hin.
    inversion HA as [i' j rs0 rs' HR HF]; subst. rewrite zips_eq in Hin.
    apply elem_of_cons in Hin as [[= -> ->]|Hin]; [done|].
    destruct (t_opaque ta i) eqn:Eo; [by apply elem_of_nil in Hin|].
    apply zipl_elem in Hin as (k & c & c' & Hc & Hc' & Hin).
    assert (c ∈ rs) as Hci by by eapply elem_of_list_lookup_2.
    assert (c' ∈ rs') as Hci' by by eapply elem_of_list_lookup_2.
    pose proof (Forall2_lookup_lr _ _ _ _ _ _ HF Hc Hc') as HAc.
    apply (IH c Hci c'); try done.
    - eapply subt_trans; [|exact Sr]. by apply subt_child.
    - eapply subt_trans; [|exact Sr']. by apply subt_child.
    - by eapply (Hstep ta ra (Rose i rs) c).
    - eapply (Hstep tb rb (Rose j rs') c'); try done. cbn [rid]. rewrite <- (near_opaque _ _ HR); done.
  Qed.

  Lemma near_script : html_edit_script ta tb m = flat_map update_op (zips (t_opaque ta) ra rb).
  Proof.
    unfold html_edit_script, generate_edit_script, edit_script_with.
    rewrite (flat_map_nil (phase2 _ _ _)).
    2:{ intros y Hy. unfold phase2.
        destruct (self_all_b ta tb ra rb PA PB near_node near_opaque AL y Hy) as [Hc|Ho].
        - fold m in Hc. by rewrite Hc.
        - destruct (contains_b m y); [done|]. destruct (t_parent tb y); [|done]. by apply mem_true in Ho as ->. }
    rewrite (flat_map_nil (phase5 _ _)).
    2:{ intros x Hx. rewrite (pr_post _ _ PA) in Hx. apply postorder_elem in Hx. rewrite <- (pr_iter _ _ PA) in Hx.
        unfold phase5. destruct (self_all_a ta ra rb PA near_node AL x Hx) as [Hc|Ho]; [fold m in Hc; by rewrite Hc|].
        destruct (contains_a m x); [done|]. by apply mem_true in Ho as ->. }
    rewrite (flat_map_nil (phase4 _ _ _ _ _)).
    2:{ intros [x y] Hin. unfold phase4. destruct (_ || _); [done|].
        rewrite near_pairs in Hin.
        destruct (zips_subt _ near_node ra rb x y AL Hin) as (s & s' & S1 & S2 & HA & -> & -> & [[-> ->]|Hu]).
        - by rewrite RP.
        - destruct Hu as (u & u' & k & U1 & U2 & U3 & U4 & U5 & U6).
          destruct (pr_parent _ _ PA u k s U1 U3) as [-> ->]. destruct (pr_parent _ _ PB u' k s' U2 U4) as [-> ->].
          assert (get_b m (rid u) = Some (rid u')) as ->.
          { apply (bij_fwd _ near_bijection). by rewrite near_pairs. }
          by rewrite !Nat.eqb_refl. }
    rewrite !app_nil_r, near_pairs.
    pose proof (root_not_opaque_desc ta ra PA) as NA. pose proof (root_not_opaque_desc tb rb PB) as NB.
    rewrite (pr_root _ _ PA) in NA. rewrite (pr_root _ _ PB) in NB.
    pose proof (zips_outside ra rb (subt_refl _) (subt_refl _) AL NA NB) as HO.
    assert (forall x y, (x, y) ∈ zips (t_opaque ta) ra rb -> t_text ta x = t_text tb y) as HT.
    { intros x y Hin. destruct (zips_subt _ near_node ra rb x y AL Hin) as (s & s' & _ & _ & HA & -> & -> & _).
      inversion HA as [? ? ? ? (_ & HT & _)]; subst. done. }
    revert HO HT. generalize (zips (t_opaque ta) ra rb). intros l. induction l as [|[x y] l IH]; intros HO HT; [done|].
    cbn [flat_map]. f_equal.
    - destruct (HO x y) as [H1 H2]; [left|]. apply mem_false in H1, H2. unfold phase1. rewrite H1, H2. cbn [orb].
      rewrite (HT x y) by left. unfold otext_eqb. destruct (t_text tb y); [|done]. by rewrite String.eqb_refl.
    - apply IH; intros x' y' Hin; [apply HO|apply HT]; by right.
  Qed.
End Script.

(** ** Conversion to patches *)

Definition near_data (t : arena tdata) (a : arena dnode) (x y : nat) : Prop :=
  dkind (fun d => d) t x = dkind tdata_of a y /\ dtext (fun d => d) t x = dtext tdata_of a y /\
  is_opaque_props (dprops (fun d => d) t x) = is_opaque_props (dprops tdata_of a y).

Lemma alike_near t a h : forall h' r r', restyled h h' -> is_tree t r -> is_tree a r' ->
  tholds t h (rid r) -> holds a h' (rid r') -> alike (near_data t a) r r'.
Proof.
  induction h as [s|s|tag ns l cs IH] using htree_ind'; intros h' [i rs] [j rs'] HR Ht Ht' Hh Hh';
    apply is_tree_eq in Ht as [Hc Hts]; apply is_tree_eq in Ht' as [Hc' Hts'];
    apply tholds_eq in Hh as [Hd HL];
    destruct (tdata_of_holds _ _ _ Hh') as (d & Hd' & Ed);
    pose proof (holds_children _ _ _ Hh') as HL'; cbn [rid] in *;
    inversion HR as [| |? ? ? l' ? cs' N1 N2 HO HC HF]; subst; cbn [hchildren] in *; constructor.
  1,3,5: unfold near_data, dkind, dtext, dprops; rewrite Hd, Hd', Ed; split_and!; done.
  1,2: inversion HL as [E|]; inversion HL' as [E'|]; rewrite Hc in *; rewrite Hc' in *;
    destruct rs, rs'; done.
  rewrite Hc in HL. rewrite Hc' in HL'. clear Hd Hd' Ed Hc Hc' Hh' HR HC. revert rs rs' Hts Hts' HL HL'.
  induction HF as [|c c' cs cs' Hcc HF IHc]; intros rs rs' Hts Hts' HL HL'; inversion HL as [|? ? ? ? Hx HFx E1 E2];
    inversion HL' as [|? ? ? ? Hx' HF' E1' E2']; subst; destruct rs as [|u rs], rs' as [|u' rs']; try done.
  cbn [map] in *. simplify_eq. constructor.
  - apply (IH c) with c'; try done; [left|apply Hts; left|apply Hts'; left].
  - apply IHc; try done.
    + intros z Hz. apply IH. by right.
    + intros z Hz. apply Hts. by right.
    + intros z Hz. apply Hts'. by right.
Qed.

Section Convert.
  Context {H : Type}.
  Variables ta tb : dtree H hkind attrs string.
  Variables (t : arena tdata) (a : arena dnode) (sh : shadow).
  Hypothesis WT : wf t.
  Hypothesis HPa : t_props ta = dprops (fun d => d) t.
  Hypothesis HPb : t_props tb = dprops tdata_of a.
  Hypothesis HOa : t_opaque ta = (fun i => is_opaque_props (dprops (fun d => d) t i)).
  Hypothesis FS : fresh_shadow t sh.
  Variable ins : list nat.

  Lemma fresh_step r k c p : is_tree t r -> rid r < length t -> rsub r !! k = Some c ->
    c ∈ rsub r -> spath sh (rid r) p -> rid c <> 0 -> spath sh (rid c) (p ++ [k]).
  Proof.
    intros Ht Hlt Hk Hin Hp Hn0. pose proof (is_tree_children _ _ Ht) as Hc.
    assert (children t (rid r) !! k = Some (rid c)) as Hl by (rewrite Hc; by rewrite list_lookup_fmap, Hk).
    assert (rid c ∈ children t (rid r)) as Hcin by by eapply elem_of_list_lookup_2.
    pose proof (wf_child_lt _ _ _ WT Hcin) as Hclt.
    apply (spath_step _ _ (rid r)).
    - rewrite (fs_parent _ _ FS) by done. by apply (wf_pc _ WT).
    - rewrite (fs_super _ _ FS). destruct (decide (rid r = 0)) as [->|Hr0].
      + rewrite (fs_root_parent _ _ FS). intros [= E]. lia.
      + rewrite (fs_parent _ _ FS) by done. intros E. apply (wf_parent_lt _ _ _ WT) in E. lia.
    - by rewrite (fs_children _ _ FS).
    - done.
  Qed.

  Lemma update_op_cases x y l l' : NoDup (keys l) -> NoDup (keys l') ->
    t_props ta x = l -> t_props tb y = l' ->
    update_op ta tb (x, y) = if attrs_eq_dec l l' then [] else [UpdateProperties x y (props_diff l l')].
  Proof.
    intros N1 N2 E1 E2. unfold update_op. rewrite E1, E2. destruct (attrs_eq_dec l l') as [<-|Hn].
    - destruct (_ && _); [done|]. rewrite props_diff_refl_none by done. unfold props_diff.
      rewrite props_diff_loop_length. by rewrite Nat.ltb_irrefl.
    - assert (props_empty l && props_empty l' = false) as -> by (destruct l, l'; done).
      destruct (any_different (props_diff l l')) eqn:E; [done|]. cbn [orb].
      destruct (Nat.ltb_spec (length (props_diff l l')) (length l)) as [|Hle]; [done|].
      exfalso. apply Hn. by apply no_update_equal.
  Qed.

  Lemma convert_loop_app ops1 : forall s ops2,
    convert_loop tb ins s (ops1 ++ ops2) = let! s' := convert_loop tb ins s ops1 in convert_loop tb ins s' ops2.
  Proof.
    induction ops1 as [|op ops1 IH]; intros s ops2; [done|]. cbn [convert_loop app].
    destruct (convert_op tb ins s op); cbn [obind]; [apply IH|done|done|done].
  Qed.

  Lemma convert_near h : forall h' r r' p b2s out, restyled h h' -> is_tree t r -> is_tree a r' ->
    tholds t h (rid r) -> holds a h' (rid r') -> spath sh (rid r) p -> rid r < length t ->
    (forall c, c ∈ rsub r -> 0 ∉ preorder c) ->
    exists ps, convert_loop tb ins (mkCS sh b2s out) (flat_map (update_op ta tb) (zips (t_opaque ta) r r'))
               = Val (mkCS sh b2s (out ++ ps)) /\ Forall2 update_for (changes_at p h h') ps.
  Proof.
    induction h as [s|s|tag ns l cs IH] using htree_ind';
      intros h' [i rs] [j rs'] p b2s out HR Ht Ht' Hh Hh' Hp Hlt H0;
      pose proof Ht as Ht0;
      apply is_tree_eq in Ht as [Hc Hts]; apply is_tree_eq in Ht' as [Hc' Hts'];
      apply tholds_eq in Hh as [Hd HL];
      destruct (tdata_of_holds _ _ _ Hh') as (d & Hd' & Ed);
      pose proof (holds_children _ _ _ Hh') as HL'; cbn [rid] in *;
      inversion HR as [| |? ? ? l' ? cs' N1 N2 HO HC HF]; subst; cbn [hchildren] in *.
    1,2: inversion HL as [E|]; inversion HL' as [E'|]; rewrite Hc in *; rewrite Hc' in *;
      destruct rs, rs'; try done; exists []; rewrite app_nil_r; (split; [|constructor]);
      rewrite zips_eq; destruct (t_opaque ta i); cbn [zipl flat_map];
      unfold update_op; rewrite HPa, HPb; unfold dprops; rewrite Hd, Hd', Ed; done.
    rewrite zips_eq, changes_at_elem. cbn [flat_map]. rewrite convert_loop_app.
    assert (t_props ta i = l) as E1 by (rewrite HPa; unfold dprops; by rewrite Hd).
    assert (t_props tb j = l') as E2 by (rewrite HPb; unfold dprops; by rewrite Hd', Ed).
    rewrite (update_op_cases i j l l') by done.
    assert (exists ps, convert_loop tb ins (mkCS sh b2s out)
              (if attrs_eq_dec l l' then [] else [UpdateProperties i j (props_diff l l')])
              = Val (mkCS sh b2s (out ++ ps)) /\
              Forall2 update_for (if attrs_eq_dec l l' then [] else [(p, (l, l'))]) ps) as (ps1 & -> & F1).
    { destruct (attrs_eq_dec l l').
      - exists []. rewrite app_nil_r. by split; [|constructor].
      - exists [PUpdateProps p (props_diff l l')]. cbn [convert_loop convert_op cs_shadow].
        rewrite (spath_compute sh i p (fs_wf _ _ FS) Hp). cbn [obind]. split; [done|].
        constructor; [|constructor]. exists (props_diff l l'). split; [done|]. apply says_diff. }
    cbn [obind].
    assert (t_opaque ta i = is_opaque_props l) as -> by (rewrite HOa; unfold dprops; by rewrite Hd).
    destruct (is_opaque_props l).
    { exists ps1. cbn [flat_map convert_loop]. by rewrite app_nil_r. }
    assert (exists ps2, convert_loop tb ins (mkCS sh b2s (out ++ ps1)) (flat_map (update_op ta tb) (zipl (t_opaque ta) rs rs'))
              = Val (mkCS sh b2s ((out ++ ps1) ++ ps2)) /\ Forall2 update_for (changes_in p 0 cs cs') ps2) as (ps2 & E & F2).
    { generalize (out ++ ps1). clear ps1 F1 out.
      assert (forall k c, rs !! k = Some c -> spath sh (rid c) (p ++ [0 + k]) /\ rid c < length t /\
                (forall c', c' ∈ rsub c -> 0 ∉ preorder c')) as HS.
      { intros k c Hk. assert (c ∈ rs) as Hin by by eapply elem_of_list_lookup_2. split_and!.
        - apply (fresh_step (Rose i rs)); try done. intros E0. apply (H0 c Hin). rewrite <- E0. apply preorder_rid.
        - eapply (wf_child_lt _ _ _ WT). rewrite Hc. apply elem_of_list_In, in_map. by apply elem_of_list_In.
        - intros c' Hc'' Hx. apply (H0 c Hin). rewrite preorder_eq. right. apply elem_flat_map. by exists c'. }
      rewrite Hc in HL. rewrite Hc' in HL'. revert HS. generalize 0 at 1 3.
      clear Hd Hd' Ed Hc Hc' Hh' HR HC E1 E2 Ht0 H0 Hp.
      revert rs rs' Hts Hts' HL HL'.
      induction HF as [|c c' cs cs' Hcc HF IHc]; intros rs rs' Hts Hts' HL HL'; inversion HL as [|? ? ? ? Hx HFx E1 E2];
        inversion HL' as [|? ? ? ? Hx' HF' E1' E2']; subst; destruct rs as [|u rs], rs' as [|u' rs']; try done.
      - intros k0 HS out. exists []. rewrite app_nil_r. by split; [|constructor].
      - intros k0 HS out. cbn [map] in *. simplify_eq. cbn [zipl changes_in]. rewrite flat_map_app, convert_loop_app.
        destruct (HS 0 u eq_refl) as (S1 & S2 & S3). rewrite Nat.add_0_r in S1.
        destruct (IH c ltac:(left) c' u u' (p ++ [k0]) b2s out) as (ps1 & -> & F1); try done;
          [apply Hts; left|apply Hts'; left|].
        cbn [obind].
        assert (forall z, z ∈ rs -> is_tree t z) as Hts1 by (intros z Hz; apply Hts; by right).
        assert (forall z, z ∈ rs' -> is_tree a z) as Hts1' by (intros z Hz; apply Hts'; by right).
        destruct (IHc ltac:(intros z Hz; apply IH; by right) rs rs' Hts1 Hts1' HFx HF' (S k0)) with (out ++ ps1)
          as (ps2 & -> & F2).
        { intros k z Hk. destruct (HS (S k) z Hk) as (Z1 & Z2). split; [|done].
          by replace (S k0 + k) with (k0 + S k) by lia. }
        exists (ps1 ++ ps2). rewrite app_assoc. split; [done|]. by apply Forall2_app. }
    exists (ps1 ++ ps2). rewrite app_assoc. split; [done|]. by apply Forall2_app.
  Qed.
End Convert.

(** ** Application *)

(** Only data inside [r] changed. *)
Record redecorated (a a' : arena dnode) (l : list nat) : Prop := {
  rd_wf : wf a';
  rd_len : length a' = length a;
  rd_children : forall j, children a' j = children a j;
  rd_parent : forall j, parent a' j = parent a j;
  rd_tag : forall j t, has_tag a' t j = has_tag a t j;
  rd_data : forall j, j ∉ l -> data a' j = data a j
}.
Lemma redecorated_refl a l : wf a -> redecorated a a l.
Proof. intros W. by split. Qed.
Lemma redecorated_trans a a' a'' l l' k : redecorated a a' l -> redecorated a' a'' l' ->
  (forall j, j ∈ l -> j ∈ k) -> (forall j, j ∈ l' -> j ∈ k) -> redecorated a a'' k.
Proof.
  intros [W1 L1 C1 P1 T1 D1] [W2 L2 C2 P2 T2 D2] H1 H2. split; [done|congruence| | | |].
  - intros j. by rewrite C2.
  - intros j. by rewrite P2.
  - intros j t. by rewrite T2.
  - intros j Hj. rewrite D2, D1; [done| |]; intros Hin; apply Hj; auto.
Qed.

Lemma navigate_snoc a p : forall cur n k, navigate a cur p = Val n ->
  navigate a cur (p ++ [k]) = match children a n !! k with Some c => Val c | None => Fail (PathOutOfBounds k) end.
Proof.
  induction p as [|i p IH]; intros cur n k; cbn [navigate app]; [by intros [= ->]|].
  destruct (children a cur !! i); [apply IH|done].
Qed.
Lemma navigate_slot_snoc a sl p n k c : navigate_slot_path a sl p = Val n -> children a n !! k = Some c ->
  navigate_slot_path a sl (p ++ [k]) = Val c.
Proof.
  destruct p as [|s p]; [done|]. cbn [navigate_slot_path app]. destruct (slot_get sl s); [|done].
  intros Hn Hk. rewrite (navigate_snoc _ _ _ _ _ Hn). by rewrite Hk.
Qed.
Lemma navigate_same_children a a' p : (forall j, children a' j = children a j) -> forall cur,
  navigate a' cur p = navigate a cur p.
Proof. intros HC. induction p as [|i p IH]; intros cur; [done|]. cbn [navigate]. rewrite HC. by destruct (_ !! _). Qed.
Lemma navigate_slot_same_children a a' sl p : (forall j, children a' j = children a j) ->
  navigate_slot_path a' sl p = navigate_slot_path a sl p.
Proof.
  intros HC. destruct p as [|s p]; [done|]. cbn [navigate_slot_path]. destruct (slot_get sl s); [|done].
  by apply navigate_same_children.
Qed.

Lemma holds_in_tree a a' r h : is_tree a r -> (forall j, children a' j = children a j) ->
  (forall j, j ∈ preorder r -> data a' j = data a j) -> holds a h (rid r) -> holds a' h (rid r).
Proof.
  intros Ht HC HD. apply (holds_agree (fun j => j ∈ preorder r)).
  - apply preorder_rid.
  - intros j c Hj Hc. apply preorder_subt in Hj as (s & Hs & <-).
    rewrite (is_tree_children _ _ (is_tree_subt _ _ _ Hs Ht)) in Hc. apply elem_of_list_In, in_map_iff in Hc as (u & <- & Hu).
    apply elem_of_list_In in Hu. apply (preorder_subt_incl s); [done|]. rewrite preorder_eq. right.
    apply elem_flat_map. exists u. split; [done|apply preorder_rid].
  - intros j Hj. by rewrite HD.
Qed.
Lemma is_tree_same_children (a a' : arena dnode) r : (forall j, children a' j = children a j) -> is_tree a r -> is_tree a' r.
Proof.
  intros HC. induction r as [i rs IH] using rose_ind'. rewrite !is_tree_eq. intros [H1 H2]. split; [by rewrite HC|].
  intros u Hu. apply IH; [done|by apply H2].
Qed.

Section Apply.
  Variable parse : string -> list htree.
  Variable sl : slots.

  Lemma apply_update a p n tag ns l l' q : wf a -> navigate_slot_path a sl p = Val n ->
    data a n = Some (mkD (NElem tag l) ns) -> update_for (p, (l, l')) q ->
    exists a', apply_patch parse (a, sl) q = ((a', sl), Val tt) /\ redecorated a a' [n] /\
      data a' n = Some (mkD (NElem tag l') ns).
  Proof.
    intros W Hn Hd (ch & -> & Hs). cbn [fst snd] in *. unfold apply_patch, with_node. cbn [fst snd]. rewrite Hn.
    unfold node_kind. rewrite Hd. cbn [d_kind]. rewrite (says_rebuild _ _ _ Hs).
    pose proof (data_lt _ _ _ Hd) as Hlt. unfold set_kind. rewrite Hd. cbn [d_ns].
    exists (set_data a n (mkD (NElem tag l') ns)). split; [done|]. split; [split|].
    - by apply wf_set_data.
    - apply length_set_data.
    - intros j. apply children_set_data.
    - intros j. apply parent_set_data.
    - intros j t. unfold has_tag, node_kind. rewrite data_set_data by done.
      destruct (Nat.eqb_spec j n) as [->|]; [by rewrite Hd|done].
    - intros j Hj. rewrite data_set_data by done. destruct (Nat.eqb_spec j n) as [->|]; [|done].
      exfalso. apply Hj. left.
    - rewrite data_set_data by done. by rewrite Nat.eqb_refl.
  Qed.

  Lemma apply_near h : forall h' r p a ps, restyled h h' -> wf a -> is_tree a r -> holds a h (rid r) ->
    navigate_slot_path a sl p = Val (rid r) -> Forall2 update_for (changes_at p h h') ps ->
    exists a', apply_all parse (a, sl) ps = ((a', sl), Val tt) /\ redecorated a a' (preorder r) /\ holds a' h' (rid r).
  Proof.
    induction h as [s|s|tag ns l cs IH] using htree_ind'; intros h' r p a ps HR W Ht Hh Hn HU;
      inversion HR as [| |? ? ? l' ? cs' N1 N2 HO HC HF]; subst.
    1,2: inversion HU; subst; exists a; (split; [done|]); (split; [by apply redecorated_refl|done]).
    rewrite changes_at_elem in HU. apply Forall2_app_inv_l in HU as (ps1 & ps2 & HU1 & HU2 & ->).
    apply holds_elem in Hh as [Hd HL].
    pose proof (is_tree_nodup _ _ W Ht) as ND. rewrite preorder_eq in ND. apply NoDup_cons in ND as [Hni ND].
    assert (exists a1, apply_all parse (a, sl) ps1 = ((a1, sl), Val tt) /\ redecorated a a1 [rid r] /\
              data a1 (rid r) = Some (mkD (NElem tag l') ns)) as (a1 & E1 & R1 & D1).
    { destruct (attrs_eq_dec l l') as [<-|Hne].
      - inversion HU1; subst. exists a. split; [done|]. split; [by apply redecorated_refl|done].
      - inversion HU1 as [|? q ? ? Hq HU1']; subst. inversion HU1'; subst.
        destruct (apply_update a p (rid r) tag ns l l' q W Hn Hd Hq) as (a1 & E & R & D). exists a1.
        cbn [apply_all]. by rewrite E. }
    rewrite apply_all_app, E1.
    pose proof (is_tree_children _ _ Ht) as Hc.
    assert (forall u, u ∈ rsub r -> is_tree a1 u) as Hts.
    { intros u Hu. apply (is_tree_same_children a); [apply R1|]. by eapply is_tree_sub. }
    assert (holds_list a1 cs (map rid (rsub r))) as HL1.
    { rewrite Hc in HL. unfold holds_list in *.
      assert (forall u, u ∈ rsub r -> forall h, holds a h (rid u) -> holds a1 h (rid u)) as Hk.
      { intros u Hu h0. apply holds_in_tree; [by eapply is_tree_sub|apply R1|]. intros j Hj. apply R1.
        intros Hin. apply elem_of_list_singleton in Hin as ->. apply Hni. apply elem_flat_map. by exists u. }
      revert HL Hk. clear. generalize (rsub r). intros rs HL Hk. remember (map rid rs) as is eqn:Ei.
      revert rs Ei Hk. induction HL as [|c i cs is Hci HL IHl]; intros [|u rs]; cbn [map]; try done; intros Ei Hk; constructor.
      - injection Ei as -> Ei. apply Hk; [left|done].
      - injection Ei as -> Ei. apply (IHl rs Ei). intros u' Hu'. apply Hk. by right. }
    assert (exists a2, apply_all parse (a1, sl) ps2 = ((a2, sl), Val tt) /\
              redecorated a1 a2 (flat_map preorder (rsub r)) /\ holds_list a2 cs' (map rid (rsub r))) as (a2 & E2 & R2 & HL2).
    { destruct (is_opaque_props l) eqn:Eo.
      { rewrite <- (HC eq_refl). inversion HU2; subst. exists a1. split; [done|]. split; [|done].
        apply redecorated_refl. apply R1. }
      assert (navigate_slot_path a1 sl p = Val (rid r)) as Hn1.
      { rewrite (navigate_slot_same_children a); [done|apply R1]. }
      assert (forall k u, rsub r !! k = Some u -> navigate_slot_path a1 sl (p ++ [0 + k]) = Val (rid u)) as HN.
      { intros k u Hk. apply (navigate_slot_snoc _ _ _ (rid r)); [done|]. rewrite (rd_children _ _ _ R1), Hc.
        cbn [Nat.add]. by rewrite list_lookup_fmap, Hk. }
      assert (wf a1) as W1 by apply R1.
      clear E1 R1 D1 HU1 Hc Ht HL Hd Hn Hni HR HC HO N1 N2 Hn1 W.
      revert HU2 HN. generalize 0 at 1 2. revert ps2 HL1 Hts ND. generalize (rsub r). clear r.
      clear ps1. revert a1 W1.
      induction HF as [|c c' cs cs' Hcc HF IHc]; intros a1 W1 rs ps2 HL1 Hts ND k0 HU HN;
        destruct rs as [|u rs]; cbn [map] in *; try by inversion HL1.
      - inversion HU; subst. exists a1. split; [done|]. split; [by apply redecorated_refl|constructor].
      - cbn [changes_in] in HU. apply Forall2_app_inv_l in HU as (qs1 & qs2 & HU1 & HU2 & ->).
        apply Forall2_cons in HL1 as [Hx HL1].
        cbn [flat_map] in ND. apply NoDup_app in ND as (ND1 & ND2 & ND3).
        pose proof (HN 0 u eq_refl) as Hn0. rewrite Nat.add_0_r in Hn0.
        destruct (IH c ltac:(left) c' u (p ++ [k0]) a1 qs1) as (a2 & E1 & R1 & Hh1); try done; [apply Hts; left|].
        rewrite apply_all_app, E1.
        destruct (IHc ltac:(intros z Hz; apply IH; by right) a2 ltac:(apply R1) rs qs2) with (S k0) as (a3 & E2 & R2 & Hh2).
        + assert (forall u, u ∈ rs -> forall h, holds a1 h (rid u) -> holds a2 h (rid u)) as Hk.
          { intros v Hv h0. apply holds_in_tree; [apply Hts; by right|apply R1|]. intros j Hj. apply R1.
            intros Hin. apply (ND2 j); [done|]. apply elem_flat_map. by exists v. }
          revert HL1 Hk. clear. intros HL Hk. unfold holds_list. remember (map rid rs) as is eqn:Ei.
          revert rs Ei Hk. induction HL as [|c i cs is Hci HL IHl]; intros [|u rs]; cbn [map]; try done; intros Ei Hk; constructor.
          * injection Ei as -> Ei. apply Hk; [left|done].
          * injection Ei as -> Ei. apply (IHl rs Ei). intros u' Hu'. apply Hk. by right.
        + intros v Hv. apply (is_tree_same_children a1); [apply R1|]. apply Hts. by right.
        + done.
        + done.
        + intros k v Hk. rewrite (navigate_slot_same_children a1); [|apply R1].
          replace (S k0 + k) with (k0 + S k) by lia. by apply (HN (S k)).
        + exists a3. split; [done|]. split.
          * eapply redecorated_trans; [exact R1|exact R2| |]; intros j Hj; cbn [flat_map]; apply elem_of_app; [by left|by right].
          * constructor; [|done]. apply (holds_in_tree a2); [|apply R2| |done].
            { apply (is_tree_same_children a1); [apply R1|]. apply Hts. left. }
            intros j Hj. apply R2. intros Hin. by apply (ND2 j). }
    exists a2. split; [done|]. split.
    - eapply redecorated_trans; [exact R1|exact R2| |]; rewrite preorder_eq; intros j Hj.
      + apply elem_of_list_singleton in Hj as ->. left.
      + by right.
    - apply holds_elem. rewrite (rd_children _ _ _ R2), (rd_children _ _ _ R1), Hc. split; [|done].
      rewrite (rd_data _ _ _ R2); [done|]. done.
  Qed.
End Apply.

(** ** The diff *)

Section Diff.
  Context {H : Type}.
  Variables (heqb : H -> H -> bool) (hcomb : hkind -> option string -> list H -> H) (h0 : H).
  Hypothesis heqb_refl : forall h, heqb h h = true.

  Theorem diff_restyled (new : document) (olda : arena dnode) ob nb tag ns oats nats ts ts' :
    wf olda -> wf (doc_arena new) ->
    data olda ob = Some (mkD (NElem tag oats) ns) ->
    data (doc_arena new) nb = Some (mkD (NElem tag nats) ns) ->
    holds_list olda ts (children olda ob) -> holds_list (doc_arena new) ts' (children (doc_arena new) nb) ->
    Forall2 restyled ts ts' -> NoDup (keys nats) -> is_opaque_props nats = false ->
    exists ps, diff_bodies heqb hcomb h0 new olda ob nb = Val ps /\
      Forall2 update_for (changes_at [0] (HElem tag ns [] ts) (HElem tag ns nats ts')) ps.
  Proof.
    intros WO WN DO DN HO HN HF ND Hop.
    destruct (build_tree_ok olda ob _ ts WO DO HO) as (t & Et & BT).
    destruct (built_tree t _ ts BT) as (ra & Hra & Hta & Hia).
    assert (0 < length t) as L0 by (eapply data_lt; apply BT).
    destruct (mk_dtree_presents hcomb h0 (fun d => d) t ra (bt_wf _ _ _ BT)) as (ta & Ea & PA); [by rewrite Hra|done|].
    destruct (tree_exists (doc_arena new) nb WN) as (rb & Hrb & Htb).
    destruct (mk_dtree_presents hcomb h0 tdata_of (doc_arena new) rb WN) as (tb & Eb & PB).
    { rewrite Hrb. by eapply data_lt. } { done. }
    assert (forall s, subt s ra -> t_hash ta (rid s) = rhash hcomb (fun d => d) t s) as HA1.
    { intros s Hs. eapply (mk_dtree_hash hcomb h0 (fun d => d) t ra); try done; [apply BT|by rewrite Hra]. }
    assert (forall s, subt s rb -> t_hash tb (rid s) = rhash hcomb tdata_of (doc_arena new) s) as HB1.
    { intros s Hs. eapply (mk_dtree_hash hcomb h0 tdata_of (doc_arena new) rb); try done. rewrite Hrb. by eapply data_lt. }
    rewrite Hra in Ea. rewrite Hrb in Eb.
    destruct (mk_dtree_fields _ _ _ _ _ _ Ea) as (A1 & A2 & A3 & A4 & A5 & A6 & A7 & A8 & A9).
    destruct (mk_dtree_fields _ _ _ _ _ _ Eb) as (B1 & B2 & B3 & B4 & B5 & B6 & B7 & B8 & B9).
    set (h := HElem tag ns [] ts). set (h' := HElem tag ns nats ts').
    assert (restyled h h') as HR. { constructor; [constructor|done|by rewrite Hop|done|done]. }
    assert (tholds t h (rid ra)) as Hh.
    { apply tholds_eq. rewrite Hra. split; [apply BT|apply (bt_holds _ _ _ BT)]. }
    assert (holds (doc_arena new) h' (rid rb)) as Hh' by (apply holds_elem; by rewrite Hrb).
    assert (alike (near_node ta tb) ra rb) as AL.
    { eapply alike_mono; [|by eapply alike_near]. intros x y (R1 & R2 & R3). unfold near_node.
      rewrite A2, A4, A9, B2, B4, B9. done. }
    assert (forall s s', subt s ra -> subt s' rb -> alike (near_node ta tb) s s' ->
              heqb (t_hash ta (rid s)) (t_hash tb (rid s')) = true) as HEQ.
    { intros s s' Hs Hs' HA. rewrite HA1, HB1 by done. rewrite (alike_rhash hcomb t (doc_arena new) s s'); [apply heqb_refl|].
      eapply alike_mono; [|exact HA]. intros x y (R1 & R2 & _). rewrite A2, A4, B2, B4 in *. done. }
    assert (heqb (t_hash ta (rid ra)) (t_hash tb (rid rb)) = true) as HH by (apply HEQ; try done; constructor).
    unfold diff_bodies. rewrite Et. cbn [obind]. rewrite Ea. cbn [obind]. rewrite Eb. cbn [obind].
    rewrite (html_matching_near heqb ta tb ra rb PA PB AL HH). cbn [obind].
    rewrite opaque_contents_nil.
    2:{ intros x y Hin. unfold self_matching in Hin. rewrite madds_pairs in Hin. cbn [m_pairs m_empty app] in Hin.
        destruct (zips_subt _ _ ra rb x y AL Hin) as (s & s' & S1 & S2 & S3 & -> & -> & _). by apply HEQ. }
    cbn [obind].
    rewrite (near_script heqb ta tb ra rb PA PB AL HH).
    2:{ rewrite A5, Hra. apply BT. }
    destruct (shadow_new_full t (bt_wf _ _ _ BT) L0 (bt_root_parent _ _ _ BT)) as (sh & Esh & FS).
    unfold convert_ops. rewrite Esh. cbn [obind].
    edestruct (convert_near ta tb t (doc_arena new) sh (bt_wf _ _ _ BT) A3 B3 A9 FS) with
      (h := h) (h' := h') (r := ra) (r' := rb) (p := [0]) as (ps & -> & FU); try done.
    - rewrite Hra. apply (spath_root _ 0 (S (length t)) 0); [by apply fs_root_parent|].
      by rewrite (fs_super _ _ FS), (fs_top _ _ FS).
    - by rewrite Hra.
    - intros c Hc H0. pose proof (pr_nodup _ _ PA) as NDp. rewrite preorder_eq in NDp. apply NoDup_cons in NDp as [NDp _].
      rewrite Hra in NDp. apply NDp. apply elem_flat_map. by exists c.
    - cbn [obind cs_out app]. by exists ps.
  Qed.
End Diff.

(** Applying it. *)
Theorem apply_restyled parse (old : document) ob tag ns oats nats ts ts' ps :
  wf (doc_arena old) -> body old = Some ob ->
  data (doc_arena old) ob = Some (mkD (NElem tag oats) ns) ->
  holds_list (doc_arena old) ts (children (doc_arena old) ob) ->
  Forall2 restyled ts ts' -> NoDup (keys oats) -> NoDup (keys nats) ->
  is_opaque_props oats = false -> is_opaque_props nats = false ->
  Forall2 update_for (changes_at [0] (HElem tag ns [] ts) (HElem tag ns nats ts')) ps ->
  exists d r, apply_patches parse old ps = (d, Val tt) /\ body d = Some ob /\ rid r = ob /\ is_tree (doc_arena old) r /\
    redecorated (doc_arena old) (doc_arena d) (preorder r) /\
    doc_root d = doc_root old /\ doc_doctype d = doc_doctype old /\
    holds (doc_arena d) (HElem tag ns (match nats with [] => oats | _ => nats end) ts') ob.
Proof.
  intros W Hb Hd HL HF N1 N2 O1 O2 HU.
  destruct (tree_exists (doc_arena old) ob W) as (r & Hr & Ht).
  rewrite changes_at_elem in HU. apply Forall2_app_inv_l in HU as (ps1 & ps2 & HU1 & HU2 & ->).
  set (sl := [(0, ob)] : slots).
  set (l := match nats with [] => oats | _ => nats end).
  assert (exists a1, apply_all parse (doc_arena old, sl) ps1 = ((a1, sl), Val tt) /\
            redecorated (doc_arena old) a1 [ob] /\ data a1 ob = Some (mkD (NElem tag l) ns)) as (a1 & E1 & R1 & D1).
  { destruct (attrs_eq_dec [] nats) as [<-|Hn].
    - inversion HU1; subst. exists (doc_arena old). split; [done|]. split; [by apply redecorated_refl|done].
    - apply Forall2_cons_inv_l in HU1 as (q & qs & Hq & HU1' & ->). apply Forall2_nil_inv_l in HU1' as ->.
      destruct (apply_update parse sl (doc_arena old) [0] ob tag ns oats nats q) as (a1 & E & R & D); try done.
      { destruct Hq as (ch & -> & Hs). exists ch. split; [done|]. cbn [fst snd] in *. unfold says in *.
        eapply Forall2_impl; [exact Hs|]. intros c kv [C1 C2]. split; [done|]. by destruct (pc_value c). }
      exists a1. cbn [apply_all]. rewrite E. split; [done|]. split; [done|]. unfold l. by destruct nats. }
  assert (holds a1 (HElem tag ns l ts) ob) as Hh1.
  { apply holds_elem. split; [done|]. rewrite (rd_children _ _ _ R1).
    apply (holds_list_agree (fun j => j ∈ flat_map preorder (rsub r)) (doc_arena old)); [| | |done].
    - intros i Hi. rewrite <- Hr, (is_tree_children _ _ Ht) in Hi. apply elem_of_list_In, in_map_iff in Hi as (u & <- & Hu).
      apply elem_of_list_In in Hu. apply elem_flat_map. exists u. split; [done|apply preorder_rid].
    - intros j c Hj Hc. apply elem_flat_map in Hj as (u & Hu & Hj). apply elem_flat_map. exists u. split; [done|].
      apply preorder_subt in Hj as (s & Hs & <-). pose proof (is_tree_sub _ _ _ Ht Hu) as Htu.
      rewrite (is_tree_children _ _ (is_tree_subt _ _ _ Hs Htu)) in Hc.
      apply elem_of_list_In, in_map_iff in Hc as (v & <- & Hv). apply elem_of_list_In in Hv.
      apply (preorder_subt_incl s); [done|]. rewrite preorder_eq. right. apply elem_flat_map.
      exists v. split; [done|apply preorder_rid].
    - intros j Hj. rewrite (rd_children _ _ _ R1). split; [|done]. apply R1. intros Hin.
      apply elem_of_list_singleton in Hin as ->. pose proof (is_tree_nodup _ _ W Ht) as ND. rewrite preorder_eq in ND.
      apply NoDup_cons in ND as [ND _]. rewrite Hr in ND. done. }
  destruct (apply_near parse sl (HElem tag ns l ts) (HElem tag ns l ts') r [0] a1 ps2) as (a2 & E2 & R2 & Hh2).
  - assert (is_opaque_props l = false) as Hol by (unfold l; by destruct nats).
    constructor; [| |done|by rewrite Hol|done]; unfold l; by destruct nats.
  - apply R1.
  - apply (is_tree_same_children (doc_arena old)); [apply R1|done].
  - by rewrite Hr.
  - cbn. by rewrite Hr.
  - rewrite changes_at_elem. destruct (attrs_eq_dec l l); [|done]. cbn [app].
    assert (is_opaque_props l = false) as -> by (unfold l; by destruct nats). done.
  - rewrite Hr in Hh2.
    assert (redecorated (doc_arena old) a2 (preorder r)) as R.
    { eapply redecorated_trans; [exact R1|exact R2| |done]. intros j Hj. apply elem_of_list_singleton in Hj as ->.
      rewrite <- Hr. apply preorder_rid. }
    assert (body (mkDoc a2 (doc_root old) (doc_doctype old)) = Some ob) as Hb2.
    { revert Hb. unfold body, body_in. cbn [doc_arena doc_root]. rewrite (rd_children _ _ _ R).
      generalize (children (doc_arena old) (doc_root old)). intros k. induction k as [|c k IH]; [done|]. cbn [find].
      rewrite (rd_tag _ _ _ R). destruct (has_tag _ _ c); [done|apply IH]. }
    destruct (ps1 ++ ps2) as [|q qs] eqn:Eps.
    + assert (ps1 = [] /\ ps2 = []) as [-> ->] by by apply app_eq_nil in Eps.
      cbn in E1, E2. injection E1 as <-. injection E2 as <-.
      exists old, r. split; [done|]. split_and!; done.
    + exists (mkDoc a2 (doc_root old) (doc_doctype old)), r. unfold apply_patches, init_patch_slots, ensure_body.
      rewrite Hb. cbn [obind]. fold sl. rewrite <- Eps. rewrite apply_all_app, E1, E2. split; [done|].
      split_and!; done.
Qed.
