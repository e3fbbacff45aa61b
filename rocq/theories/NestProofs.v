(** Ways to see that a script never moves a node below itself, and the whole
    [diff] on documents with a body. *)
From stdpp Require Import list_numbers relations.
From Verif Require Import Base Arena Matching Chawathe Dom HtmlDiff
  AttrProofs MatchProofs ArenaProofs ArenaOps TreeProofs DtreeProofs ScriptProofs DomTree BuildProofs
  ApplyProofs FrameProofs ShadowProofs SimProofs Applier ConvProofs RoundProofs AssembleProofs TotalProofs Instances HashProofs.

(** ** A decision procedure, used in examples *)

Definition name_eqb (a b : nat + nat) : bool :=
  match a, b with
  | inl i, inl j | inr i, inr j => Nat.eqb i j
  | _, _ => false
  end.

Lemma name_eqb_eq a b : name_eqb a b = true <-> a = b.
Proof. destruct a, b; cbn; rewrite ?Nat.eqb_eq; split; congruence. Qed.

(** [x] is not among [n] and its ancestors; [false] if the fuel runs out. *)
Fixpoint not_above (AP : parents) (fuel : nat) (n x : nat + nat) : bool :=
  match fuel with
  | 0 => false
  | S f => negb (name_eqb n x) &&
      match AP n with None => true | Some p => not_above AP f p x end
  end.

Lemma not_above_sound AP fuel : forall n x, not_above AP fuel n x = true -> ~ rtc (edge AP) n x.
Proof.
  induction fuel as [|f IH]; intros n x; cbn; [done|].
  intros [Hn Hp]%andb_true_iff Hr. apply negb_true_iff in Hn.
  assert (n <> x) as Hne. { intros ->. rewrite (proj2 (name_eqb_eq x x) eq_refl) in Hn. done. }
  inversion Hr as [|? p ? E Hr']; subst; [done|]. unfold edge in E. rewrite E in Hp.
  by apply (IH p x).
Qed.

Fixpoint swap_freeb (fuel : nat) (m : matching) (AP : parents) (ops : list hop) : bool :=
  match ops with
  | [] => true
  | Move x _ py _ :: ops' =>
      not_above AP fuel (img m py) (inl x) && swap_freeb fuel m (set_parent AP x (img m py)) ops'
  | _ :: ops' => swap_freeb fuel m AP ops'
  end.

Lemma swap_freeb_sound fuel m ops : forall AP, swap_freeb fuel m AP ops = true -> swap_free m AP ops.
Proof.
  induction ops as [|op ops IH]; intros AP; [done|]. destruct op; cbn [swap_freeb swap_free]; auto.
  intros [H1 H2]%andb_true_iff. split; [by eapply not_above_sound|auto].
Qed.

(** ** Nesting orders on kinds *)

(** [nests R k h]: [h] can be below a node of kind [k], and so on down. *)
Fixpoint nests (R : hkind -> hkind -> Prop) (k : hkind) (h : htree) : Prop :=
  R k (hkind_of h) /\
  match h with
  | HElem tag ns _ cs =>
      (fix all (l : list htree) : Prop :=
         match l with [] => True | c :: l' => nests R (KElem tag ns) c /\ all l' end) cs
  | _ => True
  end.

Lemma nests_eq R k h : nests R k h <->
  R k (hkind_of h) /\ (forall c, c ∈ hchildren h -> nests R (hkind_of h) c).
Proof.
  destruct h as [tag ns ats cs|sx|sx]; cbn [nests].
  - assert (forall l, (fix all (l : list htree) : Prop :=
         match l with [] => True | c :: l' => nests R (KElem tag ns) c /\ all l' end) l
      <-> forall c, c ∈ l -> nests R (KElem tag ns) c) as HA; [|by rewrite HA].
    induction l as [|c l IH]; [split; [intros _ c Hc; by apply elem_of_nil in Hc|done]|].
    rewrite IH. split.
    + intros [H1 H2] c' Hc. apply elem_of_cons in Hc as [->|Hc]; auto.
    + intros HH. split; [apply HH; left|]. intros c' Hc. apply HH. by right.
  - split; [|by intros []]. intros [? _]. split; [done|]. intros c Hc. by apply elem_of_nil in Hc.
  - split; [|by intros []]. intros [? _]. split; [done|]. intros c Hc. by apply elem_of_nil in Hc.
Qed.

Lemma tholds_nests R t k ts : built t k ts -> (forall h, h ∈ ts -> nests R k h) ->
  forall x p, parent t x = Some p -> R (dkind (fun d => d) t p) (dkind (fun d => d) t x).
Proof.
  intros BT Hts.
  set (D := [mkNode (mkD NDocument NsHtml) None []] : arena dnode). assert (0 < length D) as BL by (simpl; lia).
  assert (forall x, x < length t -> exists hs, tholds_list t hs (children t x) /\
            (forall h, h ∈ hs -> nests R (dkind (fun d => d) t x) h)) as HH.
  { apply (start_ind t k ts D 0 BT BL).
    - exists ts. split; [apply BT|]. unfold dkind. by rewrite (bt_root _ _ _ BT).
    - intros x p i Hx H0 Hp Hpl Hi (hs & Ht & Hall).
      destruct (Forall2_lookup_r _ _ _ i x Ht Hi) as (h & Hh & Htx).
      pose proof (Hall h (elem_of_list_lookup_2 _ _ _ Hh)) as Hph.
      apply tholds_eq in Htx as [Hd Hc]. exists (hchildren h). split; [done|].
      unfold dkind at 1. rewrite Hd. by apply nests_eq in Hph as [_ ?]. }
  intros x p Hp. pose proof (wf_parent_lt _ _ _ (bt_wf _ _ _ BT) Hp) as Hpl.
  apply (wf_pc _ (bt_wf _ _ _ BT)), elem_of_list_lookup in Hp as [i Hi].
  destruct (HH p Hpl) as (hs & Ht & Hall).
  destruct (Forall2_lookup_r _ _ _ i x Ht Hi) as (h & Hh & Htx).
  apply elem_of_list_lookup_2, Hall, nests_eq in Hh as [HR _]. apply tholds_eq in Htx as [Hd _].
  unfold dkind at 2. by rewrite Hd.
Qed.

Lemma holds_dkind (a : arena dnode) h i : holds a h i -> dkind tdata_of a i = hkind_of h.
Proof.
  destruct h as [tg n ats cs|sx|sx]; intros [Hd _]; unfold dkind; [by rewrite Hd| |].
  all: unfold node_kind in Hd; destruct (data a i) as [[k n]|]; [|done]; cbn in Hd.
  all: injection Hd as ->; done.
Qed.

Lemma holds_nests R (a : arena dnode) r : is_tree a r ->
  forall hs, holds_list a hs (children a (rid r)) ->
  (forall h, h ∈ hs -> nests R (dkind tdata_of a (rid r)) h) ->
  forall y c, y ∈ preorder r -> c ∈ children a y -> R (dkind tdata_of a y) (dkind tdata_of a c).
Proof.
  induction r as [i rs IH] using rose_ind'. intros Ht hs Hh Hn y c Hy Hc. cbn [rid] in *.
  apply is_tree_eq in Ht as [Hcs Hts]. cbn [preorder] in Hy. apply elem_of_cons in Hy as [->|Hy].
  - destruct (Forall2_in_r _ _ _ c Hh Hc) as (h & Hin & Hhc). rewrite (holds_dkind _ _ _ Hhc).
    apply Hn, nests_eq in Hin as [? _]. done.
  - apply elem_flat_map in Hy as (u & Hu & Hy).
    destruct (Forall2_in_r _ _ _ (rid u) Hh) as (h & Hin & Hhu).
    { rewrite Hcs. by apply elem_of_list_fmap_1. }
    apply (IH u Hu (Hts u Hu) (hchildren h)) with (y := y); [by apply holds_children| |done|done].
    rewrite (holds_dkind _ _ _ Hhu). by apply Hn, nests_eq in Hin as [_ ?].
Qed.

(** ** Documents in the domain of the round trip *)

Definition bodyk : hkind := KElem "body" NsHtml.

(** [d] has the body [b] with attributes [ats] and content [ts]: attribute names
    are pairwise distinct, no element is opaque, and no [body] element occurs
    inside the body. *)
Record plain_doc (d : document) (b : nat) (ats : attrs) (ts : list htree) : Prop := {
  pd_wf : wf (doc_arena d);
  pd_body : body d = Some b;
  pd_data : data (doc_arena d) b = Some (mkD (NElem "body" ats) NsHtml);
  pd_holds : holds_list (doc_arena d) ts (children (doc_arena d) b);
  pd_plain : forall h, h ∈ ts -> hall (plain bodyk) h;
  pd_keys : NoDup (keys ats);
  pd_opaque : is_opaque_props ats = false
}.

(** ... or one whose opaque elements are empty. *)
Record mild_doc (d : document) (b : nat) (ats : attrs) (ts : list htree) : Prop := {
  md_wf : wf (doc_arena d);
  md_body : body d = Some b;
  md_data : data (doc_arena d) b = Some (mkD (NElem "body" ats) NsHtml);
  md_holds : holds_list (doc_arena d) ts (children (doc_arena d) b);
  md_sound : forall h, h ∈ ts -> hall (sound bodyk) h;
  md_hollow : forall h, h ∈ ts -> hollow is_opaque_props h;
  md_keys : NoDup (keys ats);
  md_opaque : is_opaque_props ats = false
}.

Lemma plain_mild d b ats ts : plain_doc d b ats ts -> mild_doc d b ats ts.
Proof.
  intros []. split; try done.
  - intros h Hh. by apply plain_sound; auto.
  - intros h Hh. by eapply plain_hollow; auto.
Qed.
Coercion plain_mild : plain_doc >-> mild_doc.

Section Whole.
  Context {H : Type}.
  Variables (heqb : H -> H -> bool) (hcomb : hkind -> option string -> list H -> H) (h0 : H).

  (** What [diff] computes before it converts the operations: the built tree of
      the old body, both trees with their hashes, and the matching. *)
  Definition compared (old new : document) (t : arena tdata) (ta tb : dtree H hkind attrs string)
      (m : matching) : Prop :=
    exists ob nb, body old = Some ob /\ body new = Some nb /\
      build_tree (doc_arena old) ob = Val t /\
      mk_dtree hcomb h0 (fun d => d) t 0 = Val ta /\
      mk_dtree hcomb h0 tdata_of (doc_arena new) nb = Val tb /\
      html_matching heqb ta tb = Val m.

  Lemma opaque_contents_none new ta tb pairs :
    (forall x y, (x, y) ∈ pairs -> t_opaque tb y = true -> heqb (t_hash ta x) (t_hash tb y) = true) ->
    opaque_contents heqb new ta tb pairs = Val [].
  Proof.
    induction pairs as [|[x y] l IH]; intros Hn; cbn; [done|].
    assert (opaque_contents heqb new ta tb l = Val []) as El.
    { apply IH. intros x' y' Hin. apply (Hn x' y'). by right. }
    destruct (t_opaque tb y) eqn:E; [|done]. cbn. rewrite (Hn x y) by (done || left). done.
  Qed.

  Lemma init_slots d b : body d = Some b -> init_patch_slots d = Val (d, [(0, b)]).
  Proof. intros Hb. unfold init_patch_slots, ensure_body. by rewrite Hb. Qed.

  Section Pair.
    Variables (old new : document) (ob nb : nat) (oats nats : attrs) (ts us : list htree).
    Hypothesis PO : mild_doc old ob oats ts.
    Hypothesis PN : mild_doc new nb nats us.

    Lemma compared_total : exists t ta tb m, compared old new t ta tb m.
    Proof.
      destruct (build_tree_ok (doc_arena old) ob _ ts (md_wf _ _ _ _ PO) (md_data _ _ _ _ PO) (md_holds _ _ _ _ PO))
        as (t & Et & BT).
      destruct (built_tree t _ ts BT) as (r & Hr & Ht & _).
      destruct (mk_dtree_presents hcomb h0 (fun d => d) t r (bt_wf _ _ _ BT)) as (ta & Ea & PA).
      { rewrite Hr. eapply data_lt. apply BT. } { done. }
      destruct (tree_exists (doc_arena new) nb (md_wf _ _ _ _ PN)) as (r' & Hr' & Ht').
      destruct (mk_dtree_presents hcomb h0 tdata_of (doc_arena new) r' (md_wf _ _ _ _ PN)) as (tb & Eb & PB).
      { rewrite Hr'. eapply data_lt. apply (md_data _ _ _ _ PN). } { done. }
      destruct (compute_matching_total heqb hkind_eqb props_sim diff_config ta tb r PA) as (m & Em).
      rewrite Hr in Ea. rewrite Hr' in Eb.
      eexists t, ta, tb, _, ob, nb. split; [apply PO|]. split; [apply PN|]. split; [done|].
      split; [done|]. split; [done|]. unfold html_matching. rewrite Em. done.
    Qed.

    Lemma compared_faithful t ta tb m : collision_free heqb hcomb -> compared old new t ta tb m ->
      no_collision heqb ta tb.
    Proof.
      intros CF (ob' & nb' & Eo & En & Et & Ea & Eb & _).
      pose proof (md_body _ _ _ _ PO). pose proof (md_body _ _ _ _ PN).
      assert (ob' = ob) as -> by congruence. assert (nb' = nb) as -> by congruence.
      destruct (build_tree_ok (doc_arena old) ob _ ts (md_wf _ _ _ _ PO) (md_data _ _ _ _ PO) (md_holds _ _ _ _ PO))
        as (t' & Et' & BT). assert (t' = t) as -> by congruence.
      destruct (built_tree t _ ts BT) as (r & Hr & Ht & _).
      destruct (tree_exists (doc_arena new) nb (md_wf _ _ _ _ PN)) as (r' & Hr' & Ht').
      apply faithful_no_collision. rewrite <- Hr in Ea. rewrite <- Hr' in Eb.
      eapply (collision_free_faithful heqb hcomb h0 (fun d => d) tdata_of t (doc_arena new) r r'); try done.
      - apply BT.
      - rewrite Hr. eapply data_lt. apply BT.
      - apply PN.
      - rewrite Hr'. eapply data_lt. apply (md_data _ _ _ _ PN).
    Qed.

    Lemma compared_presents t ta tb m : compared old new t ta tb m ->
      exists ra rb, presents ta ra /\ presents tb rb.
    Proof.
      intros (ob' & nb' & Eo & En & Et & Ea & Eb & _).
      pose proof (md_body _ _ _ _ PO). pose proof (md_body _ _ _ _ PN).
      assert (ob' = ob) as -> by congruence. assert (nb' = nb) as -> by congruence.
      destruct (as_presents_a hcomb h0 (doc_arena old) ob ts "body" NsHtml oats
        (md_wf _ _ _ _ PO) (md_data _ _ _ _ PO) (md_holds _ _ _ _ PO) t ta Et Ea) as (ra & PA & _).
      destruct (as_presents_b hcomb h0 (doc_arena new) nb "body" NsHtml nats
        (md_wf _ _ _ _ PN) (md_data _ _ _ _ PN) tb Eb) as (rb & PB & _).
      by exists ra, rb.
    Qed.

    (** If one order on kinds fits the nesting of both documents, nothing is
        moved below itself. *)
    Lemma ranked_compared (r : hkind -> nat) t ta tb m : compared old new t ta tb m ->
      no_collision heqb ta tb ->
      (forall h, h ∈ ts -> nests (fun p k => r p < r k) bodyk h) ->
      (forall h, h ∈ us -> nests (fun p k => r p < r k) bodyk h) ->
      swap_free m (init_parents t tb m) (html_edit_script ta tb m).
    Proof.
      intros (ob' & nb' & Eo & En & Et & Ea & Eb & Em) NC Ro Rn.
      pose proof (md_body _ _ _ _ PO). pose proof (md_body _ _ _ _ PN).
      assert (ob' = ob) as -> by congruence. assert (nb' = nb) as -> by congruence.
      destruct (as_matching heqb hcomb h0 (doc_arena old) (doc_arena new) ob nb ts us "body" NsHtml oats nats
          (md_wf _ _ _ _ PO) (md_wf _ _ _ _ PN) (md_data _ _ _ _ PO) (md_data _ _ _ _ PN)
          (md_holds _ _ _ _ PO) (md_holds _ _ _ _ PN) (md_sound _ _ _ _ PO) (md_sound _ _ _ _ PN)
          (md_hollow _ _ _ _ PO) (md_hollow _ _ _ _ PN) (md_keys _ _ _ _ PN) (md_opaque _ _ _ _ PN) t ta tb m Et Ea Eb Em NC) as (BJ & MR & MI).
      destruct (build_tree_ok (doc_arena old) ob _ ts (md_wf _ _ _ _ PO) (md_data _ _ _ _ PO) (md_holds _ _ _ _ PO))
        as (t' & Et' & BT). assert (t' = t) as -> by congruence.
      destruct (tree_exists (doc_arena new) nb (md_wf _ _ _ _ PN)) as (rb & Hr & Ht).
      destruct (mk_dtree_presents hcomb h0 tdata_of (doc_arena new) rb (md_wf _ _ _ _ PN)) as (tb' & Eb' & PB).
      { rewrite Hr. eapply data_lt. apply (md_data _ _ _ _ PN). } { done. }
      rewrite Hr in Eb'. assert (tb' = tb) as -> by congruence.
      destruct (mk_dtree_fields _ _ _ _ _ _ Ea) as (Ra & Ka & _ & _ & FPa & _).
      destruct (mk_dtree_fields _ _ _ _ _ _ Eb) as (Rb & Kb & _ & _ & FPb & FCb & _).
      assert (forall x p, parent t x = Some p -> r (t_kind ta p) < r (t_kind ta x)) as RA.
      { rewrite Ka. by apply (tholds_nests (fun p k => r p < r k) t _ ts BT). }
      assert (forall y c, y ∈ t_iter tb -> c ∈ t_children tb y -> r (t_kind tb y) < r (t_kind tb c)) as RB.
      { rewrite Kb, FCb, (pr_iter tb rb PB).
        apply (holds_nests (fun p k => r p < r k) _ rb Ht us).
        - rewrite Hr. apply PN.
        - rewrite Hr. unfold dkind at 1. rewrite (md_data _ _ _ _ PN). done. }
      set (rk := fun n => match n with inl x => r (t_kind ta x) | inr y => r (t_kind tb y) end).
      assert (forall y, rk (img m y) = r (t_kind tb y)) as Ri.
      { intros y. unfold img. destruct (get_a m y) as [x|] eqn:Ex; [|done]. cbn.
        apply (get_ab m BJ) in Ex. destruct (MI x y Ex) as (_ & _ & E). by rewrite E. }
      assert (forall y p, y ∈ t_iter tb -> t_parent tb y = Some p -> y <> nb -> r (t_kind tb p) < r (t_kind tb y)) as RBp.
      { intros y p Hy Hp Hne. rewrite <- Rb in Hne.
        destruct (pr_nonroot tb rb PB y Hy Hne) as (q & Hq & Hqi & Hl).
        assert (q = p) as -> by congruence. apply RB; [done|]. by eapply elem_of_list_lookup_2. }
      assert (forall x y py k, Move x y py k ∈ html_edit_script ta tb m ->
        get_b m x = Some y /\ t_parent tb y = Some py) as HM.
      { intros x y py k Hin. apply script_move_inv in Hin. destruct Hin as (Hp & _ & _ & Hpar & _).
        split; [by apply (bij_fwd _ BJ)|done]. }
      assert (forall x y py k, Move x y py k ∈ html_edit_script ta tb m -> x <> 0) as HM0.
      { intros x y py k Hin. apply script_move_inv in Hin. destruct Hin as (_ & _ & _ & _ & _ & pa & Hpa & _).
        rewrite FPa in Hpa. intros ->. rewrite (bt_root_parent _ _ _ BT) in Hpa. done. }
      set (S := fun n : nat + nat => match n with inl _ => True | inr y => y ∈ t_iter tb /\ y <> nb end).
      assert (forall y, y ∈ t_iter tb -> S (img m y)) as HSi.
      { intros y Hy. unfold img. destruct (get_a m y) as [x|] eqn:Ex; [done|]. split; [done|].
        intros ->. apply (get_ab m BJ) in MR. congruence. }
      apply (ranked_swap_free m S rk).
      - intros [x|y] n HS; cbn.
        + destruct (parent t x) as [p|] eqn:Ep; [|done]. intros [= <-]. split; [done|]. by apply RA.
        + destruct HS as [Hy Hne]. destruct (t_parent tb y) as [p|] eqn:Ep; [|done]. intros [= <-].
          split; [|by rewrite Ri; apply RBp].
          rewrite <- Rb in Hne. destruct (pr_nonroot tb rb PB y Hy Hne) as (q & Hq & Hqi & Hl).
          apply HSi. congruence.
      - intros x y py k Hin. pose proof (HM0 _ _ _ _ Hin) as H0x. destruct (HM _ _ _ _ Hin) as [Hm Hp].
        destruct (MI x y Hm) as (_ & Hy & Ek).
        assert (y <> nb) as Hne. { intros ->. apply (get_ab m BJ) in MR, Hm. congruence. }
        split; [|rewrite Ri; cbn; rewrite Ek; by apply RBp].
        rewrite <- Rb in Hne. destruct (pr_nonroot tb rb PB y Hy Hne) as (q & Hq & Hqi & Hl).
        apply HSi. congruence.
    Qed.

    Variable parse_inner : string -> list htree.
    Variables (t : arena tdata) (ta tb : dtree H hkind attrs string) (m : matching).
    Hypothesis CM : compared old new t ta tb m.
    Hypothesis NC : no_collision heqb ta tb.
    Hypothesis SF : swap_free m (init_parents t tb m) (html_edit_script ta tb m).

    (** Matched pairs agree on being opaque. *)
    Definition opaque_agree : Prop := forall x y, get_b m x = Some y -> t_opaque ta x = t_opaque tb y.
    (** No patch replaces the content of an opaque element. *)
    Definition opaque_silent : Prop := forall x y, (x, y) ∈ m_pairs m -> t_opaque tb y = true ->
      heqb (t_hash ta x) (t_hash tb y) = true.

    Lemma compared_matching : bijection m /\ get_b m 0 = Some nb /\
      forall x y, get_b m x = Some y -> x < length t /\ y ∈ t_iter tb /\ t_kind ta x = t_kind tb y.
    Proof using CM NC PO PN.
      destruct CM as (ob' & nb' & Eo & En & Et & Ea & Eb & Em).
      pose proof (md_body _ _ _ _ PO). pose proof (md_body _ _ _ _ PN).
      assert (ob' = ob) as -> by congruence. assert (nb' = nb) as -> by congruence.
      apply (as_matching heqb hcomb h0 (doc_arena old) (doc_arena new) ob nb ts us "body" NsHtml oats nats
          (md_wf _ _ _ _ PO) (md_wf _ _ _ _ PN) (md_data _ _ _ _ PO) (md_data _ _ _ _ PN)
          (md_holds _ _ _ _ PO) (md_holds _ _ _ _ PN) (md_sound _ _ _ _ PO) (md_sound _ _ _ _ PN)
          (md_hollow _ _ _ _ PO) (md_hollow _ _ _ _ PN) (md_keys _ _ _ _ PN) (md_opaque _ _ _ _ PN)
          t ta tb m Et Ea Eb Em NC).
    Qed.

    Lemma agree_silent : (forall k, heqb k k = true) -> opaque_agree -> opaque_silent.
    Proof using CM NC PO PN.
      intros HR AG x y Hin Hoy. destruct compared_matching as (BJ & _ & MI).
      apply (bij_fwd _ BJ) in Hin. pose proof (AG x y Hin) as Hox. rewrite Hoy in Hox.
      destruct (MI x y Hin) as (Hx & Hy & Ek).
      destruct CM as (ob' & nb' & Eo & En & Et & Ea & Eb & Em).
      pose proof (md_body _ _ _ _ PO). pose proof (md_body _ _ _ _ PN).
      assert (ob' = ob) as -> by congruence. assert (nb' = nb) as -> by congruence.
      destruct (as_old hcomb h0 (doc_arena old) ob ts "body" NsHtml oats (md_wf _ _ _ _ PO) (md_data _ _ _ _ PO)
        (md_holds _ _ _ _ PO) (md_sound _ _ _ _ PO) (md_hollow _ _ _ _ PO) t ta Et Ea x Hx) as (Sx & Cx & _).
      destruct (as_new hcomb h0 (doc_arena new) nb us "body" NsHtml nats
          (md_wf _ _ _ _ PN) (md_data _ _ _ _ PN) (md_holds _ _ _ _ PN) (md_sound _ _ _ _ PN)
          (md_hollow _ _ _ _ PN) (md_keys _ _ _ _ PN) (md_opaque _ _ _ _ PN) tb Eb y Hy) as (Sy & Cy & _).
      specialize (Cx Hox). specialize (Cy Hoy).
      destruct (mk_dtree_fields _ _ _ _ _ _ Ea) as (_ & Ka & Pa & Ta & _ & Ca & _ & Ha & Oa).
      destruct (mk_dtree_fields _ _ _ _ _ _ Eb) as (_ & Kb & Pb & Tb & _ & Cb & _ & Hb & Ob).
      assert (t_text ta x = t_text tb y) as Ett.
      { unfold shaped in *. rewrite <- Ek in Sy. destruct (t_kind ta x) eqn:Ekx.
        - destruct Sx as [-> _]. by destruct Sy as [-> _].
        - destruct Sx as [Ep _]. rewrite Oa in Hox. rewrite Pa in Ep. rewrite Ep in Hox. done.
        - destruct Sx as [Ep _]. rewrite Oa in Hox. rewrite Pa in Ep. rewrite Ep in Hox. done. }
      rewrite Ca in Cx. rewrite Cb in Cy.
      assert (t_hash ta x = hcomb (t_kind ta x) (t_text ta x) []) as ->.
      { rewrite Ha, Ka, Ta. unfold tree_fuel. cbn [hash_f]. unfold dkind, dtext.
        rewrite Cx. destruct (data t x) eqn:Ed; [done|]. apply data_ge in Ed || idtac.
        destruct (lookup_lt_is_Some_2 t x Hx) as [n Hn]. unfold data in Ed. by rewrite Hn in Ed. }
      assert (t_hash tb y = hcomb (t_kind tb y) (t_text tb y) []) as ->.
      { rewrite Hb, Kb, Tb. unfold tree_fuel. cbn [hash_f]. unfold dkind, dtext.
        rewrite Cy. destruct (data (doc_arena new) y) eqn:Ed; [done|].
        rewrite Ob in Hoy. unfold dprops in Hoy. by rewrite Ed in Hoy. }
      by rewrite Ek, Ett.
    Qed.

    (** For any program that applies patches and any document it may run on. *)
    Theorem diff_run_gen {OQ : opaques} va okn shw ap (C : arena dnode) (cb : nat) (st0 : pstate) :
      opaque_silent -> applier va okn shw ap ->
      (forall h, h ∈ ts -> hall (okh okn) h) -> (forall h, h ∈ us -> hall (okh okn) h) ->
      (exists tg, okn tg []) -> (exists tg, okn tg nats) ->
      opq (va nats) = false -> (forall h, h ∈ us -> hollow (fun l => opq (va l)) h) ->
      (forall x y, get_b m x = Some y -> x <> 0 -> opq (va (t_props ta x)) = opq (va (t_props tb y))) ->
      wf C -> is_cont C cb ->
      (forall i tag l, node_kind C i = Some (NElem tag l) -> opq l = true -> children C i = []) ->
      shw st0 (C, [(0, cb)]) -> shows_list_v va C ts (children C cb) ->
      (tight = true -> holds_list C ts (children C cb)) ->
      exists ps st' D' sl,
      diff heqb hcomb h0 old new = Val ps /\
      run_all ap st0 ps = (st', Val tt) /\ shw st' (D', sl) /\
      wf D' /\ shows_list_v va D' us (children D' cb) /\
      length ps = length (html_edit_script ta tb m) /\
      (forall p, p ∈ ps -> hits_body p = false) /\ identity t (doc_arena new) nb m C D' cb.
    Proof using CM NC PO PN SF.
      intros SI AO OKO OKN OK0 OK1 QR QN QM WC CE CUT SH CH TI.
      destruct CM as (ob' & nb' & Eo & En & Et & Ea & Eb & Em).
      pose proof (md_body _ _ _ _ PO). pose proof (md_body _ _ _ _ PN).
      assert (ob' = ob) as -> by congruence. assert (nb' = nb) as -> by congruence.
      destruct (assembly heqb hcomb h0 (doc_arena old) (doc_arena new) ob nb ts us "body" NsHtml oats nats
        (md_wf _ _ _ _ PO) (md_wf _ _ _ _ PN) (md_data _ _ _ _ PO) (md_data _ _ _ _ PN)
        (md_holds _ _ _ _ PO) (md_holds _ _ _ _ PN) (md_sound _ _ _ _ PO) (md_sound _ _ _ _ PN)
        (md_hollow _ _ _ _ PO) (md_hollow _ _ _ _ PN) (md_keys _ _ _ _ PN) (md_opaque _ _ _ _ PN)
        t ta tb m Et Ea Eb Em NC SF va okn shw ap C cb st0 WC CE CUT SH CH TI AO OKO OKN OK0 OK1 QR QN QM)
        as (ps & st' & D' & sl & E1 & E2 & S' & W' & Hs & Hl & Hh).
      exists ps, st', D', sl. split; [|by auto].
      unfold diff. rewrite Eo, En. unfold diff_bodies. rewrite Et. cbn [obind]. rewrite Ea. cbn [obind].
      rewrite Eb. cbn [obind]. rewrite Em. cbn [obind].
      rewrite opaque_contents_none by exact SI. cbn [obind]. rewrite E1. done.
    Qed.

    Hypothesis SI : opaque_silent.

    Theorem diff_run_with va okn ap (C : arena dnode) (cb : nat) : applier (OQ := no_opaques) va okn (=) ap ->
      (forall h, h ∈ ts -> hall (okh okn) h) -> (forall h, h ∈ us -> hall (okh okn) h) ->
      (exists tg, okn tg []) -> (exists tg, okn tg nats) ->
      wf C -> (exists tag l, node_kind C cb = Some (NElem tag l)) -> shows_list_v va C ts (children C cb) ->
      exists ps D' sl,
      diff heqb hcomb h0 old new = Val ps /\
      run_all ap (C, [(0, cb)]) ps = ((D', sl), Val tt) /\
      wf D' /\ shows_list_v va D' us (children D' cb) /\
      length ps = length (html_edit_script ta tb m) /\
      (forall p, p ∈ ps -> hits_body p = false) /\ identity t (doc_arena new) nb m C D' cb.
    Proof using CM NC PO PN SF SI.
      intros AO OKO OKN OK0 OK1 WC (tag & l & CE) CH.
      destruct (diff_run_gen (OQ := no_opaques) va okn (=) ap C cb (C, [(0, cb)]))
        as (ps & st' & D' & sl & E1 & E2 & -> & E4); try done.
      - intros h Hh. apply hollow_impl with (op := is_opaque_props); [done|]. by apply (md_hollow _ _ _ _ PN).
      - by exists (NElem tag l).
      - exists ps, D', sl. done.
    Qed.

    Corollary diff_run_on (C : arena dnode) (cb : nat) :
      wf C -> (exists tag l, node_kind C cb = Some (NElem tag l)) -> shows_list C ts (children C cb) ->
      exists ps D' sl,
      diff heqb hcomb h0 old new = Val ps /\
      apply_all parse_inner (C, [(0, cb)]) ps = ((D', sl), Val tt) /\
      wf D' /\ shows_list D' us (children D' cb) /\
      length ps = length (html_edit_script ta tb m) /\
      (forall p, p ∈ ps -> hits_body p = false) /\ identity t (doc_arena new) nb m C D' cb.
    Proof.
      intros WC CE CH.
      assert (forall h, hall (okh (fun _ _ => True)) h) as OK.
      { intros h. induction h as [| |tg ns ats cs IH] using htree_ind'; apply hall_eq; (split; [done|]);
          intros c Hc; [by apply elem_of_nil in Hc|by apply elem_of_nil in Hc|by apply IH]. }
      destruct (diff_run_with (fun l => l) (fun _ _ => True) (apply_patch parse_inner) C cb (native_applier _))
        as (ps & D' & sl & E1 & E2 & E3); auto.
      { by exists ""%string. } { by exists ""%string. }
      exists ps, D', sl. split; [done|]. split; [|done]. by rewrite <- run_all_native.
    Qed.

    Corollary diff_run : exists ps D' sl,
      diff heqb hcomb h0 old new = Val ps /\
      apply_all parse_inner (doc_arena old, [(0, ob)]) ps = ((D', sl), Val tt) /\
      wf D' /\ shows_list D' us (children D' ob) /\
      length ps = length (html_edit_script ta tb m) /\
      (forall p, p ∈ ps -> hits_body p = false) /\ identity t (doc_arena new) nb m (doc_arena old) D' ob.
    Proof.
      apply diff_run_on; [apply PO| |apply holds_shows_list, PO].
      exists "body"%string, oats. unfold node_kind. by rewrite (md_data _ _ _ _ PO).
    Qed.
  End Pair.

  Lemma plain_silent old new ob nb oats nats ts us t ta tb m :
    mild_doc old ob oats ts -> plain_doc new nb nats us ->
    compared old new t ta tb m -> no_collision heqb ta tb -> opaque_silent ta tb m.
  Proof.
    intros PO PN CM NC x y Hin Hoy. exfalso.
    destruct (compared_matching old new ob nb oats nats ts us PO PN t ta tb m CM NC) as (BJ & _ & MI).
    apply (bij_fwd _ BJ) in Hin. destruct (MI x y Hin) as (_ & Hy & _).
    destruct CM as (ob' & nb' & Eo & En & Et & Ea & Eb & Em).
    pose proof (md_body _ _ _ _ PO). pose proof (md_body _ _ _ _ PN).
    assert (ob' = ob) as -> by congruence. assert (nb' = nb) as -> by congruence.
    destruct (as_presents_b hcomb h0 (doc_arena new) nb "body" NsHtml nats
        (md_wf _ _ _ _ PN) (md_data _ _ _ _ PN) tb Eb) as (rb & PB & Er & Ht).
    rewrite (pr_iter tb rb PB) in Hy.
    destruct (mk_dtree_fields _ _ _ _ _ _ Eb) as (_ & _ & _ & _ & _ & _ & _ & _ & O).
    rewrite O in Hoy. unfold dprops in Hoy.
    destruct (decide (y = nb)) as [->|Hne].
    - rewrite (md_data _ _ _ _ PN) in Hoy. change (is_opaque_props nats = true) in Hoy.
      pose proof (pd_opaque _ _ _ _ PN). congruence.
    - destruct (holds_below_list (plain bodyk) (doc_arena new) rb us) with (y := y) as (h & Hh & Hp);
        [done|rewrite Er; apply PN|apply PN|done|by rewrite Er|].
      destruct (tdata_of_holds _ h y Hh) as (d & E1 & E2). rewrite E1, E2 in Hoy.
      apply hall_eq in Hp as [(_ & _ & Ho) _]. unfold hattrs in Ho. congruence.
  Qed.
End Whole.
