(** The diffable trees built from a well-formed arena describe a finite tree;
    traversal order. Properties C04, C05, C28, C29. *)
From Verif Require Import Base Arena Matching Dom HtmlDiff ArenaProofs MatchProofs TreeProofs AttrProofs.

Section MkDtree.
  Context {H D : Type}.
  Variable hcomb : hkind -> option string -> list H -> H.
  Variable h0 : H.
  Variable td : D -> tdata.

  Lemma chain_parent_notin (a : arena D) r p :
    wf a -> is_tree a r -> parent a (rid r) = Some p -> p ∉ preorder r.
  Proof.
    intros W Ht Hp Hin. destruct (wf_chain a W (rid r)) as [l Hl].
    destruct (pre_chain a r p l W Ht Hin Hl) as (l1 & k & Hk & E).
    assert (chain a (rid r) (p :: k)) as Hl' by (by eapply chain_up).
    pose proof (chain_not_self _ _ _ Hl') as Hn. apply Hn. rewrite E.
    apply elem_of_app. right. left.
  Qed.

  Lemma mk_dtree_presents (a : arena D) r :
    wf a -> rid r < length a -> is_tree a r ->
    exists t, mk_dtree hcomb h0 td a (rid r) = Val t /\ presents t r.
  Proof.
    intros W Hr Ht. unfold mk_dtree.
    rewrite descendants_spec by done. rewrite post_order_spec by done. simpl.
    eexists. split; [reflexivity|]. split; simpl.
    - done.
    - by eapply is_tree_nodup.
    - done.
    - done.
    - intros s Hs. by apply is_tree_children, (is_tree_subt a s r).
    - intros s Hs. by rewrite descendants_spec by (try done; by eapply is_tree_subt).
    - intros s Hs. by rewrite height_spec by (try done; by eapply is_tree_subt).
    - intros s k c Hs Hk.
      assert (children a (rid s) !! k = Some (rid c)) as Hc.
      { rewrite is_tree_children by (by eapply is_tree_subt).
        by rewrite list_lookup_fmap, Hk. }
      split; [|by eapply position_spec].
      apply (wf_pc a W). by eapply elem_of_list_lookup_2.
    - intros p Hp. by eapply chain_parent_notin.
  Qed.

  (** The accessors, given that the tree was built. *)
  Lemma mk_dtree_fields (a : arena D) root t :
    mk_dtree hcomb h0 td a root = Val t ->
    t_root t = root /\ t_kind t = dkind td a /\ t_props t = dprops td a /\
    t_text t = dtext td a /\ t_parent t = parent a /\ t_children t = children a /\
    t_position t = position a /\ t_hash t = hash_f hcomb h0 td (tree_fuel a) a /\
    t_opaque t = (fun i => is_opaque_props (dprops td a i)).
  Proof.
    unfold mk_dtree. destruct (descendants a root); [|done]. simpl.
    destruct (post_order a root); [|done]. simpl. intros [= <-]. simpl. auto 10.
  Qed.
End MkDtree.

(** ** Traversal order *)

(** [x] occurs before [y] in [l]. *)
Definition before {A} (l : list A) (x y : A) : Prop :=
  exists l1 l2 l3, l = l1 ++ x :: l2 ++ y :: l3.

Lemma before_app_l {A} (l k : list A) x y : before l x y -> before (l ++ k) x y.
Proof.
  intros (l1 & l2 & l3 & ->). exists l1, l2, (l3 ++ k).
  by rewrite <- !app_assoc, !app_comm_cons, <- !app_assoc.
Qed.

Lemma before_app_r {A} (l k : list A) x y : before k x y -> before (l ++ k) x y.
Proof. intros (l1 & l2 & l3 & ->). exists (l ++ l1), l2, l3. by rewrite <- !app_assoc. Qed.

Lemma before_app {A} (l k : list A) x y : x ∈ l -> y ∈ k -> before (l ++ k) x y.
Proof.
  intros Hx Hy. apply elem_of_list_split in Hx as (l1 & l2 & ->).
  apply elem_of_list_split in Hy as (k1 & k2 & ->).
  exists l1, (l2 ++ k1), k2. by rewrite <- !app_assoc, <- app_comm_cons.
Qed.

Lemma before_flat_map {A B} (f : A -> list B) l x y u v :
  before l x y -> u ∈ f x -> v ∈ f y -> before (flat_map f l) u v.
Proof.
  intros (l1 & l2 & l3 & ->) Hu Hv. rewrite flat_map_app. apply before_app_r.
  simpl. apply before_app; [done|]. rewrite flat_map_app. apply elem_of_app. right.
  simpl. apply elem_of_app. by left.
Qed.

Lemma before_flat_map_in {A B} (f : A -> list B) l x u v :
  x ∈ l -> before (f x) u v -> before (flat_map f l) u v.
Proof.
  intros Hx Hb. apply elem_of_list_split in Hx as (l1 & l2 & ->).
  rewrite flat_map_app. apply before_app_r. simpl. by apply before_app_l.
Qed.

Lemma before_cons {A} (l : list A) x y : y ∈ l -> before (x :: l) x y.
Proof. intros Hy. apply (before_app [x] l); [left|done]. Qed.

Lemma preorder_before r s x :
  subt s r -> x ∈ preorder s -> x <> rid s -> before (preorder r) (rid s) x.
Proof.
  induction 1 as [t|s t u Hs IH Ht]; intros Hx Hne.
  - rewrite preorder_eq in *. apply elem_of_cons in Hx as [->|Hx]; [done|].
    by apply before_cons.
  - rewrite preorder_eq. apply (before_app_r [rid u]).
    eapply before_flat_map_in; [done|]. auto.
Qed.

Lemma postorder_before r s x :
  subt s r -> x ∈ preorder s -> x <> rid s -> before (postorder r) x (rid s).
Proof.
  induction 1 as [t|s t u Hs IH Ht]; intros Hx Hne.
  - apply postorder_elem in Hx. destruct t as [i ts]. simpl in *.
    apply elem_of_app in Hx as [Hx|Hx].
    + apply before_app; [done|left].
    + by apply elem_of_list_singleton in Hx.
  - destruct u as [i ts]. simpl in *. apply before_app_l.
    eapply before_flat_map_in; [done|]. auto.
Qed.

Lemma postorder_nodup r : NoDup (preorder r) -> NoDup (postorder r).
Proof.
  induction r as [i ts IH] using rose_ind'. simpl. intros Hnd.
  inversion Hnd as [|? ? Hi Hnd']; subst. apply NoDup_app. split_and!.
  - clear Hi Hnd. induction ts as [|t ts IHts]; simpl in *; [constructor|].
    apply NoDup_app in Hnd' as (H1 & H2 & H3). apply NoDup_app. split_and!.
    + apply IH; [left|done].
    + intros x Hx Hx'. apply postorder_elem in Hx. apply (H2 x Hx).
      apply elem_flat_map in Hx' as (t' & Ht' & Hx'). apply elem_flat_map.
      exists t'. by rewrite <- postorder_elem.
    + apply IHts; [|done]. intros; apply IH; [by right|done].
  - intros x Hx Hx'. apply elem_of_list_singleton in Hx' as ->. apply Hi.
    apply elem_flat_map in Hx as (t' & Ht' & Hx). apply elem_flat_map.
    exists t'. by rewrite <- postorder_elem.
  - apply NoDup_singleton.
Qed.

(** ** Consequences for the matching *)

Section Matched.
  Context {H K P T : Type}.
  Variable heqb : H -> H -> bool.
  Variable keqb : K -> K -> bool.
  Variable sim : P -> P -> ratio.
  Variable cfg : config.
  Variables ta tb : dtree H K P T.
  Variables ra rb : rose.
  Hypothesis PA : presents ta ra.
  Hypothesis PB : presents tb rb.

  (** Equal hashes on the two sides mean equal kinds and, child by child,
      equal hashes again. *)
  Definition no_collision : Prop := forall a b,
    a ∈ t_iter ta -> b ∈ t_iter tb -> heqb (t_hash ta a) (t_hash tb b) = true ->
    t_kind ta a = t_kind tb b /\
    Forall2 (fun x y => heqb (t_hash ta x) (t_hash tb y) = true)
            (t_children ta a) (t_children tb b).

  Lemma combine_forall2 {A B} (R : A -> B -> Prop) l k x y :
    Forall2 R l k -> (x, y) ∈ combine l k -> R x y.
  Proof.
    induction 1 as [|u v l k Huv HF IH]; simpl; intros Hin; [inversion Hin|].
    apply elem_of_cons in Hin as [[= -> ->]|Hin]; auto.
  Qed.

  Lemma compute_matching_iter m a b :
    compute_matching heqb keqb sim cfg ta tb = Val m ->
    (a, b) ∈ m_pairs m -> a ∈ t_iter ta /\ b ∈ t_iter tb.
  Proof.
    intros E Hin.
    set (Q := fun a b => a ∈ t_iter ta /\ b ∈ t_iter tb).
    assert (reach Q m) as Hr.
    { apply (compute_matching_reach heqb keqb sim cfg ta tb Q Q Q); try done.
      - split; eapply pr_root_iter; eauto.
      - intros x y u v [Hx Hy] _ _ Hu Hv. split.
        + by eapply (pr_child ta ra PA x).
        + by eapply (pr_child tb rb PB y).
      - intros x y u v [Hx Hy] _ _ Huv. apply combine_elem in Huv as [Hu Hv]. split.
        + by eapply (pr_child ta ra PA x).
        + by eapply (pr_child tb rb PB y).
      - intros x y Hx _ _ [Hy|(pa & pb & _ & [_ Hpb] & Hy)]; split; auto.
        by eapply (pr_child tb rb PB pb). }
    by apply (reach_pairs Q m).
  Qed.

  Lemma compute_matching_kinds m a b :
    no_collision -> (forall x y, keqb x y = true -> x = y) ->
    compute_matching heqb keqb sim cfg ta tb = Val m ->
    (a, b) ∈ m_pairs m -> t_kind ta a = t_kind tb b.
  Proof.
    intros NC KE E Hin.
    set (I := fun a b => a ∈ t_iter ta /\ b ∈ t_iter tb).
    set (J := fun a b => I a b /\ heqb (t_hash ta a) (t_hash tb b) = true).
    set (Q := fun a b => I a b /\ t_kind ta a = t_kind tb b).
    assert (reach Q m) as Hr.
    { apply (compute_matching_reach heqb keqb sim cfg ta tb I J Q); try done.
      - split; eapply pr_root_iter; eauto.
      - intros x y u v [Hx Hy] _ _ Hu Hv. split.
        + by eapply (pr_child ta ra PA x).
        + by eapply (pr_child tb rb PB y).
      - intros x y u v [[Hx Hy] Hh] _ _ Huv.
        destruct (NC x y Hx Hy Hh) as [_ HF].
        split; [|by eapply (combine_forall2 _ _ _ _ _ HF)].
        apply combine_elem in Huv as [Hu Hv]. split.
        + by eapply (pr_child ta ra PA x).
        + by eapply (pr_child tb rb PB y).
      - intros x y [[Hx Hy] Hh]. split; [done|]. by apply NC.
      - intros x y Hxy Hk _. split; [done|]. by apply KE.
      - intros x y Hx _ Hk Hy. split; [split; [done|]|symmetry; by apply KE].
        destruct Hy as [Hy|(pa & pb & _ & [[_ Hpb] _] & Hy)]; [done|].
        by eapply (pr_child tb rb PB pb). }
    destruct (reach_pairs Q m a b Hr Hin) as [_ ?]; assumption.
  Qed.

  Lemma compute_matching_not_opaque m a b :
    compute_matching heqb keqb sim cfg ta tb = Val m ->
    (a, b) ∈ m_pairs m -> a ∉ opaque_descendants ta.
  Proof.
    intros E Hin.
    set (Q := fun a b : nat => a ∈ t_iter ta /\ a ∉ opaque_descendants ta).
    assert (reach Q m) as Hr.
    { apply (compute_matching_reach heqb keqb sim cfg ta tb Q Q Q); try done.
      - split; [by eapply pr_root_iter|by eapply root_not_opaque_desc].
      - intros x y u v [Hx Hn] Ho _ Hu Hv. split.
        + by eapply (pr_child ta ra PA x).
        + by eapply (not_opaque_child ta ra PA x).
      - intros x y u v [Hx Hn] Ho _ Huv. apply combine_elem in Huv as [Hu Hv]. split.
        + by eapply (pr_child ta ra PA x).
        + by eapply (not_opaque_child ta ra PA x). }
    destruct (reach_pairs Q m a b Hr Hin) as [_ ?]; assumption.
  Qed.

  (** Dice: the matched descendants are counted at most once on each side. *)
  Lemma dice_common_le m a b :
    bijection m -> NoDup (t_desc ta a) ->
    dice_common ta tb m a b <= length (t_desc ta a)
    /\ dice_common ta tb m a b <= length (t_desc tb b).
  Proof.
    intros Hm Hnd. unfold dice_common. split; [apply filter_length_le|].
    set (f := fun x => match get_b m x with Some y => mem y (t_desc tb b) | None => false end).
    set (l := List.filter f (t_desc ta a)).
    assert (exists k, length k = length l /\ NoDup k /\
              (forall y, y ∈ k -> y ∈ t_desc tb b) /\
              (forall y, y ∈ k -> exists x, x ∈ l /\ get_b m x = Some y)) as (k & Hlen & Hk & Hin & _).
    { assert (forall x, x ∈ l -> f x = true) as Hf by (intros x Hx; by apply lfilter_elem in Hx as [_ ?]).
      assert (NoDup l) as Hl by (by apply nodup_filter).
      clearbody l. revert Hf Hl. clear Hnd. induction l as [|x l IH]; intros Hf Hl.
      - exists []. split_and!; [done|constructor| |]; intros y Hy; inversion Hy.
      - inversion Hl as [|? ? Hx Hl']; subst.
        destruct IH as (k & Hlen & Hk & Hin & Hsrc); [intros; apply Hf; by right|done|].
        assert (f x = true) as Hfx by (apply Hf; left). unfold f in Hfx.
        destruct (get_b m x) as [y|] eqn:Ey; [|done]. apply mem_true in Hfx.
        exists (y :: k). split_and!.
        + simpl. lia.
        + constructor; [|done]. intros Hy. destruct (Hsrc y Hy) as (x' & Hx' & Ey').
          apply (bij_fwd m Hm) in Ey, Ey'.
          apply (bij_bwd m Hm) in Ey, Ey'. congruence.
        + intros z Hz. apply elem_of_cons in Hz as [->|Hz]; auto.
        + intros z Hz. apply elem_of_cons in Hz as [->|Hz].
          * exists x. split; [left|done].
          * destruct (Hsrc z Hz) as (x' & ? & ?). exists x'. split; [by right|done]. }
    rewrite <- Hlen. apply NoDup_incl_length; [by apply NoDup_ListNoDup|].
    intros y Hy. apply elem_of_list_In. apply Hin. by apply elem_of_list_In.
  Qed.
End Matched.
