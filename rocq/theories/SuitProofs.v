(** The patches of [diff] suit the page they were computed from: the native
    applier that first asks whether the patch suits (Parity.v) meets the
    requirements of Applier.v. *)
From stdpp Require Import list_numbers.
From Verif Require Import Base Arena Matching Chawathe Dom HtmlDiff Browser Fuzz Parity
  AttrProofs ArenaProofs ArenaOps TreeProofs DomTree ApplyProofs ShadowProofs SimProofs Applier BrowserProofs StepProofs.

(** The document has nothing that the shadow tree does not know. *)
Definition exact_page : opaques := {| opq := fun _ => false; tight := true |}.

Lemma exact_cont a i : is_cont (OQ := exact_page) a i -> is_cont (OQ := no_opaques) a i.
Proof. intros (k & Hk & Hc). exists k. split; [done|]. by destruct k. Qed.

Lemma exact_put a sl n at_ slot p pos :
  can_put (OQ := exact_page) a sl n at_ slot p pos -> can_put (OQ := no_opaques) a sl n at_ slot p pos.
Proof.
  intros (H1 & H2 & H3 & H4 & H5 & H6 & H7). repeat (split; [done || by apply exact_cont|]).
  by destruct slot.
Qed.

Lemma navigate_ext (a a' : arena dnode) q : (forall j, children a' j = children a j) ->
  forall n, navigate a' n q = navigate a n q.
Proof.
  intros E. induction q as [|i q IH]; intros n; [done|]. cbn [navigate]. rewrite E. destruct (children a n !! i); [apply IH|done].
Qed.
Lemma slot_parent_ext (a a' : arena dnode) sl q : (forall j, children a' j = children a j) ->
  get_slot_parent a' sl q = get_slot_parent a sl q.
Proof.
  intros E. unfold get_slot_parent, navigate_slot_path. destruct (Nat.ltb (length q) 2); [done|].
  destruct (removelast q) as [|k r]; [done|]. destruct (slot_get sl k); [|done]. by rewrite (navigate_ext a a').
Qed.

Lemma place_fine_put a sl n at_ slot p pos :
  can_put (OQ := exact_page) a sl n at_ slot p pos -> place_fine a sl at_ slot = true.
Proof.
  intros (Hg & _ & _ & _ & _ & _ & Hs). unfold place_fine. rewrite Hg. unfold slot_fine. destruct slot as [k|].
  - destruct Hs as [Hk _]. by destruct k.
  - apply Nat.leb_le. by apply Hs.
Qed.

Lemma props_diff_names l l' : change_names (props_diff l l') = keys l'.
Proof.
  unfold props_diff. generalize (order_differs l l'). generalize false.
  induction l' as [|[q v] l' IH]; intros fc od; [done|]. cbn [props_diff_loop]. unfold change_names in *. cbn [flat_map pc_name app].
  by rewrite IH.
Qed.

Lemma props_diff_kept l l' c : c ∈ props_diff l l' ->
  exists q, pc_name c = PAttr q /\ (pc_value c = None -> exists w, attr_get q l = Some w).
Proof.
  unfold props_diff. generalize (order_differs l l'). generalize false.
  induction l' as [|[q v] l' IH]; intros fc od Hc; [by apply elem_of_nil in Hc|]. cbn [props_diff_loop] in Hc.
  apply elem_of_cons in Hc as [->|Hc]; [|by eapply IH]. exists q. split; [done|]. cbn [pc_value].
  destruct (attr_get q l) as [w|]; [|done]. by exists w.
Qed.

Section Suit.
  Variables valid_elem valid_attr : string -> bool.
  Variable parse_inner : string -> list htree.
  Local Notation fit := (fitb valid_elem valid_attr).

  Definition checked (st : pstate) (p : patch) : presult :=
    if fit (fst st) (snd st) p then apply_patch parse_inner st p else (st, Fail EmptyPath).

  Lemma checked_suits ps : forall st st', run_all checked st ps = (st', Val tt) ->
    suits valid_elem valid_attr parse_inner st ps = true /\ apply_all parse_inner st ps = (st', Val tt).
  Proof using Type.
    induction ps as [|p ps IH]; intros st st' Hr; [done|]. cbn [run_all suits apply_all] in *. unfold checked in Hr at 1.
    destruct (fit (fst st) (snd st) p); [|done].
    destruct (apply_patch parse_inner st p) as [st1 [[]| | |]]; try done. cbn [andb]. by apply IH.
  Qed.

  Variable bd : nat.
  (** The state, with the body in slot 0 and its names in order. *)
  Definition kept_body (st : pstate) : Prop :=
    slot_get (snd st) 0 = Some bd /\ exists tag l, node_kind (fst st) bd = Some (NElem tag l) /\ ok_attrs valid_attr l.
  Definition shown (st st' : pstate) : Prop := st = st' /\ kept_body st.

  Lemma kept_lt a sl : kept_body (a, sl) -> bd < length a.
  Proof using Type.
    intros (_ & tag & l & Hk & _). cbn [fst] in Hk. unfold node_kind in Hk. destruct (data a bd) eqn:E; [|done]. by eapply data_lt.
  Qed.

  Lemma kept_data a sl a' sl' : kept_body (a, sl) -> data a' bd = data a bd -> slot_get sl' 0 = slot_get sl 0 ->
    kept_body (a', sl').
  Proof using Type.
    intros (Hs & tag & l & Hk & Ho) D E. cbn [fst snd] in *. split; [cbn; congruence|]. exists tag, l. split; [|done].
    cbn [fst]. by rewrite (node_kind_data a).
  Qed.

  Lemma kept_places a sl n p pos slot a' sl' : slot_fits (OQ := exact_page) a p pos slot -> kept_body (a, sl) ->
    places a sl n p pos slot a' sl' -> kept_body (a', sl').
  Proof using Type.
    intros Hs K P. pose proof (kept_lt a sl K) as Hl. apply (kept_data a sl); [done| |].
    - destruct slot as [k|].
      + destruct P as (d & _ & T & _). by rewrite (dt_data _ _ _ _ _ _ T).
      + destruct P as [[k T] _]. by rewrite (dg_data _ _ _ _ _ _ T).
    - destruct slot as [k|].
      + destruct P as (d & _ & _ & ->). destruct Hs as [Hk _]. unfold slot_set. cbn [slot_get]. destruct (Nat.eqb_spec k 0); [done|].
        unfold slot_get. cbn [find]. by destruct k.
      + by destruct P as [_ ->].
  Qed.
  Lemma kept_replaced_body a a' sl n d : replaced a a' n d -> kept_body (a, sl) -> kept_body (a', sl).
  Proof using Type.
    intros R K. apply (kept_data a sl); [done| |done]. apply (rp_data _ _ _ _ R). pose proof (kept_lt a sl K). lia.
  Qed.

  Theorem checked_applier : applier (OQ := exact_page) (fun l => l) (b_okn valid_elem valid_attr) shown checked.
  Proof using Type.
    split.
    - intros st a sl k [-> K] W Hk. exists (mkD k NsHtml). split; [by rewrite vkind_id|].
      intros at_ slot p pos Hc. destruct (new_node_full a (mkD k NsHtml) W) as (W1 & L1 & _ & _ & _ & Cj & _ & Dj).
      destruct (native_put _ _ _ _ _ _ _ W1 (exact_put _ _ _ _ _ _ _ Hc)) as (a' & sl' & E & P).
      exists (a', sl'), a', sl'. split; [|split; [split; [done|]|done]].
      + pose proof (place_fine_put _ _ _ _ _ _ _ Hc) as Hf.
        assert (place_fine a sl at_ slot = true) as Hf'.
        { unfold place_fine in *. rewrite (slot_parent_ext a (fst (new_node a (mkD k NsHtml)))) in Hf by done.
          destruct (get_slot_parent a sl at_) as [[p' pos']| | |]; try done.
          unfold slot_fine in *. by rewrite Cj in Hf. }
        unfold checked. cbn [fst snd].
        assert (fit a sl (mk_insert k at_ slot) = true) as ->; [|by destruct k].
        destruct k as [|tag ats|s|s]; [done| |exact Hf'|exact Hf'].
        cbn [mk_insert fitb ok_contentb forallb]. rewrite Hf', (proj2 (ok_elemb_spec valid_elem valid_attr tag ats)); done.
      + eapply kept_places; [apply Hc| |exact P]. pose proof (kept_lt a sl K).
        apply (kept_data a sl); [done| |done]. apply Dj. lia.
    - intros st a sl from n q [-> K] W Hl Hn Hq _.
      destruct (replace_leaf_full a n (text_node "") W) as (a1 & E1 & R).
      { by eapply parent_lt. }
      exists a1. split; [done|]. intros to slot p pos Hc.
      destruct (native_put _ _ _ _ _ _ _ (rp_wf _ _ _ _ R) (exact_put _ _ _ _ _ _ _ Hc)) as (a' & sl' & E & P).
      exists (a', sl'), a', sl'. split; [|split; [split; [done|]|done]].
      + unfold checked. cbn [fst snd].
        assert (fit a sl (PMove from to slot) = true) as ->.
        { cbn [fitb]. rewrite Hn. destruct (Nat.ltb_spec 1 (length from)); [|lia].
          change (replace_by_empty a n) with (replace_leaf a n (text_node "")). rewrite E1. by eapply place_fine_put. }
        unfold apply_patch, with_node. cbn [fst snd]. rewrite Hn.
        destruct (Nat.ltb_spec 1 (length from)); [|lia].
        change (replace_by_empty a n) with (replace_leaf a n (text_node "")). by rewrite E1.
      + eapply kept_places; [apply Hc| |exact P]. by eapply kept_replaced_body.
    - intros st a sl k n [-> K] W Hk Hg Ho. exists sl. split; [done|]. intros to slot p pos Hc.
      destruct (native_put _ _ _ _ _ _ _ W (exact_put _ _ _ _ _ _ _ Hc)) as (a' & sl' & E & P).
      exists (a', sl'), a', sl'. split; [|split; [split; [done|]|done]].
      + unfold checked. cbn [fst snd].
        assert (fit a sl (PMove [k] to slot) = true) as ->.
        { cbn [fitb navigate_slot_path]. rewrite Hg. cbn [navigate length Nat.ltb Nat.leb]. rewrite detach_orphan by done.
          by eapply place_fine_put. }
        unfold apply_patch, with_node. cbn [fst snd navigate_slot_path]. rewrite Hg. cbn [navigate].
        cbn [length Nat.ltb Nat.leb]. by rewrite detach_orphan.
      + eapply kept_places; [apply Hc|exact K|exact P].
    - intros st a sl q n p [-> K] W Hl Hn Hq _.
      destruct (replace_leaf_full a n (text_node "") W) as (a1 & E1 & R).
      { by eapply parent_lt. }
      exists (a1, sl), a1. split; [done|]. split; [|split; [done|by eapply kept_replaced_body]].
      unfold checked. cbn [fst snd].
      assert (fit a sl (PRemove q) = true) as ->. { destruct q as [|k [|i q]]; cbn in Hl; [lia|lia|done]. }
      unfold apply_patch, with_node. cbn [fst snd]. rewrite Hn.
      change (replace_by_empty a n) with (replace_leaf a n (text_node "")). by rewrite E1.
    - intros st a sl k n [-> K] W Hk Hg Hlt Ho.
      destruct (replace_leaf_full a n (text_node "") W Hlt) as (a1 & E1 & R).
      exists (a1, sl), a1, sl. split; [by eapply kept_replaced|]. split; [done|].
      split; [|split; [done|by eapply kept_replaced_body]].
      unfold checked. cbn [fst snd].
      assert (fit a sl (PRemove [k]) = true) as ->.
      { cbn [fitb]. rewrite Hg, Ho. apply orb_true_iff. right. by apply Nat.ltb_lt. }
      unfold apply_patch, with_node. cbn [fst snd navigate_slot_path]. rewrite Hg. cbn [navigate].
      change (replace_by_empty a n) with (replace_leaf a n (text_node "")). by rewrite E1.
    - intros st a sl q n tag l0 l l' [-> K] W Hn Hk [t1 [_ O1]] [t2 [_ O2]] N1 N2 _ _ HT.
      assert (ok_attrs valid_attr l0) as O0.
      { destruct (HT eq_refl) as [->|[-> ->]]; [done|]. destruct K as (Ks & tg & lb & Kk & Ko). cbn [fst snd] in *.
        cbn [navigate_slot_path] in Hn. rewrite Ks in Hn. cbn [navigate] in Hn. injection Hn as <-.
        rewrite Hk in Kk. injection Kk as _ <-. done. }
      assert (rebuild_attrs l0 (props_diff l l') = l') as Er.
      { destruct (HT eq_refl) as [->|[-> ->]]; [by apply rebuild_props_diff|].
        unfold props_diff. generalize (order_differs [] l'). generalize false. clear.
        induction l' as [|[q v] l' IH]; intros fc od; [done|]. cbn [props_diff_loop attr_get]. unfold rebuild_attrs in *.
        cbn [flat_map pc_name pc_value andb app]. by rewrite IH. }
      exists (set_kind a n (NElem tag l'), sl), l'. split; [|split; [split; [done|]|]].
      + unfold checked. cbn [fst snd].
        assert (fit a sl (PUpdateProps q (props_diff l l')) = true) as ->.
        { cbn [fitb]. unfold found. rewrite Hn, Hk. unfold ok_changes.
          rewrite (proj2 (ok_namesb_spec valid_attr (keys l0)) O0), props_diff_names,
            (proj2 (ok_namesb_spec valid_attr (keys l')) O2). cbn [andb].
          apply forallb_forall. intros c Hc. apply elem_of_list_In in Hc.
          destruct (props_diff_kept l l' c Hc) as (k & -> & Hv). destruct (pc_value c); [done|].
          destruct (Hv eq_refl) as [w Hw]. destruct (HT eq_refl) as [->|[-> ->]]; [by rewrite Hw|done]. }
        unfold apply_patch, with_node. cbn [fst snd]. rewrite Hn, Hk. by rewrite Er.
      + destruct K as (Ks & tg & lb & Kk & Ko). split; [done|]. cbn [fst snd] in *.
        destruct (decide (bd = n)) as [->|Hne].
        * exists tag, l'. split; [|done]. unfold node_kind, set_kind in *. destruct (data a n) as [d|] eqn:Ed; [|done].
          rewrite data_set_data by (by eapply data_lt). by rewrite Nat.eqb_refl.
        * exists tg, lb. split; [|done]. unfold node_kind, set_kind in *. destruct (data a n) as [d|] eqn:Ed; [|done].
          rewrite data_set_data by (by eapply data_lt). by destruct (Nat.eqb_spec bd n).
      + split; [done|]. split; [done|]. intros k Hk'. by right.
    - intros st a sl q n s s' [-> K] _ Hn Hk. eexists. split; [|split; [reflexivity|]].
      + unfold checked. cbn [fst snd]. assert (fit a sl (PSetText q s) = true) as ->.
        { cbn [fitb]. unfold found. by rewrite Hn, Hk. }
        unfold apply_patch, with_node. cbn [fst snd]. by rewrite Hn, Hk.
      + destruct K as (Ks & tg & lb & Kk & Ko). split; [done|]. exists tg, lb. split; [|done]. cbn [fst snd] in *.
        unfold node_kind, set_kind in *. destruct (data a n) as [d|] eqn:Ed; [|done].
        rewrite data_set_data by (by eapply data_lt). destruct (Nat.eqb_spec bd n) as [->|]; [|done].
        rewrite Ed in Kk. congruence.
    - intros st a sl q n s s' [-> K] _ Hn Hk. eexists. split; [|split; [reflexivity|]].
      + unfold checked. cbn [fst snd]. assert (fit a sl (PSetText q s) = true) as ->.
        { cbn [fitb]. unfold found. by rewrite Hn, Hk. }
        unfold apply_patch, with_node. cbn [fst snd]. by rewrite Hn, Hk.
      + destruct K as (Ks & tg & lb & Kk & Ko). split; [done|]. exists tg, lb. split; [|done]. cbn [fst snd] in *.
        unfold node_kind, set_kind in *. destruct (data a n) as [d|] eqn:Ed; [|done].
        rewrite data_set_data by (by eapply data_lt). destruct (Nat.eqb_spec bd n) as [->|]; [|done].
        rewrite Ed in Kk. congruence.
  Qed.
End Suit.
