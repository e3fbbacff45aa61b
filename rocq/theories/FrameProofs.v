(** Everything outside the body is left alone by patch application (C21); no
    well-formedness of intermediate arenas is needed. *)
From Verif Require Import Base Arena Matching Dom ArenaProofs ArenaOps TreeProofs DomTree ApplyProofs.
Local Open Scope string_scope.

Section Raw.
  Context {D : Type}.
  Implicit Types a : arena D.

  Lemma children_set_children_ne a p cs j : j <> p -> children (set_children a p cs) j = children a j.
  Proof. intros H. unfold children, set_children. by rewrite list_lookup_alter_ne. Qed.

  Lemma children_set_children_in a p cs c : c ∈ children (set_children a p cs) p -> c ∈ cs.
  Proof.
    unfold children, set_children. rewrite list_lookup_alter.
    destruct (a !! p); simpl; [done|]. intros H. inversion H.
  Qed.

  Lemma parent_set_parent_ne a c q j : j <> c -> parent (set_parent a c q) j = parent a j.
  Proof. intros H. unfold parent, set_parent. by rewrite list_lookup_alter_ne. Qed.

  Lemma parent_set_parent_in a c q p : parent (set_parent a c q) c = Some p -> q = Some p.
  Proof. unfold parent, set_parent. rewrite list_lookup_alter. by destruct (a !! c). Qed.

  Lemma data_set_data_ne a i d j : j <> i -> data (set_data a i d) j = data a j.
  Proof. intros H. unfold data, set_data. by rewrite list_lookup_alter_ne. Qed.
End Raw.

(** The tag of an element node. *)
Definition kind_tag (k : option nkind) : option string :=
  match k with Some (NElem t _) => Some t | _ => None end.

Section Frame.
  (** [a0] is the arena at the start, [Out] the set of untouchable nodes, [b] the
      body. *)
  Variable a0 : arena dnode.
  Variable Out : nat -> Prop.
  Variable b : nat.
  Hypothesis Out_lt : forall j, Out j -> j < length a0.
  Hypothesis b_in : ~ Out b.
  Hypothesis b_lt : b < length a0.

  Record framed (a : arena dnode) : Prop := {
    fr_len : length a0 <= length a;
    fr_data : forall j, Out j -> data a j = data a0 j;
    fr_children : forall j, Out j -> children a j = children a0 j;
    fr_parent : forall j, Out j -> parent a j = parent a0 j;
    fr_bparent : parent a b = parent a0 b;
    fr_btag : kind_tag (node_kind a b) = kind_tag (node_kind a0 b);
    fr_child : forall j c, ~ Out j -> c ∈ children a j -> ~ Out c /\ c <> b;
    fr_up : forall c p, ~ Out c -> c <> b -> parent a c = Some p -> ~ Out p
  }.

  Definition sl_framed (sl : slots) : Prop :=
    forall k v, slot_get sl k = Some v -> ~ Out v /\ (v = b -> k = 0).

  Lemma framed_new a d : framed a -> framed (fst (new_node a d)).
  Proof.
    intros [L D C P B T F U]. split.
    - rewrite length_new. lia.
    - intros j Hj. rewrite data_new. destruct (Nat.eqb_spec j (length a)); [|by apply D].
      apply Out_lt in Hj. lia.
    - intros j Hj. rewrite children_new. by apply C.
    - intros j Hj. rewrite parent_new. by apply P.
    - by rewrite parent_new.
    - rewrite <- T. unfold node_kind. rewrite data_new. destruct (Nat.eqb_spec b (length a)); [lia|done].
    - intros j c Hj. rewrite children_new. by apply F.
    - intros c p Hc Hb. rewrite parent_new. by apply U.
  Qed.

  Lemma new_not_out a : framed a -> ~ Out (length a).
  Proof. intros Hf Ho. apply Out_lt in Ho. pose proof (fr_len a Hf). lia. Qed.

  Lemma framed_detach a c : framed a -> ~ Out c -> c <> b -> framed (detach a c).
  Proof.
    intros Hf Hc Hb. unfold detach. destruct (parent a c) as [p|] eqn:Ep; [|done].
    pose proof (fr_up a Hf c p Hc Hb Ep) as Hp. destruct Hf as [L D C P B T F U]. split.
    - by rewrite length_set_parent, length_set_children.
    - intros j Hj. rewrite data_set_parent, data_set_children. by apply D.
    - intros j Hj. rewrite children_set_parent, children_set_children_ne; [by apply C|]. congruence.
    - intros j Hj. rewrite parent_set_parent_ne, parent_set_children; [by apply P|]. congruence.
    - rewrite parent_set_parent_ne, parent_set_children; congruence.
    - rewrite <- T. unfold node_kind. by rewrite data_set_parent, data_set_children.
    - intros j x Hj. rewrite children_set_parent. intros Hx.
      apply (F j); [done|]. destruct (decide (j = p)) as [->|Hne].
      + apply children_set_children_in in Hx. by apply elem_remove_id in Hx as [? _].
      + by rewrite children_set_children_ne in Hx.
    - intros x q Hx Hxb. destruct (decide (x = c)) as [->|Hne].
      + intros Hq. by apply parent_set_parent_in in Hq.
      + rewrite parent_set_parent_ne, parent_set_children by done. by apply U.
  Qed.

  (** Linking [c] below [p]. *)
  Lemma framed_link a p c cs : framed a -> ~ Out p -> ~ Out c -> c <> b ->
    (forall x, x ∈ cs -> x = c \/ x ∈ children a p) ->
    framed (set_parent (set_children a p cs) c (Some p)).
  Proof.
    intros [L D C P B T F U] Hp Hc Hb Hcs. split.
    - by rewrite length_set_parent, length_set_children.
    - intros j Hj. rewrite data_set_parent, data_set_children. by apply D.
    - intros j Hj. rewrite children_set_parent, children_set_children_ne; [by apply C|]. congruence.
    - intros j Hj. rewrite parent_set_parent_ne, parent_set_children; [by apply P|]. congruence.
    - rewrite parent_set_parent_ne, parent_set_children; congruence.
    - rewrite <- T. unfold node_kind. by rewrite data_set_parent, data_set_children.
    - intros j x Hj. rewrite children_set_parent. intros Hx. destruct (decide (j = p)) as [->|Hne].
      + apply children_set_children_in in Hx. destruct (Hcs x Hx) as [->|Hx']; [done|]. by apply (F p).
      + rewrite children_set_children_ne in Hx by done. by apply (F j).
    - intros x q Hx Hxb. destruct (decide (x = c)) as [->|Hne].
      + intros Hq. apply parent_set_parent_in in Hq. by injection Hq as <-.
      + rewrite parent_set_parent_ne, parent_set_children by done. by apply U.
  Qed.

  Lemma framed_append a p c a' : framed a -> ~ Out p -> ~ Out c -> c <> b ->
    append a p c = Val a' -> framed a'.
  Proof.
    intros Hf Hp Hc Hb. unfold append. destruct (Nat.eqb p c); [done|].
    destruct (is_ancestor a c p) as [[|]|]; try done. intros [= <-].
    apply framed_link; [by apply framed_detach|done..|].
    intros x Hx. apply elem_of_app in Hx as [Hx|Hx]; [by right|].
    left. by apply elem_of_list_singleton in Hx.
  Qed.

  Lemma framed_insert_before a s c a' : framed a -> ~ Out s -> s <> b -> ~ Out c -> c <> b ->
    insert_before a s c = Val a' -> framed a'.
  Proof.
    intros Hf Hs Hsb Hc Hb. unfold insert_before. destruct (Nat.eqb s c); [done|].
    pose proof (framed_detach a c Hf Hc Hb) as Hd.
    destruct (parent (detach a c) s) as [p|] eqn:Ep; [destruct (Nat.eqb p c); [done|]|]; intros [= <-]; [|done].
    pose proof (fr_up _ Hd s p Hs Hsb Ep) as Hp.
    apply framed_link; [done..|].
    intros x. generalize (children (detach a c) p). intros l.
    induction l as [|y l IH]; simpl; [intros Hx; inversion Hx|].
    destruct (Nat.eqb y s).
    - intros Hx. apply elem_of_cons in Hx as [->|Hx]; [by left|by right].
    - intros Hx. apply elem_of_cons in Hx as [->|Hx]; [right; by left|].
      destruct (IH Hx); [by left|right; by right].
  Qed.

  Lemma framed_set_kind a n k : framed a -> ~ Out n ->
    kind_tag (Some k) = kind_tag (node_kind a n) -> framed (set_kind a n k).
  Proof.
    intros [L D C P B T F U] Hn Hk. unfold set_kind. destruct (data a n) as [dn|] eqn:En; [|by split]. split.
    - by rewrite length_set_data.
    - intros j Hj. rewrite data_set_data_ne; [by apply D|congruence].
    - intros j Hj. rewrite children_set_data. by apply C.
    - intros j Hj. rewrite parent_set_data. by apply P.
    - by rewrite parent_set_data.
    - rewrite <- T. unfold node_kind in *. destruct (decide (b = n)) as [->|Hne].
      + rewrite data_set_data, Nat.eqb_refl by (by eapply data_lt). done.
      + by rewrite data_set_data_ne.
    - intros j c Hj. rewrite children_set_data. by apply F.
    - intros c p Hc Hb. rewrite parent_set_data. by apply U.
  Qed.

  Lemma new_ne_b a : framed a -> length a <> b.
  Proof. intros Hf. pose proof (fr_len a Hf). lia. Qed.

  Lemma framed_fill d n : forall a p a', framed a -> ~ Out p -> fill_gaps n d a p = Val a' -> framed a'.
  Proof.
    induction n as [|n IH]; intros a p a' Hf Hp; cbn [fill_gaps]; [by intros [= <-]|].
    change (new_node a d) with (fst (new_node a d), length a).
    cbv beta iota. destruct (append (fst (new_node a d)) p (length a)) as [a2| | |] eqn:E; cbn; try done.
    apply IH; [|done]. eapply (framed_append _ p (length a)); [by apply framed_new| | | |exact E].
    - done.
    - by apply new_not_out.
    - by apply new_ne_b.
  Qed.

  Lemma framed_insert_pos a p pos n a' : framed a -> ~ Out p -> ~ Out n -> n <> b ->
    insert_at_position a p pos n = Val a' -> framed a'.
  Proof.
    intros Hf Hp Hn Hb. unfold insert_at_position.
    destruct (fill_gaps _ _ a p) as [a1| | |] eqn:E; cbn; try done.
    pose proof (framed_fill _ _ _ _ _ Hf Hp E) as H1.
    destruct (children a1 p !! pos) as [x|] eqn:Ex; intros He.
    - apply elem_of_list_lookup_2 in Ex. destruct (fr_child a1 H1 p x Hp Ex).
      eapply (framed_insert_before a1 x n); eassumption.
    - eapply (framed_append a1 p n); eassumption.
  Qed.

  Lemma navigate_in a p : forall cur n, framed a -> ~ Out cur -> navigate a cur p = Val n ->
    ~ Out n /\ (n = b -> p = [] /\ cur = b).
  Proof.
    induction p as [|i p IH]; intros cur n Hf Hc; cbn [navigate].
    - intros [= <-]. done.
    - destruct (children a cur !! i) as [c|] eqn:Ec; [|done]. intros Hn.
      apply elem_of_list_lookup_2 in Ec. destruct (fr_child a Hf cur c Hc Ec) as [H1 H2].
      destruct (IH c n Hf H1 Hn) as [H3 H4]. split; [done|]. intros He. by destruct (H4 He).
  Qed.

  Lemma navigate_slot_in a sl p n : framed a -> sl_framed sl -> navigate_slot_path a sl p = Val n ->
    ~ Out n /\ (n = b -> p = [0]).
  Proof.
    intros Hf Hs. destruct p as [|k p]; cbn; [done|].
    destruct (slot_get sl k) as [r|] eqn:Er; [|done]. intros Hn.
    destruct (Hs k r Er) as [H1 H2]. destruct (navigate_in a p r n Hf H1 Hn) as [H3 H4].
    split; [done|]. intros He. destruct (H4 He) as [-> ->]. by rewrite H2.
  Qed.

  Definition ok_res (r : presult) : Prop := framed (fst (fst r)) /\ sl_framed (snd (fst r)).

  Lemma sl_framed_set sl k v : sl_framed sl -> ~ Out v -> v <> b -> sl_framed (slot_set sl k v).
  Proof.
    intros Hs H1 H2 k' v'. cbn [slot_set slot_get]. destruct (Nat.eqb k k'); [|by apply Hs].
    intros [= <-]. done.
  Qed.

  Lemma insert_at_framed a sl q n slot : framed a -> sl_framed sl -> ~ Out n -> n <> b ->
    ok_res (insert_at a sl q n slot).
  Proof.
    intros Hf Hs Hn Hb. unfold insert_at, get_slot_parent.
    destruct (Nat.ltb (length q) 2); [by split|].
    destruct (navigate_slot_path a sl (removelast q)) as [p|e| |] eqn:Ep; cbn; try by split.
    destruct (navigate_slot_in a sl _ p Hf Hs Ep) as [Hp _].
    set (pos := List.last q 0). set (w := match slot with None => _ | Some k => _ end).
    assert (Hw : framed (fst w) /\ sl_framed (snd w)).
    { subst w. destruct slot as [k|]; [|by split].
      destruct (children a p !! pos) as [x|] eqn:Ex; [|by split].
      apply elem_of_list_lookup_2 in Ex. destruct (fr_child a Hf p x Hp Ex). cbn [fst snd].
      split; [by apply framed_detach|by apply sl_framed_set]. }
    destruct w as [a1 sl1]. cbn [fst snd] in Hw. destruct Hw as [H1 H2].
    destruct (insert_at_position a1 p pos n) as [a2|e| |] eqn:Ei; cbn; try by split.
    split; [|done]. by apply (framed_insert_pos a1 p pos n).
  Qed.

  Lemma framed_create c : forall a a' n, framed a -> create_content a c = Val (a', n) ->
    framed a' /\ ~ Out n /\ n <> b.
  Proof.
    induction c as [s|s|t ats cs IH] using icontent_ind'; intros a a' n Hf; cbn [create_content].
    1,2: intros [= <- <-]; split_and!; [by apply (framed_new a)|by apply new_not_out|by apply new_ne_b].
    change (new_node a (elem t ats NsHtml)) with (fst (new_node a (elem t ats NsHtml)), length a).
    assert (H1 : framed (fst (new_node a (elem t ats NsHtml)))) by by apply framed_new.
    pose proof (new_not_out a Hf) as H2. pose proof (new_ne_b a Hf) as H3.
    revert H1 H2 H3. generalize (fst (new_node a (elem t ats NsHtml))), (length a).
    clear Hf a. intros a1 m H1 H2 H3. revert a1 H1.
    induction cs as [|c cs IHcs]; intros a1 H1; cbn.
    - by intros [= <- <-].
    - destruct (create_content a1 c) as [[a2 i]| | |] eqn:E; cbn; try done.
      destruct (IH c ltac:(by left) _ _ _ H1 E) as (H4 & H5 & H6).
      destruct (append a2 m i) as [a3| | |] eqn:E2; cbn; try done.
      apply IHcs; [intros x Hx; apply IH; by right|]. by eapply (framed_append a2 m i).
  Qed.

  Lemma framed_creates cs : forall a m a', framed a -> ~ Out m -> create_contents a m cs = Val a' ->
    framed a'.
  Proof.
    induction cs as [|c cs IH]; intros a m a' Hf Hm; cbn; [by intros [= <-]|].
    destruct (create_content a c) as [[a2 i]| | |] eqn:E; cbn; try done.
    destruct (framed_create _ _ _ _ Hf E) as (H4 & H5 & H6).
    destruct (append a2 m i) as [a3| | |] eqn:E2; cbn; try done.
    apply IH; [|done]. by eapply (framed_append a2 m i).
  Qed.

  Lemma framed_clone c : forall a a' n, framed a -> clone_tree a c = Val (a', n) ->
    framed a' /\ ~ Out n /\ n <> b.
  Proof.
    induction c as [s|s|t ns ats cs IH] using htree_ind'; intros a a' n Hf; cbn [clone_tree].
    1,2: intros [= <- <-]; split_and!; [by apply (framed_new a)|by apply new_not_out|by apply new_ne_b].
    change (new_node a (mkD (NElem t ats) ns)) with (fst (new_node a (mkD (NElem t ats) ns)), length a).
    assert (H1 : framed (fst (new_node a (mkD (NElem t ats) ns)))) by by apply framed_new.
    pose proof (new_not_out a Hf) as H2. pose proof (new_ne_b a Hf) as H3.
    revert H1 H2 H3. generalize (fst (new_node a (mkD (NElem t ats) ns))), (length a).
    clear Hf a. intros a1 m H1 H2 H3. revert a1 H1.
    induction cs as [|c cs IHcs]; intros a1 H1; cbn.
    - by intros [= <- <-].
    - destruct (clone_tree a1 c) as [[a2 i]| | |] eqn:E; cbn; try done.
      destruct (IH c ltac:(by left) _ _ _ H1 E) as (H4 & H5 & H6).
      destruct (append a2 m i) as [a3| | |] eqn:E2; cbn; try done.
      apply IHcs; [intros x Hx; apply IH; by right|]. by eapply (framed_append a2 m i).
  Qed.

  Lemma framed_clones cs : forall a m a', framed a -> ~ Out m -> clone_under a m cs = Val a' ->
    framed a'.
  Proof.
    induction cs as [|c cs IH]; intros a m a' Hf Hm; cbn; [by intros [= <-]|].
    destruct (clone_tree a c) as [[a2 i]| | |] eqn:E; cbn; try done.
    destruct (framed_clone _ _ _ _ Hf E) as (H4 & H5 & H6).
    destruct (append a2 m i) as [a3| | |] eqn:E2; cbn; try done.
    apply IH; [|done]. by eapply (framed_append a2 m i).
  Qed.

  Lemma framed_detach_all l : forall a, framed a -> (forall x, x ∈ l -> ~ Out x /\ x <> b) ->
    framed (detach_all a l).
  Proof.
    unfold detach_all. induction l as [|x l IH]; intros a Hf Hl; cbn [fold_left]; [done|].
    destruct (Hl x) as [H1 H2]; [by left|]. apply IH; [by apply framed_detach|].
    intros y Hy. apply Hl. by right.
  Qed.

  Lemma framed_replace a n a' : framed a -> ~ Out n -> n <> b -> replace_by_empty a n = Val a' -> framed a'.
  Proof.
    intros Hf Hn Hb. unfold replace_by_empty.
    change (new_node a (text_node "")) with (fst (new_node a (text_node "")), length a).
    cbv beta iota. destruct (insert_before (fst (new_node a (text_node ""))) n (length a)) as [a2| | |] eqn:E; cbn; try done.
    intros [= <-]. apply framed_detach; [|done..].
    eapply framed_insert_before; [by apply framed_new| | | | |exact E]; try done.
    - by apply new_not_out.
    - by apply new_ne_b.
  Qed.

  Section Apply.
  Variable parse : string -> list htree.

  (** A patch that would remove or move the body element itself. *)
  Definition hits_body (p : patch) : bool :=
    match p with
    | PRemove [0] => true
    | PMove [0] _ _ => true
    | _ => false
    end.

  Lemma hits_body_remove q : hits_body (PRemove q) = false -> q <> [0].
  Proof. by intros H ->. Qed.
  Lemma hits_body_move q t sl : hits_body (PMove q t sl) = false -> q <> [0].
  Proof. by intros H ->. Qed.

  Lemma apply_patch_framed a sl p : framed a -> sl_framed sl -> hits_body p = false ->
    ok_res (apply_patch parse (a, sl) p).
  Proof.
    intros Hf Hs Hh. unfold apply_patch.
    destruct p as [at_ tag ats cs slot|at_ s slot|at_ s slot|q|q s|q n v|q n|q t slot|q ch|q s].
    - change (new_node a (elem tag ats NsHtml)) with (fst (new_node a (elem tag ats NsHtml)), length a).
      cbv beta iota. pose proof (framed_new a (elem tag ats NsHtml) Hf) as H1.
      destruct (create_contents (fst (new_node a (elem tag ats NsHtml))) (length a) cs) as [a2|e| |] eqn:E;
        try by split.
      apply insert_at_framed; [|done|by apply new_not_out|by apply new_ne_b].
      eapply (framed_creates _ _ (length a)); [exact H1|by apply (new_not_out a)|exact E].
    - change (new_node a (text_node s)) with (fst (new_node a (text_node s)), length a).
      cbv beta iota. apply insert_at_framed; [by apply framed_new|done|by apply new_not_out|by apply new_ne_b].
    - change (new_node a (comment_node s)) with (fst (new_node a (comment_node s)), length a).
      cbv beta iota. apply insert_at_framed; [by apply framed_new|done|by apply new_not_out|by apply new_ne_b].
    - apply hits_body_remove in Hh. unfold with_node; cbn [fst snd].
      destruct (navigate_slot_path a sl q) as [n|e| |] eqn:En; try by split.
      destruct (navigate_slot_in a sl q n Hf Hs En) as [Hn Hb].
      destruct (replace_by_empty a n) as [a1|e| |] eqn:E; cbn; try by split.
      split; [|done]. cbn. eapply framed_replace; [exact Hf|exact Hn|by intros ->; apply Hh, Hb|exact E].
    - unfold with_node; cbn [fst snd]. destruct (navigate_slot_path a sl q) as [n|e| |] eqn:En; try by split.
      destruct (navigate_slot_in a sl q n Hf Hs En) as [Hn _].
      destruct (node_kind a n) as [[| | |]|] eqn:Ek; try by split. all: split; [by apply framed_set_kind; [..|rewrite Ek]|done].
    - unfold with_node; cbn [fst snd]. destruct (navigate_slot_path a sl q) as [m|e| |] eqn:En; try by split.
      destruct (navigate_slot_in a sl q m Hf Hs En) as [Hn _].
      destruct (node_kind a m) as [[| | |]|] eqn:Ek; try by split. all: split; [by apply framed_set_kind; [..|rewrite Ek]|done].
    - unfold with_node; cbn [fst snd]. destruct (navigate_slot_path a sl q) as [m|e| |] eqn:En; try by split.
      destruct (navigate_slot_in a sl q m Hf Hs En) as [Hn _].
      destruct (node_kind a m) as [[| | |]|] eqn:Ek; try by split. all: split; [by apply framed_set_kind; [..|rewrite Ek]|done].
    - apply hits_body_move in Hh. unfold with_node; cbn [fst snd].
      destruct (navigate_slot_path a sl q) as [n|e| |] eqn:En; try by split.
      destruct (navigate_slot_in a sl q n Hf Hs En) as [Hn Hb].
      assert (Hb' : n <> b) by (intros ->; by apply Hh, Hb).
      destruct (Nat.ltb 1 (length q)).
      + destruct (replace_by_empty a n) as [a1|e| |] eqn:E; try by split.
        apply insert_at_framed; try done. by eapply framed_replace.
      + apply insert_at_framed; try done. by apply framed_detach.
    - unfold with_node; cbn [fst snd]. destruct (navigate_slot_path a sl q) as [m|e| |] eqn:En; try by split.
      destruct (navigate_slot_in a sl q m Hf Hs En) as [Hn _].
      destruct (node_kind a m) as [[| | |]|] eqn:Ek; try by split; try (by apply framed_set_kind; [..|rewrite Ek]).
      + destruct (find _ ch) as [c|]; [|by split]. destruct (pc_value c); [|by split].
        split; [by apply framed_set_kind; [..|rewrite Ek]|done].
      + destruct (find _ ch) as [c|]; [|by split]. destruct (pc_value c); [|by split].
        split; [by apply framed_set_kind; [..|rewrite Ek]|done].
    - unfold with_node; cbn [fst snd]. destruct (navigate_slot_path a sl q) as [n|e| |] eqn:En; try by split.
      destruct (navigate_slot_in a sl q n Hf Hs En) as [Hn _].
      assert (H1 : framed (detach_all a (children a n))).
      { apply framed_detach_all; [done|]. intros x Hx. by apply (fr_child a Hf n). }
      destruct (clone_under (detach_all a (children a n)) n (parse s)) as [a1|e| |] eqn:E; cbn; try by split.
      split; [|done]. by eapply framed_clones.
  Qed.

  Lemma apply_all_framed ps : forall a sl, framed a -> sl_framed sl ->
    (forall p, p ∈ ps -> hits_body p = false) -> ok_res (apply_all parse (a, sl) ps).
  Proof.
    induction ps as [|p ps IH]; intros a sl Hf Hs Hp; cbn [apply_all]; [by split|].
    pose proof (apply_patch_framed a sl p Hf Hs (Hp p ltac:(by left))) as H.
    destruct (apply_patch parse (a, sl) p) as [[a1 sl1] [[]|e| |]]; try done.
    destruct H. apply IH; try done. intros q Hq. apply Hp. by right.
  Qed.
  End Apply.
End Frame.

Section Doc.
  Variable parse : string -> list htree.

  Lemma framed_start a b : wf a -> b < length a ->
    framed a (fun j => j < length a /\ ~ above a b j) b a.
  Proof.
    intros W Hb. split; try done.
    - intros j c Hj Hc. pose proof (wf_child_lt a j c W Hc). apply (wf_pc a W) in Hc as Hp.
      assert (Hab : above a b j).
      { destruct (above_dec a b j W) as [?|Hn]; [done|]. destruct Hj. split; [|done]. by eapply wf_parent_lt. }
      assert (Hac : above a b c) by by eapply above_parent. split; [by intros [_ []]|].
      intros ->. assert (j = b) as ->.
      { apply (above_antisym a); [done| |done]. eapply above_parent; [by apply above_refl|done]. }
      destruct (wf_chain a W b) as [l Hl]. pose proof (chain_not_self _ _ _ Hl) as Hs. inversion Hl; subst; [congruence|].
      assert (p = b) as -> by congruence. apply Hs. by left.
    - intros c p Hc Hcb Hp [Hl Hn]. destruct Hc. split; [by eapply parent_lt|].
      intros Ha. apply above_inv in Ha as [->|(q & Hq & Ha)]; [done|]. congruence.
  Qed.

  Lemma apply_patches_framed d b ps : wf (doc_arena d) -> b < length (doc_arena d) -> body d = Some b ->
    (forall p, p ∈ ps -> hits_body p = false) ->
    let d' := fst (apply_patches parse d ps) in
    doc_root d' = doc_root d /\ doc_doctype d' = doc_doctype d /\
    framed (doc_arena d) (fun j => j < length (doc_arena d) /\ ~ above (doc_arena d) b j) b (doc_arena d').
  Proof.
    intros W Hl Hb Hp. pose proof (framed_start (doc_arena d) b W Hl) as Hs.
    destruct ps as [|p ps]; cbn [apply_patches]; [done|].
    unfold init_patch_slots, ensure_body. rewrite Hb. cbn [obind].
    revert Hs. set (Out := fun j => j < length (doc_arena d) /\ ~ above (doc_arena d) b j). intros Hs.
    assert (Hbo : ~ Out b).
    { intros [_ H]. apply H. by apply above_refl. }
    pose proof (apply_all_framed (doc_arena d) Out b) as H.
    specialize (H (fun j Hj => proj1 Hj) Hbo Hl parse (p :: ps) (doc_arena d) [(0, b)] Hs).
    assert (Hsl : sl_framed Out b [(0, b)]).
    { intros k v. cbn. destruct k; [|done]. intros [= <-]. done. }
    specialize (H Hsl Hp). cbv zeta. cbn [doc_arena].
    match goal with |- context [apply_all parse ?x ?y] =>
      change (ok_res (doc_arena d) Out b (apply_all parse x y)) in H;
      destruct (apply_all parse x y) as [[a1 sl1] r] end.
    destruct H as [H _]. done.
  Qed.
End Doc.

(** The body and the head of a framed document. *)
Lemma framed_finds a a' rt b : wf a -> b ∈ children a rt ->
  framed a (fun j => j < length a /\ ~ above a b j) b a' ->
  forall t, find (has_tag a' t) (children a' rt) = find (has_tag a t) (children a rt).
Proof.
  intros W Hbc F.
  assert (Hr : rt < length a /\ ~ above a b rt).
  { split; [by eapply children_lt|]. apply above_not_parent; [done|]. by apply (wf_pc a W). }
  assert (Hcs : children a' rt = children a rt) by by apply (fr_children _ _ _ _ F).
  assert (Htags : forall t c, c ∈ children a rt -> has_tag a' t c = has_tag a t c).
  { intros t c Hc. destruct (decide (c = b)) as [->|Hne].
    - pose proof (fr_btag _ _ _ _ F) as Ht. unfold has_tag in *. unfold kind_tag in Ht.
      destruct (node_kind a b) as [[| | |]|], (node_kind a' b) as [[| | |]|]; congruence.
    - unfold has_tag, node_kind. rewrite (fr_data _ _ _ _ F c); [done|].
      split; [by eapply wf_child_lt|]. intros Hab. apply (wf_pc a W) in Hc.
      apply above_inv in Hab as [Hab|(q & Hq & Hab)]; [done|].
      assert (q = rt) as -> by congruence. by apply Hr. }
  intros t. rewrite Hcs. revert Htags. generalize (children a rt). intros l Ht.
  induction l as [|x l IH]; cbn [find]; [done|]. rewrite Ht by by left.
  destruct (has_tag a t x); [done|]. apply IH. intros t' c Hc. apply Ht. by right.
Qed.
