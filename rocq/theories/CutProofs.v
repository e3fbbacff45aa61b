(** Opaque elements whose content belongs to the client.  A document is looked at
    without the content of its opaque elements ([cut]); a program that applies
    patches to documents also does so to documents seen this way, and leaves the
    content of opaque elements alone. *)
From stdpp Require Import list_numbers.
From Verif Require Import Base Arena Matching Chawathe Dom HtmlDiff
  AttrProofs ArenaProofs ArenaOps TreeProofs DomTree ApplyProofs ShadowProofs SimProofs Applier.

Section Cut.
  (** Attributes with these names make an element opaque. *)
  Variable key : qname -> bool.

  Definition op (l : attrs) : bool := existsb (fun kv => key (fst kv)) l.
  Definition op_opaques : opaques := {| opq := op; tight := false |}.

  Lemma op_false l : op l = false <-> forall q, q ∈ keys l -> key q = false.
  Proof.
    unfold op. induction l as [|[q v] l IH]; cbn [existsb keys map fst].
    - split; [intros _ q Hq; by apply elem_of_nil in Hq|done].
    - rewrite orb_false_iff, IH. split.
      + intros [H1 H2] q' Hq. apply elem_of_cons in Hq as [->|Hq]; auto.
      + intros HH. split; [apply HH; left|]. intros q' Hq. apply HH. by right.
  Qed.

  Definition opaque_el (a : arena dnode) (i : nat) : bool :=
    match node_kind a i with Some (NElem _ l) => op l | _ => false end.

  (** Nodes strictly inside an opaque element. *)
  Inductive hidden (a : arena dnode) : nat -> Prop :=
  | hidden_here i p : parent a i = Some p -> opaque_el a p = true -> hidden a i
  | hidden_up i p : parent a i = Some p -> hidden a p -> hidden a i.

  (** The document without the content of its opaque elements. *)
  Definition cut_node (a : arena dnode) (i : nat) (n : anode dnode) : anode dnode :=
    mkNode (nd_data n)
      (match nd_parent n with Some p => if opaque_el a p then None else Some p | None => None end)
      (if opaque_el a i then [] else nd_children n).
  Definition cut (a : arena dnode) : arena dnode := imap (cut_node a) a.

  Lemma cut_lookup a i : cut a !! i = cut_node a i <$> a !! i.
  Proof. unfold cut. by rewrite list_lookup_imap. Qed.
  Lemma cut_len a : length (cut a) = length a.
  Proof. unfold cut. by rewrite imap_length. Qed.
  Lemma cut_data a i : data (cut a) i = data a i.
  Proof. unfold data. rewrite cut_lookup. by destruct (a !! i). Qed.
  Lemma cut_kind a i : node_kind (cut a) i = node_kind a i.
  Proof. unfold node_kind. by rewrite cut_data. Qed.
  Lemma cut_children a i : children (cut a) i = if opaque_el a i then [] else children a i.
  Proof. unfold children. rewrite cut_lookup. destruct (a !! i); cbn; [done|]. by destruct (opaque_el a i). Qed.
  Lemma cut_parent a i :
    parent (cut a) i = match parent a i with Some p => if opaque_el a p then None else Some p | None => None end.
  Proof. unfold parent. rewrite cut_lookup. by destruct (a !! i). Qed.

  Lemma cut_parent_some a i p : parent (cut a) i = Some p <-> parent a i = Some p /\ opaque_el a p = false.
  Proof.
    rewrite cut_parent. destruct (parent a i) as [q|]; [|split; [done|by intros [? _]]].
    destruct (opaque_el a q) eqn:E; split; try done.
    - intros [[= ->] ?]. congruence.
    - by intros [= ->].
    - by intros [[= ->] _].
  Qed.

  Lemma cut_wf a : wf a -> wf (cut a).
  Proof.
    intros W. split.
    - intros i p. rewrite cut_parent_some, cut_children. destruct (opaque_el a p).
      + split; [by intros []|]. intros Hi. by apply elem_of_nil in Hi.
      + rewrite (wf_pc a W). by split; [intros []|].
    - intros p. rewrite cut_children. destruct (opaque_el a p); [constructor|apply W].
    - intros i. destruct (wf_chain a W i) as [l Hl]. induction Hl as [i E|i p l E Hl [l' IH]].
      + exists []. constructor. rewrite cut_parent. by rewrite E.
      + destruct (opaque_el a p) eqn:Eo.
        * exists []. constructor. rewrite cut_parent, E. by rewrite Eo.
        * exists (p :: l'). econstructor; [|exact IH]. by rewrite cut_parent, E, Eo.
  Qed.

  Lemma hidden_parent a i : hidden a i -> exists p, parent a i = Some p /\ (opaque_el a p = true \/ hidden a p).
  Proof. intros [j p H1 H2|j p H1 H2]; eauto. Qed.

  Lemma hidden_not a i p : parent a i = Some p -> opaque_el a p = false -> ~ hidden a p -> ~ hidden a i.
  Proof.
    intros Hp Ho Hn Hi. apply hidden_parent in Hi as (q & Hq & Hc). assert (q = p) as -> by congruence.
    destruct Hc; [congruence|done].
  Qed.

  Lemma hidden_root a i : parent a i = None -> ~ hidden a i.
  Proof. intros Hp Hi. apply hidden_parent in Hi as (q & Hq & _). congruence. Qed.

  Lemma cut_above a n p : ~ hidden a p -> above a n p -> above (cut a) n p.
  Proof.
    intros Hh (l & Hl & Hn). exists l. split; [|done]. clear Hn.
    induction Hl as [i E|i q l E Hl IH].
    - constructor. rewrite cut_parent. by rewrite E.
    - assert (opaque_el a q = false) as Eo.
      { destruct (opaque_el a q) eqn:Eo; [|done]. destruct Hh. by eapply hidden_here. }
      econstructor; [by rewrite cut_parent, E, Eo|]. apply IH. intros Hq. apply Hh. by eapply hidden_up.
  Qed.

  Lemma cut_navigate a q : wf a -> forall cur n, ~ hidden a cur -> navigate (cut a) cur q = Val n ->
    navigate a cur q = Val n /\ ~ hidden a n.
  Proof.
    intros W. induction q as [|i q IH]; intros cur n Hh; cbn [navigate]; [by intros [= ->]|].
    rewrite cut_children. destruct (opaque_el a cur) eqn:Eo; [done|].
    destruct (children a cur !! i) as [c|] eqn:Ec; [|done]. intros E. apply IH; [|done].
    apply (hidden_not a c cur); [|done|done]. apply (wf_pc a W). by eapply elem_of_list_lookup_2.
  Qed.

  Definition slots_free (a : arena dnode) (sl : slots) : Prop :=
    forall k r, slot_get sl k = Some r -> r < length a /\ ~ hidden a r.

  Lemma cut_slot_path a sl q n : wf a -> slots_free a sl -> navigate_slot_path (cut a) sl q = Val n ->
    navigate_slot_path a sl q = Val n /\ ~ hidden a n.
  Proof.
    intros W SF. destruct q as [|k q]; [done|]. cbn [navigate_slot_path].
    destruct (slot_get sl k) as [r|] eqn:E; [|done]. apply cut_navigate; [done|]. by apply (SF k r).
  Qed.

  (** ** Steps *)

  Record tame (a a' : arena dnode) : Prop := {
    tm_len : length a <= length a';
    tm_opq : forall j, j < length a -> opaque_el a' j = opaque_el a j;
    tm_par : forall j q, j < length a -> parent a' j = Some q ->
      parent a j = Some q \/ (q < length a /\ ~ hidden a q /\ opaque_el a q = false);
    tm_hid : forall j, hidden a j -> data a' j = data a j /\ children a' j = children a j /\ parent a' j = parent a j;
    tm_ch : forall j, opaque_el a j = true -> children a' j = children a j
  }.

  Lemma opaque_el_lt a i : opaque_el a i = true -> i < length a.
  Proof.
    unfold opaque_el, node_kind. destruct (data a i) eqn:E; [|done]. intros _. by eapply data_lt.
  Qed.
  Lemma opaque_el_data a a' i : data a' i = data a i -> opaque_el a' i = opaque_el a i.
  Proof. unfold opaque_el, node_kind. by intros ->. Qed.

  Lemma tame_shown a a' j : wf a -> tame a a' -> j < length a -> hidden a' j -> hidden a j.
  Proof.
    intros W T Hj Hh. induction Hh as [i p E Eo|i p E Hp IH].
    - destruct (tm_par a a' T i p Hj E) as [E1|(Hl & Hn & Ho)].
      + apply (hidden_here a i p); [done|]. rewrite <- (tm_opq a a' T); [done|]. by eapply wf_parent_lt.
      + rewrite (tm_opq a a' T) in Eo by done. congruence.
    - destruct (tm_par a a' T i p Hj E) as [E1|(Hl & Hn & Ho)].
      + apply (hidden_up a i p); [done|]. apply IH. by eapply wf_parent_lt.
      + destruct Hn. by apply IH.
  Qed.

  Lemma tame_hidden a a' j : tame a a' -> hidden a j -> hidden a' j.
  Proof.
    intros T Hh. induction Hh as [i p E Eo|i p E Hp IH].
    - destruct (tm_hid a a' T i) as (_ & _ & Ep); [by apply (hidden_here a i p)|].
      apply (hidden_here a' i p); [congruence|]. rewrite (tm_opq a a' T); [done|]. by apply opaque_el_lt.
    - destruct (tm_hid a a' T i) as (_ & _ & Ep); [by apply (hidden_up a i p)|].
      apply (hidden_up a' i p); [congruence|done].
  Qed.

  Lemma tame_slots a a' sl : wf a -> tame a a' -> slots_free a sl -> slots_free a' sl.
  Proof.
    intros W T SF k r Hk. destruct (SF k r Hk) as [H1 H2]. pose proof (tm_len a a' T). split; [lia|].
    intros Hh. by apply H2, (tame_shown a a').
  Qed.

  (** What was inside opaque elements of [a] is still there as it was, and
      nothing else of [a] has got there. *)
  Record spared (a a' : arena dnode) : Prop := {
    sp_len : length a <= length a';
    sp_mark : forall j, j < length a -> opaque_el a' j = opaque_el a j;
    sp_opq : forall j, opaque_el a j = true -> children a' j = children a j;
    sp_hid : forall j, hidden a j ->
      hidden a' j /\ data a' j = data a j /\ children a' j = children a j /\ parent a' j = parent a j;
    sp_out : forall j, j < length a -> hidden a' j -> hidden a j
  }.

  Lemma spared_refl a : spared a a.
  Proof. by split. Qed.
  Lemma spared_tame a a' a'' : wf a' -> spared a a' -> tame a' a'' -> spared a a''.
  Proof.
    intros W S T. pose proof (sp_len _ _ S) as SL. split.
    - pose proof (tm_len _ _ T). lia.
    - intros j Hj. rewrite (tm_opq _ _ T) by lia. by apply (sp_mark _ _ S).
    - intros j Hj. pose proof (opaque_el_lt _ _ Hj). rewrite (tm_ch _ _ T); [by apply (sp_opq _ _ S)|].
      by rewrite (sp_mark _ _ S).
    - intros j Hj. destruct (sp_hid _ _ S j Hj) as (H1 & H2 & H3 & H4).
      destruct (tm_hid _ _ T j H1) as (G1 & G2 & G3). split; [by eapply tame_hidden|]. split_and!; congruence.
    - intros j Hj Hh. apply (sp_out _ _ S j Hj), (tame_shown a' a''); [done|done|lia|done].
  Qed.
  Lemma spared_trans a a' a'' : spared a a' -> spared a' a'' -> spared a a''.
  Proof.
    intros S T. pose proof (sp_len _ _ S) as SL. split.
    - pose proof (sp_len _ _ T). lia.
    - intros j Hj. rewrite (sp_mark _ _ T) by lia. by apply (sp_mark _ _ S).
    - intros j Hj. pose proof (opaque_el_lt _ _ Hj). rewrite (sp_opq _ _ T); [by apply (sp_opq _ _ S)|].
      by rewrite (sp_mark _ _ S).
    - intros j Hj. destruct (sp_hid _ _ S j Hj) as (H1 & H2 & H3 & H4).
      destruct (sp_hid _ _ T j H1) as (G1 & G2 & G3 & G4). split_and!; congruence || done.
    - intros j Hj Hh. apply (sp_out _ _ S j Hj), (sp_out _ _ T); [lia|done].
  Qed.

  Lemma tame_new a d : wf a -> tame a (fst (new_node a d)).
  Proof.
    intros W. destruct (new_node_full a d W) as (W1 & L1 & P1 & C1 & D1 & Cj & Pj & Dj). split.
    - lia.
    - intros j Hj. apply opaque_el_data, Dj. lia.
    - intros j q _. rewrite Pj. auto.
    - intros j Hj. split; [|by rewrite Cj, Pj]. apply Dj. destruct (hidden_parent a j Hj) as (p & Hp & _).
      apply parent_lt in Hp. lia.
    - intros j _. apply Cj.
  Qed.

  Lemma tame_took a a' p pos n d : wf a -> dtook a a' p pos n d -> p < length a -> opaque_el a p = false -> ~ hidden a p ->
    parent a n = None -> children a p !! pos = Some d -> tame a a'.
  Proof.
    intros W T Hp Ho Hh Hn Hd.
    assert (parent a d = Some p) as Hpd by (apply (wf_pc a W); by eapply elem_of_list_lookup_2).
    split.
    - by rewrite (dt_len _ _ _ _ _ _ T).
    - intros j Hj. apply opaque_el_data, T.
    - intros j q Hj. rewrite (dt_parent _ _ _ _ _ _ T). destruct (Nat.eqb_spec j d); [done|].
      destruct (Nat.eqb_spec j n); [|auto]. intros [= <-]. auto.
    - intros j Hj. rewrite (dt_data _ _ _ _ _ _ T), (dt_children _ _ _ _ _ _ T), (dt_parent _ _ _ _ _ _ T).
      destruct (Nat.eqb_spec j p) as [->|]; [done|]. destruct (Nat.eqb_spec j d) as [->|].
      { exfalso. revert Hj. by apply (hidden_not a d p). }
      destruct (Nat.eqb_spec j n) as [->|]; [|done]. exfalso. revert Hj. by apply hidden_root.
    - intros j Hj. rewrite (dt_children _ _ _ _ _ _ T). destruct (Nat.eqb_spec j p) as [->|]; [congruence|done].
  Qed.

  Lemma tame_grew k a a' p pos n : wf a -> dgrew k a a' p pos n -> p < length a -> opaque_el a p = false -> ~ hidden a p ->
    parent a n = None -> tame a a'.
  Proof.
    intros W T Hp Ho Hh Hn. split.
    - rewrite (dg_len _ _ _ _ _ _ T). lia.
    - intros j Hj. apply opaque_el_data. by apply (dg_data _ _ _ _ _ _ T).
    - intros j q Hj. rewrite (dg_parent _ _ _ _ _ _ T). destruct (Nat.eqb_spec j n); [intros [= <-]; auto|].
      destruct (Nat.leb_spec (length a) j); [lia|]. cbn [andb].
      destruct (bool_decide _); [done|auto].
    - intros j Hj. assert (j < length a) as Hl.
      { destruct (hidden_parent a j Hj) as (q & Hq & _). by apply parent_lt in Hq. }
      rewrite (dg_data _ _ _ _ _ _ T), (dg_children _ _ _ _ _ _ T), (dg_parent _ _ _ _ _ _ T) by done.
      destruct (Nat.eqb_spec j p) as [->|]; [done|].
      destruct (Nat.eqb_spec j n) as [->|]; [exfalso; revert Hj; by apply hidden_root|].
      destruct (Nat.leb_spec (length a) j); [lia|]. cbn [andb].
      case_bool_decide as Hin; [|done]. exfalso. revert Hj. apply (hidden_not a j p); [|done|done].
      apply (wf_pc a W). rewrite elem_of_list_lookup in Hin. destruct Hin as (i & Hi).
      apply lookup_take_Some in Hi as [Hi _]. rewrite lookup_drop in Hi. by eapply elem_of_list_lookup_2.
    - intros j Hj. rewrite (dg_children _ _ _ _ _ _ T). destruct (Nat.eqb_spec j p) as [->|]; [congruence|done].
  Qed.

  Lemma tame_replaced a a' n q s : wf a -> replaced a a' n (text_node s) -> parent a n = Some q ->
    opaque_el a q = false -> ~ hidden a q -> tame a a'.
  Proof.
    intros W R Hq Ho Hh. split.
    - rewrite (rp_len _ _ _ _ R). lia.
    - intros j Hj. apply opaque_el_data. apply (rp_data _ _ _ _ R). lia.
    - intros j p Hj. rewrite (rp_parent _ _ _ _ R) by lia. destruct (Nat.eqb j n); [done|auto].
    - intros j Hj. assert (j < length a) as Hl.
      { destruct (hidden_parent a j Hj) as (p & Hp & _). by apply parent_lt in Hp. }
      assert (j <> q) as Hjq by (by intros ->).
      rewrite (rp_data _ _ _ _ R), (rp_parent _ _ _ _ R), (rp_children_other _ _ _ _ R); try lia; try congruence.
      destruct (Nat.eqb_spec j n) as [->|]; [|done]. exfalso. revert Hj. by apply (hidden_not a n q).
    - intros j Hj. apply (rp_children_other _ _ _ _ R); [|congruence]. apply opaque_el_lt in Hj. lia.
  Qed.

  Lemma tame_kept a a' : wf a -> kept a a' -> tame a a'.
  Proof.
    intros W K. split.
    - apply K.
    - intros j Hj. by apply opaque_el_data, K.
    - intros j q Hj. rewrite (kp_parent _ _ K) by done. auto.
    - intros j Hj. assert (j < length a) as Hl.
      { destruct (hidden_parent a j Hj) as (p & Hp & _). by apply parent_lt in Hp. }
      by rewrite (kp_data _ _ K), (kp_children _ _ K), (kp_parent _ _ K).
    - intros j Hj. apply (kp_children _ _ K). by apply opaque_el_lt.
  Qed.

  (** ** The steps on the cut document *)

  Lemma cut_new a d : wf a -> cut (fst (new_node a d)) = fst (new_node (cut a) d).
  Proof.
    intros W. destruct (new_node_full a d W) as (W1 & L1 & P1 & C1 & D1 & Cj & Pj & Dj).
    apply list_eq. intros i. rewrite cut_lookup. unfold new_node in *. cbn [fst] in *.
    destruct (decide (i < length a)) as [Hi|Hi].
    - rewrite !lookup_app_l by (rewrite ?cut_len; lia). rewrite cut_lookup.
      destruct (a !! i) as [n|] eqn:En; [|done]. cbn. f_equal. unfold cut_node. f_equal.
      + destruct (nd_parent n) as [p|] eqn:Ep; [|done].
        rewrite (opaque_el_data a (a ++ [mkNode d None []]) p); [done|]. apply Dj.
        assert (parent a i = Some p) as Hp by (unfold parent; by rewrite En).
        apply (wf_parent_lt a p i W) in Hp. lia.
      + rewrite (opaque_el_data a (a ++ [mkNode d None []]) i); [done|]. apply Dj. lia.
    - destruct (decide (i = length a)) as [->|Hne].
      + rewrite lookup_app_r by lia. rewrite lookup_app_r by (rewrite cut_len; lia).
        rewrite cut_len, Nat.sub_diag. cbn. f_equal. unfold cut_node. cbn. f_equal. by destruct (opaque_el _ _).
      + rewrite !lookup_ge_None_2; [done|rewrite app_length, cut_len; cbn; lia|rewrite app_length; cbn; lia].
  Qed.

  Lemma cut_took a a' p pos n d : wf a -> dtook a a' p pos n d -> p < length a -> opaque_el a p = false ->
    dtook (cut a) (cut a') p pos n d.
  Proof.
    intros W T Hp Ho. assert (forall j, opaque_el a' j = opaque_el a j) as Eo by (intros j; apply opaque_el_data, T).
    split.
    - apply cut_wf, T.
    - rewrite !cut_len. apply T.
    - intros j. rewrite !cut_data. apply T.
    - intros j. rewrite !cut_children, Eo, (dt_children _ _ _ _ _ _ T), Ho.
      destruct (Nat.eqb_spec j p) as [->|]; [by rewrite Ho|done].
    - intros j. rewrite !cut_parent, (dt_parent _ _ _ _ _ _ T).
      destruct (Nat.eqb j d); [done|]. destruct (Nat.eqb j n); [by rewrite Eo, Ho|].
      destruct (parent a j); [by rewrite Eo|done].
  Qed.

  Lemma cut_grew k a a' p pos n : wf a -> dgrew k a a' p pos n -> p < length a -> opaque_el a p = false ->
    dgrew k (cut a) (cut a') p pos n.
  Proof.
    intros W T Hp Ho.
    assert (forall j, j < length a -> opaque_el a' j = opaque_el a j) as Eo.
    { intros j Hj. by apply opaque_el_data, T. }
    split.
    - apply cut_wf, T.
    - rewrite !cut_len, cut_children, Ho. apply T.
    - intros j. rewrite !cut_data, cut_len. apply T.
    - intros j. rewrite !cut_data, !cut_len. apply T.
    - intros j. rewrite !cut_children, !cut_len, Ho, (dg_children _ _ _ _ _ _ T).
      destruct (Nat.eqb_spec j p) as [->|Hne]; [by rewrite (Eo p), Ho|].
      destruct (decide (j < length a)) as [Hj|Hj]; [by rewrite Eo|].
      assert (children a j = []) as ->.
      { destruct (children a j) as [|c l] eqn:E; [done|]. exfalso. apply Hj. apply (children_lt a j c). rewrite E. left. }
      by destruct (opaque_el a' j), (opaque_el a j).
    - intros j. rewrite !cut_parent, !cut_len, cut_children, Ho, (dg_parent _ _ _ _ _ _ T).
      destruct (Nat.eqb j n); [by rewrite Eo, Ho|].
      destruct (_ && _); [by rewrite Eo, Ho|]. destruct (bool_decide _); [done|].
      destruct (parent a j) as [q|] eqn:Eq; [|done]. rewrite Eo; [done|]. by eapply wf_parent_lt.
  Qed.

  Lemma cut_replaced a a' n q s : wf a -> replaced a a' n (text_node s) -> parent a n = Some q ->
    opaque_el a q = false -> replaced (cut a) (cut a') n (text_node s).
  Proof.
    intros W R Hq Ho.
    assert (forall j, j < length a -> opaque_el a' j = opaque_el a j) as Eo.
    { intros j Hj. apply opaque_el_data, R. lia. }
    assert (q < length a) as Hql by (by eapply wf_parent_lt).
    assert (parent (cut a) n = Some q) as Hqc by (by apply cut_parent_some).
    assert (opaque_el a' (length a) = false) as Eon.
    { unfold opaque_el, node_kind. by rewrite (rp_data_new _ _ _ _ R). }
    split.
    - apply cut_wf, R.
    - rewrite !cut_len. apply R.
    - intros j. rewrite !cut_data, cut_len. apply R.
    - rewrite cut_data, cut_len. apply R.
    - rewrite cut_children, cut_len, Eon. apply R.
    - rewrite Hqc, cut_parent, cut_len, (rp_new_parent _ _ _ _ R), Hq. by rewrite Eo, Ho.
    - intros j Hj. rewrite cut_len in Hj. rewrite !cut_parent, (rp_parent _ _ _ _ R) by done.
      destruct (Nat.eqb j n); [done|].
      destruct (parent a j) as [p|] eqn:Ep; [|done]. rewrite Eo; [done|]. by eapply wf_parent_lt.
    - intros p i Hp Hi. assert (p = q) as -> by congruence. rewrite !cut_children in *. rewrite Eo, Ho in * by done.
      rewrite cut_len. by apply R.
    - intros j Hj Hne. rewrite cut_len in Hj. rewrite !cut_children.
      destruct (decide (j < length a)) as [Hl|Hl].
      + rewrite Eo by done. rewrite (rp_children_other _ _ _ _ R); [done|done|]. congruence.
      + rewrite (rp_children_other _ _ _ _ R) by (done || congruence).
        assert (children a j = []) as ->.
        { destruct (children a j) as [|c l] eqn:E; [done|]. exfalso. apply Hl. apply (children_lt a j c). rewrite E. left. }
        by destruct (opaque_el a' j), (opaque_el a j).
  Qed.

  Lemma cut_kept a a' : wf a -> kept a a' -> kept (cut a) (cut a').
  Proof.
    intros W K.
    assert (forall j, j < length a -> opaque_el a' j = opaque_el a j) as Eo.
    { intros j Hj. by apply opaque_el_data, K. }
    split.
    - apply cut_wf, K.
    - rewrite !cut_len. apply K.
    - intros j. rewrite !cut_data, cut_len. apply K.
    - intros j Hj. rewrite cut_len in Hj. rewrite !cut_children, Eo, (kp_children _ _ K) by done. done.
    - intros j Hj. rewrite cut_len in Hj. rewrite !cut_parent, (kp_parent _ _ K) by done.
      destruct (parent a j) as [p|] eqn:Ep; [|done]. rewrite Eo; [done|]. by eapply wf_parent_lt.
  Qed.

  Lemma set_kind_data a n k j : data a n <> None ->
    data (set_kind a n k) j = if Nat.eqb j n then match data a n with Some d => Some (mkD k (d_ns d)) | None => None end
                              else data a j.
  Proof.
    intros Hn. unfold set_kind. destruct (data a n) as [d|] eqn:E; [|done].
    rewrite data_set_data by (by eapply data_lt). done.
  Qed.

  Lemma set_kind_opaque a n k k' : node_kind a n = Some k' ->
    opaque_el (set_kind a n k) n = opaque_el a n -> forall j, opaque_el (set_kind a n k) j = opaque_el a j.
  Proof.
    intros Hk Hn j. destruct (decide (j = n)) as [->|Hne]; [done|]. apply opaque_el_data.
    rewrite set_kind_data; [by destruct (Nat.eqb_spec j n)|]. unfold node_kind in Hk. by destruct (data a n).
  Qed.

  Lemma children_set_kind a n k j : children (set_kind a n k) j = children a j.
  Proof. unfold set_kind. destruct (data a n); [apply children_set_data|done]. Qed.
  Lemma parent_set_kind a n k j : parent (set_kind a n k) j = parent a j.
  Proof. unfold set_kind. destruct (data a n); [apply parent_set_data|done]. Qed.

  Lemma opaque_set_kind_at a n k k' : node_kind a n = Some k' ->
    opaque_el (set_kind a n k) n = match k with NElem _ l => op l | _ => false end.
  Proof.
    intros Hk. unfold opaque_el, node_kind in *. rewrite set_kind_data by (by destruct (data a n)).
    rewrite Nat.eqb_refl. by destruct (data a n).
  Qed.

  Lemma cut_set_kind a n k k' : node_kind a n = Some k' -> opaque_el (set_kind a n k) n = opaque_el a n ->
    cut (set_kind a n k) = set_kind (cut a) n k.
  Proof.
    intros Hk Hn. pose proof (set_kind_opaque a n k k' Hk Hn) as Eo.
    unfold node_kind in Hk. destruct (data a n) as [d|] eqn:Ed; [|done].
    apply list_eq. intros i. rewrite cut_lookup.
    assert (set_kind (cut a) n k = set_data (cut a) n (mkD k (d_ns d))) as ->.
    { unfold set_kind. by rewrite cut_data, Ed. }
    unfold cut_node. unfold set_kind in *. rewrite Ed in *. unfold set_data in *.
    destruct (decide (i = n)) as [->|Hne].
    - rewrite !list_lookup_alter, cut_lookup. destruct (a !! n) as [nd|]; [|done]. cbn. f_equal. f_equal.
      + destruct (nd_parent nd); [|done]. by rewrite Eo.
      + by rewrite Eo.
    - rewrite !list_lookup_alter_ne by done. rewrite cut_lookup. destruct (a !! i) as [nd|]; [|done]. cbn. f_equal.
      unfold cut_node. f_equal.
      + destruct (nd_parent nd); [|done]. by rewrite Eo.
      + by rewrite Eo.
  Qed.

  Lemma tame_set_kind a n k k' : node_kind a n = Some k' -> opaque_el (set_kind a n k) n = opaque_el a n ->
    ~ hidden a n -> tame a (set_kind a n k).
  Proof.
    intros Hk Hn Hh. split.
    - unfold set_kind. destruct (data a n); [|done]. by rewrite length_set_data.
    - intros j _. by eapply set_kind_opaque.
    - intros j q _. rewrite parent_set_kind. auto.
    - intros j Hj. rewrite children_set_kind, parent_set_kind. split; [|done].
      rewrite set_kind_data by (unfold node_kind in Hk; by destruct (data a n)).
      destruct (Nat.eqb_spec j n) as [->|]; done.
    - intros j _. apply children_set_kind.
  Qed.

  (** ** Programs that apply patches *)

  Section Lift.
    Variables (va : attrs -> attrs) (okn : string -> attrs -> Prop) (ap : pstate -> patch -> presult).
    Hypothesis AO : applier (OQ := no_opaques) va okn (=) ap.
    (** The document at the start. *)
    Variable C0 : arena dnode.

    Definition cut_shows (st vs : pstate) : Prop :=
      wf (fst st) /\ fst vs = cut (fst st) /\ snd vs = snd st /\ slots_free (fst st) (snd st) /\ spared C0 (fst st).

    Local Existing Instance op_opaques.

    Lemma cont_opaque a p : is_cont (cut a) p -> opaque_el a p = false /\ is_cont (OQ := no_opaques) a p.
    Proof.
      intros (k & Hk & Hc). rewrite cut_kind in Hk. unfold opaque_el. rewrite Hk.
      destruct k; try done. split; [done|]. by eexists.
    Qed.

    Lemma put_parent a sl n at_ slot p pos : wf a -> slots_free a sl ->
      can_put (cut a) sl n at_ slot p pos -> p < length a /\ opaque_el a p = false /\ ~ hidden a p.
    Proof.
      intros W SF (Hg & Hp & Hc & _). rewrite cut_len in Hp. apply cont_opaque in Hc as [Ho _].
      split; [done|]. split; [done|]. unfold get_slot_parent in Hg. destruct (Nat.ltb _ _); [done|].
      destruct (navigate_slot_path (cut a) sl (removelast at_)) as [r| | |] eqn:E; try done. cbn in Hg.
      injection Hg as <- _. by destruct (cut_slot_path a sl _ r W SF E).
    Qed.

    Lemma put_real a sl n at_ slot p pos : wf a -> slots_free a sl -> parent a n = None ->
      can_put (cut a) sl n at_ slot p pos -> can_put (OQ := no_opaques) a sl n at_ slot p pos.
    Proof.
      intros W SF Hn HC. pose proof (put_parent _ _ _ _ _ _ _ W SF HC) as (Hp & Ho & Hh).
      destruct HC as (Hg & _ & Hc & Hnl & _ & Hna & Hs). rewrite cut_len in Hnl.
      split_and!; try done.
      - unfold get_slot_parent in *. destruct (Nat.ltb _ _); [done|].
        destruct (navigate_slot_path (cut a) sl (removelast at_)) as [r| | |] eqn:E; try done.
        destruct (cut_slot_path a sl _ r W SF E) as [-> _]. done.
      - by apply cont_opaque in Hc as [_ ?].
      - intros Ha. by apply Hna, cut_above.
      - unfold slot_fits in *. destruct slot; [|done]. by rewrite cut_children, Ho in Hs.
    Qed.

    Lemma places_cut a sl n p pos slot a' sl' : wf a -> slots_free a sl ->
      p < length a -> opaque_el a p = false -> ~ hidden a p -> parent a n = None ->
      places a sl n p pos slot a' sl' ->
      wf a' /\ tame a a' /\ slots_free a' sl' /\ places (cut a) sl n p pos slot (cut a') sl'.
    Proof.
      intros W SF Hp Ho Hh Hn. unfold places. destruct slot as [k|].
      - intros (d & Hd & T & ->). assert (tame a a') as Ht by (by eapply tame_took).
        split; [apply T|]. split; [done|]. split.
        + intros j r. unfold slot_set. cbn [slot_get]. destruct (Nat.eqb k j).
          * intros [= <-]. assert (parent a d = Some p) as Hpd by (apply (wf_pc a W); by eapply elem_of_list_lookup_2).
            assert (d < length a) as Hdl by (by eapply parent_lt). pose proof (tm_len _ _ Ht). split; [lia|].
            intros Hd'. apply (tame_shown a a') in Hd'; [|done|done|done]. revert Hd'. by apply (hidden_not a d p).
          * by apply (tame_slots a a' sl W Ht SF).
        + exists d. rewrite cut_children, Ho. split; [done|]. split; [by apply cut_took|done].
      - intros ((k & T) & ->). assert (tame a a') as Ht by (by eapply tame_grew).
        split; [apply T|]. split; [done|]. split; [by apply (tame_slots a a' sl W Ht SF)|].
        split; [|done]. exists k. by apply cut_grew.
    Qed.

    Lemma put_cut a sl n at_ slot p pos (p' : patch) st :
      wf a -> slots_free a sl -> spared C0 a -> parent a n = None ->
      (can_put (OQ := no_opaques) a sl n at_ slot p pos ->
        exists st' a' sl', ap st p' = (st', Val tt) /\ st' = (a', sl') /\ places a sl n p pos slot a' sl') ->
      can_put (cut a) sl n at_ slot p pos ->
      exists st' a' sl', ap st p' = (st', Val tt) /\ cut_shows st' (a', sl') /\ places (cut a) sl n p pos slot a' sl'.
    Proof.
      intros W SF SP Hn Hrun HC.
      destruct (put_parent _ _ _ _ _ _ _ W SF HC) as (Hp & Ho & Hh).
      destruct (Hrun (put_real _ _ _ _ _ _ _ W SF Hn HC)) as (st' & a' & sl' & E & -> & P).
      destruct (places_cut a sl n p pos slot a' sl') as (W' & T & SF' & P'); try done.
      exists (a', sl'), (cut a'), sl'. split; [done|]. split; [|done].
      split; [done|]. split; [done|]. split; [done|]. split; [done|]. by apply (spared_tame _ a).
    Qed.

    Theorem cut_applier : applier va okn cut_shows ap.
    Proof using AO.
      split.
      - intros [R sr] a sl k (W & Ea & Es & SF & SP) _ Hk. cbn [fst snd] in *. subst a sl.
        destruct (ap_insert _ _ _ _ AO (R, sr) R sr k eq_refl W Hk) as (d & Hd & Hput).
        exists d. split; [done|]. intros at_ slot p pos. rewrite <- (cut_new R d W), cut_len.
        destruct (new_node_full R d W) as (W1 & L1 & P1 & _).
        apply put_cut; try done.
        + by apply (tame_slots R _ sr W (tame_new R d W)).
        + apply (spared_tame _ R); [done|done|]. by apply tame_new.
        + apply Hput.
      - intros [R sr] a sl from n q (W & Ea & Es & SF & SP) _ Hf Hn Hq Hc. cbn [fst snd] in *. subst a sl.
        destruct (cut_slot_path R sr from n W SF Hn) as [Hn' Hh]. apply cont_opaque in Hc as [Ho Hc].
        apply cut_parent_some in Hq as [Hq _].
        destruct (ap_move_inner _ _ _ _ AO (R, sr) R sr from n q eq_refl W Hf Hn' Hq Hc) as (R1 & RP & Hput).
        assert (~ hidden R q) as Hhq by (intros ?; apply Hh; by eapply hidden_up).
        exists (cut R1). split; [by eapply cut_replaced|]. intros to slot p pos.
        assert (tame R R1) as T by (by eapply tame_replaced).
        apply put_cut.
        + apply RP.
        + by apply (tame_slots R).
        + by apply (spared_tame _ R).
        + assert (n < length R) by (by eapply parent_lt). rewrite (rp_parent _ _ _ _ RP) by lia. by rewrite Nat.eqb_refl.
        + apply Hput.
      - intros [R sr] a sl k n (W & Ea & Es & SF & SP) _ Hk Hn Hp. cbn [fst snd] in *. subst a sl.
        assert (parent R n = None) as Hp'.
        { rewrite cut_parent in Hp. destruct (parent R n) as [q|] eqn:E; [|done].
          destruct (opaque_el R q) eqn:Eo; [|done]. destruct (SF k n Hn) as [_ []]. by eapply hidden_here. }
        destruct (ap_move_slot _ _ _ _ AO (R, sr) R sr k n eq_refl W Hk Hn Hp') as (sl1 & Hs & Hput).
        exists sl1. split; [done|]. intros to slot p pos. apply put_cut; try done.
        + intros j r Hj. by apply (SF j), Hs.
        + apply Hput.
      - intros [R sr] a sl q n p (W & Ea & Es & SF & SP) _ Hf Hn Hp Hc. cbn [fst snd] in *. subst a sl.
        destruct (cut_slot_path R sr q n W SF Hn) as [Hn' Hh]. apply cont_opaque in Hc as [Ho Hc].
        apply cut_parent_some in Hp as [Hp _].
        destruct (ap_remove_inner _ _ _ _ AO (R, sr) R sr q n p eq_refl W Hf Hn' Hp Hc) as (st' & R1 & RP & E & ->).
        assert (~ hidden R p) as Hhq by (intros ?; apply Hh; by eapply hidden_up).
        assert (tame R R1) as T by (by eapply tame_replaced).
        exists (R1, sr), (cut R1). split; [by eapply cut_replaced|]. split; [done|].
        split; [apply RP|]. split; [done|]. split; [done|]. split; [by apply (tame_slots R)|by apply (spared_tame _ R)].
      - intros [R sr] a sl k n (W & Ea & Es & SF & SP) _ Hk Hn Hl Hp. cbn [fst snd] in *. subst a sl. rewrite cut_len in Hl.
        assert (parent R n = None) as Hp'.
        { rewrite cut_parent in Hp. destruct (parent R n) as [q|] eqn:E; [|done].
          destruct (opaque_el R q) eqn:Eo; [|done]. destruct (SF k n Hn) as [_ []]. by eapply hidden_here. }
        destruct (ap_remove_slot _ _ _ _ AO (R, sr) R sr k n eq_refl W Hk Hn Hl Hp') as (st' & R1 & sl1 & K & Hs & E & ->).
        assert (tame R R1) as T by (by apply tame_kept).
        exists (R1, sl1), (cut R1), sl1. split; [by apply cut_kept|]. split; [done|]. split; [done|].
        split; [apply K|]. split; [done|]. split; [done|]. split; [|by apply (spared_tame _ R)].
        intros j r Hj. apply (tame_slots R R1 sr W T SF j). by apply Hs.
      - intros [R sr] a sl q n tag l0 l l' (W & Ea & Es & SF & SP) _ Hn Hk O1 O2 N1 N2 Ho Hl _. cbn [fst snd] in *. subst a sl.
        destruct (cut_slot_path R sr q n W SF Hn) as [Hn' Hh]. rewrite cut_kind in Hk.
        destruct (ap_update _ _ _ _ AO (R, sr) R sr q n tag l0 l l' eq_refl W Hn' Hk O1 O2 N1 N2 eq_refl
          (or_intror eq_refl) ltac:(done)) as (st' & L & E & -> & HL & _ & HK).
        assert (op L = op l0) as EL.
        { cbn [opq op_opaques] in *. destruct Hl as [->|Hl]; [rewrite HL; done|]. rewrite Hl in *. apply op_false.
          symmetry in Ho. rewrite op_false in Hl, Ho. intros k0 Hk0. destruct (HK k0 Hk0); auto. }
        assert (opaque_el (set_kind R n (NElem tag L)) n = opaque_el R n) as Eo.
        { rewrite (opaque_set_kind_at _ _ _ _ Hk). unfold opaque_el. by rewrite Hk. }
        eexists _, L. split; [exact E|]. split; [|done]. assert (tame R (set_kind R n (NElem tag L))) as T by (by eapply tame_set_kind).
        split; [by apply wf_set_kind|]. cbn [fst snd]. split; [by symmetry; eapply cut_set_kind|]. split; [done|].
        split; [by apply (tame_slots R)|by apply (spared_tame _ R)].
      - intros [R sr] a sl q n s s' (W & Ea & Es & SF & SP) _ Hn Hk. cbn [fst snd] in *. subst a sl.
        destruct (cut_slot_path R sr q n W SF Hn) as [Hn' Hh]. rewrite cut_kind in Hk.
        destruct (ap_text _ _ _ _ AO (R, sr) R sr q n s s' eq_refl W Hn' Hk) as (st' & E & ->).
        assert (opaque_el (set_kind R n (NText s)) n = opaque_el R n) as Eo.
        { rewrite (opaque_set_kind_at _ _ _ _ Hk). unfold opaque_el. by rewrite Hk. }
        eexists. split; [exact E|]. assert (tame R (set_kind R n (NText s))) as T by (by eapply tame_set_kind).
        split; [by apply wf_set_kind|]. cbn [fst snd]. split; [by symmetry; eapply cut_set_kind|]. split; [done|].
        split; [by apply (tame_slots R)|by apply (spared_tame _ R)].
      - intros [R sr] a sl q n s s' (W & Ea & Es & SF & SP) _ Hn Hk. cbn [fst snd] in *. subst a sl.
        destruct (cut_slot_path R sr q n W SF Hn) as [Hn' Hh]. rewrite cut_kind in Hk.
        destruct (ap_comment _ _ _ _ AO (R, sr) R sr q n s s' eq_refl W Hn' Hk) as (st' & E & ->).
        assert (opaque_el (set_kind R n (NComment s)) n = opaque_el R n) as Eo.
        { rewrite (opaque_set_kind_at _ _ _ _ Hk). unfold opaque_el. by rewrite Hk. }
        eexists. split; [exact E|]. assert (tame R (set_kind R n (NComment s))) as T by (by eapply tame_set_kind).
        split; [by apply wf_set_kind|]. cbn [fst snd]. split; [by symmetry; eapply cut_set_kind|]. split; [done|].
        split; [by apply (tame_slots R)|by apply (spared_tame _ R)].
    Qed.
  End Lift.
End Cut.
