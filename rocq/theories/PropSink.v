(** Property theorems on the parser's tree sink and input preparation: C30,
    C34, C36, C37, C38. *)
From Verif Require Import Base Arena Matching Dom HtmlDiff Server Sink ArenaProofs ArenaOps ServerProofs FrameProofs
  AttrProofs SinkProofs.
Local Open Scope string_scope.

(** ** C37: any sensible callback sequence builds a tree *)

(** What html5ever promises about each callback, relative to the tree built so
    far: targets exist, a node handed over for insertion is detached and not
    above the place it goes to. *)
Definition sensible (s : sink) (c : sink_call) : Prop :=
  let a := sk_arena s in
  match c with
  | SAppend p x => p < length a /\ fits a p x
  | SBefore sib x => exists q, parent a sib = Some q /\ fits a q x
  | SFoster el prev x =>
      match parent a el with
      | Some q => fits a q x
      | None => prev < length a /\ fits a prev x
      end
  | SReparent n p => p < length a /\ p <> n /\ forall c, c ∈ children a n -> ~ above a c p
  | _ => True
  end.
Fixpoint all_sensible (s : sink) (cs : list sink_call) : Prop :=
  match cs with
  | [] => True
  | c :: cs' => sensible s c /\ forall s', sink_step s c = Val s' -> all_sensible s' cs'
  end.

Lemma sink_step_wf s c : wf (sk_arena s) -> sensible s c ->
  exists s', sink_step s c = Val s' /\ wf (sk_arena s').
Proof.
  intros W Hc. destruct c as [t ns l|x|  |p x|sib x|e prev x|n|n l|n|n p]; cbn [sink_step sensible] in *.
  1,2,3: eexists; split; [reflexivity|]; apply wf_new; exact W.
  - destruct (sink_append_ok _ p x W (proj1 Hc) (proj2 Hc)) as (a' & -> & W' & _). eexists. split; [reflexivity|done].
  - destruct Hc as (q & Hq & Hf). destruct (sink_before_ok _ sib q x W Hq Hf) as (a' & -> & W' & _).
    eexists. split; [reflexivity|done].
  - unfold sink_foster. destruct (parent (sk_arena s) e) as [q|] eqn:Eq.
    + destruct (sink_before_ok _ e q x W Eq Hc) as (a' & -> & W' & _). eexists. split; [reflexivity|done].
    + destruct (sink_append_ok _ prev x W (proj1 Hc) (proj2 Hc)) as (a' & -> & W' & _). eexists. split; [reflexivity|done].
  - eexists. split; [reflexivity|done].
  - eexists. split; [reflexivity|]. cbn. unfold sink_add_attrs.
    destruct (node_kind (sk_arena s) n) as [[| | |]|]; try done. by apply set_kind_wf.
  - eexists. split; [reflexivity|]. by apply wf_detach.
  - destruct Hc as (Hp & Hne & Hab).
    destruct (reparent_ok p n Hne _ (sk_arena s) W Hp eq_refl Hab) as (a' & E & W' & _).
    unfold sink_reparent. rewrite E. eexists. split; [reflexivity|done].
Qed.

(** Every sensible sequence of callbacks runs to the end without panicking and
    leaves a well-formed tree, whatever the input document was. *)
Theorem sink_builds_tree : forall (cs : list sink_call) (s : sink),
  wf (sk_arena s) -> all_sensible s cs ->
  exists s', sink_run s cs = Val s' /\ wf (sk_arena s').
Proof.
  induction cs as [|c cs IH]; intros s W H; cbn [sink_run]; [by exists s|].
  destruct H as [Hc Hcs]. destruct (sink_step_wf s c W Hc) as (s1 & E & W1). rewrite E. cbn [obind].
  apply IH; [done|]. by apply Hcs.
Qed.
Print Assumptions sink_builds_tree.

(** Reparenting moves exactly the children, in order, to the end of the new
    parent's children. *)
Theorem reparent_exact : forall (a : arena dnode) (n p : nat),
  wf a -> p < length a -> p <> n -> (forall c, c ∈ children a n -> ~ above a c p) ->
  exists a', sink_reparent a n p = Val a' /\ wf a' /\
    children a' n = [] /\ children a' p = (children a p ++ children a n)%list /\
    (forall j, j <> n -> j <> p -> children a' j = children a j) /\
    (forall j, data a' j = data a j).
Proof.
  intros a n p W Hp Hne Hab. destruct (reparent_ok p n Hne _ a W Hp eq_refl Hab) as (a' & E & W' & L & D & N & P & O).
  exists a'. split_and!; done.
Qed.
Print Assumptions reparent_exact.

(** A creation callback adds one detached node with the given content (an empty
    comment for a processing instruction) and changes nothing else. *)
Theorem creation_exact : forall (s : sink) (c : sink_call) (d : dnode),
  wf (sk_arena s) ->
  (exists t ns l, c = SCreateElement t ns l /\ d = mkD (NElem t l) ns) \/
  (exists x, c = SCreateComment x /\ d = mkD (NComment x) NsHtml) \/
  (c = SCreatePi /\ d = mkD (NComment "") NsHtml) ->
  let n := length (sk_arena s) in
  exists s', sink_step s c = Val s' /\ length (sk_arena s') = S n /\ data (sk_arena s') n = Some d /\
    children (sk_arena s') n = [] /\ parent (sk_arena s') n = None /\
    (forall j, j < n -> data (sk_arena s') j = data (sk_arena s) j /\
       children (sk_arena s') j = children (sk_arena s) j /\ parent (sk_arena s') j = parent (sk_arena s) j) /\
    sk_doctype s' = sk_doctype s.
Proof.
  intros s c d W Hc n.
  assert (exists s', sink_step s c = Val s' /\ sk_arena s' = fst (new_node (sk_arena s) d) /\ sk_doctype s' = sk_doctype s)
    as (s' & E & Ea & Ed).
  { destruct Hc as [(t & ns & l & -> & ->)|[(x & -> & ->)|[-> ->]]]; eexists; (split; [reflexivity|done]). }
  exists s'. rewrite Ea. destruct (new_node_full (sk_arena s) d W) as (_ & H1 & H2 & H3 & H4 & _).
  split_and!; try done. intros j Hj. rewrite children_new, parent_new, data_new.
  destruct (Nat.eqb_spec j (length (sk_arena s))); [lia|done].
Qed.
Print Assumptions creation_exact.

(** The new document node alone is well-formed. *)
Lemma sink_new_wf : wf (sk_arena sink_new).
Proof.
  apply wf_new. split.
  - intros i p. unfold parent, children. cbn. rewrite !lookup_nil. split; [done|]. intros H. inversion H.
  - intros p. unfold children. rewrite lookup_nil. constructor.
  - intros i. exists []. constructor. by unfold parent; rewrite lookup_nil.
Qed.

(** A small page: [<html><body>ab<table>], text fostered before the table, and
    attributes added by a second body tag. *)
Definition ex_calls : list sink_call :=
  [SDoctype "html"; SCreateElement "html" NsHtml []; SAppend 0 (AppendNode 1);
   SCreateElement "body" NsHtml []; SAppend 1 (AppendNode 2);
   SAppend 2 (AppendText "a"); SAppend 2 (AppendText "b");
   SCreateElement "table" NsHtml []; SAppend 2 (AppendNode 4);
   SFoster 4 2 (AppendText "c"); SAddAttrs 2 [(mkQ None "" "id", "x")];
   SCreateElement "div" NsHtml []; SReparent 2 5; SAppend 2 (AppendNode 5)].

Ltac sens :=
  repeat match goal with
  | |- all_sensible _ (_ :: _) => split
  | |- forall s', sink_step _ _ = Val s' -> _ => let E := fresh "E" in intros ? E; vm_compute in E; injection E as <-
  | |- all_sensible _ [] => exact I
  end.

Lemma loose_alt (a : arena dnode) p n l : n < length a -> parent a n = None -> chain a p l -> n <> p -> n ∉ l -> loose a p n.
Proof.
  intros H1 H2 H3 H4 H5. split; [done|]. split; [done|]. intros (k & Hk & Hn).
  rewrite (chain_det _ _ _ _ Hk H3) in Hn. destruct Hn; done.
Qed.
Fixpoint chain_of (fuel : nat) (a : arena dnode) (i : nat) : list nat :=
  match fuel with
  | 0 => []
  | S f => match parent a i with Some p => p :: chain_of f a p | None => [] end
  end.

Example sink_example :
  wf (sk_arena sink_new) /\ all_sensible sink_new ex_calls /\
  exists s', sink_run sink_new ex_calls = Val s' /\
    serialize_node (sk_arena s') 1 = Some ("<html><body id=" ++ quote ++ "x" ++ quote ++ "><div>abc<table></table></div></body></html>").
Proof.
  split; [apply sink_new_wf|]. split; [|eexists; split; vm_compute; reflexivity].
  unfold ex_calls. sens; try exact I; cbn [sensible sk_arena fits];
    try (vm_compute; exact I).
  - split; [vm_compute; lia|]. eapply (loose_alt _ _ _ []); [vm_compute; lia|done|by constructor|done|intros H; inversion H].
  - split; [vm_compute; lia|]. eapply (loose_alt _ _ _ [0]); [vm_compute; lia|done| |done|].
    + eapply chain_up; [done|by constructor].
    + intros H. apply elem_of_list_singleton in H. done.
  - split; [vm_compute; lia|exact I].
  - split; [vm_compute; lia|exact I].
  - split; [vm_compute; lia|]. eapply (loose_alt _ _ _ [1; 0]); [vm_compute; lia|done| |done|].
    + eapply chain_up; [done|eapply chain_up; [done|by constructor]].
    + intros H. apply elem_of_list_In in H. cbn in H. lia.
  - split; [vm_compute; lia|]. split; [lia|]. intros c Hc (k & Hk & Hn).
    assert (k = []) as ->. { inversion Hk as [|? ? ? Hp]; [done|]. vm_compute in Hp. discriminate. }
    destruct Hn as [->|Hn]; [|inversion Hn]. apply elem_of_list_In in Hc. vm_compute in Hc. lia.
  - split; [vm_compute; lia|]. eapply (loose_alt _ _ _ [1; 0]); [vm_compute; lia|done| |done|].
    + eapply chain_up; [done|eapply chain_up; [done|by constructor]].
    + intros H. apply elem_of_list_In in H. cbn in H. lia.
Qed.

Lemma split_notin (l1 l2 : list nat) x : NoDup (l1 ++ x :: l2) -> x ∉ l1.
Proof. intros (_ & H & _)%NoDup_app Hx. apply (H x Hx). by left. Qed.
Lemma insert_before_split l1 l2 x n : x ∉ l1 -> insert_before_list x n (l1 ++ x :: l2) = (l1 ++ n :: x :: l2)%list.
Proof.
  induction l1 as [|y l1 IH]; cbn; intros Hx; [by rewrite Nat.eqb_refl|]. apply not_elem_of_cons in Hx as [H1 H2].
  destruct (Nat.eqb_spec y x); [congruence|]. by rewrite IH.
Qed.
Lemma prev_in_none x l : x ∉ l -> prev_in x l = None.
Proof.
  induction l as [|y l IH]; intros Hx; [done|]. apply not_elem_of_cons in Hx as [H1 H2]. specialize (IH H2).
  destruct l as [|z l]; [done|]. apply not_elem_of_cons in H2 as [H2 _]. cbn [prev_in] in *.
  destruct (Nat.eqb_spec z x); [congruence|done].
Qed.
Lemma prev_in_split l1 l2 x : NoDup (l1 ++ x :: l2) -> prev_in x (l1 ++ x :: l2) = list.last l1.
Proof.
  induction l1 as [|y l1 IH]; cbn [app]; intros Hnd.
  - inversion Hnd as [|? ? H1 H2]; subst. destruct l2 as [|z l2]; [done|]. cbn [prev_in list.last].
    pose proof (prev_in_none _ _ H1) as Hp. apply not_elem_of_cons in H1 as [H1 _].
    destruct (Nat.eqb_spec z x); [congruence|done].
  - inversion Hnd as [|? ? H1 H2]; subst. specialize (IH H2). destruct l1 as [|z l1].
    + cbn. by rewrite Nat.eqb_refl.
    + cbn [app prev_in list.last] in *. destruct (Nat.eqb_spec z x) as [->|]; [|done].
      exfalso. inversion H2 as [|? ? H3 _]; subst. apply H3. apply elem_of_app. right. by left.
Qed.

(** The state [s'] is [s] with the detached node [n] made a child of [p], whose
    children are [cs] then. *)
Definition placed (s s' : sink) (p n : nat) (cs : list nat) : Prop :=
  wf (sk_arena s') /\ length (sk_arena s') = length (sk_arena s) /\ sk_doctype s' = sk_doctype s /\
  (forall j, data (sk_arena s') j = data (sk_arena s) j) /\
  children (sk_arena s') p = cs /\ (forall j, j <> p -> children (sk_arena s') j = children (sk_arena s) j) /\
  parent (sk_arena s') n = Some p /\ (forall j, j <> n -> parent (sk_arena s') j = parent (sk_arena s) j).

Lemma linked_placed s a' p n cs : linked (sk_arena s) a' p n cs -> placed s (mkSink a' (sk_doctype s)) p n cs.
Proof.
  intros [W L D C P]. unfold placed. cbn [sk_arena sk_doctype]. split_and!; try done.
  - by rewrite C, Nat.eqb_refl.
  - intros j Hj. rewrite C. by destruct (Nat.eqb_spec j p).
  - by rewrite P, Nat.eqb_refl.
  - intros j Hj. rewrite P. by destruct (Nat.eqb_spec j n).
Qed.

(** A node handed over for insertion becomes the last child, or the child just before
    the given sibling; foster parenting means before the given element if this has a
    parent, and last in the other one if not. *)
Theorem insertion_exact : forall (s : sink) (p n : nat),
  let a := sk_arena s in
  wf a -> p < length a -> n < length a -> parent a n = None -> ~ above a n p ->
  (exists s', sink_step s (SAppend p (AppendNode n)) = Val s' /\ placed s s' p n (children a p ++ [n])%list) /\
  (forall sib l1 l2 c, children a p = (l1 ++ sib :: l2)%list ->
     c = SBefore sib (AppendNode n) \/ (exists prev, c = SFoster sib prev (AppendNode n)) ->
     exists s', sink_step s c = Val s' /\ placed s s' p n (l1 ++ n :: sib :: l2)%list) /\
  (forall el, parent a el = None ->
     exists s', sink_step s (SFoster el p (AppendNode n)) = Val s' /\ placed s s' p n (children a p ++ [n])%list).
Proof.
  intros s p n a W Hp Hn Ho Hab.
  destruct (append_full a p n W Hp Hn Ho Hab) as (a1 & E1 & L1).
  assert (placed s (mkSink a1 (sk_doctype s)) p n (children a p ++ [n])%list) as P1 by by apply linked_placed.
  split; [|split].
  - eexists. split; [|exact P1]. cbn [sink_step sink_append]. fold a. by rewrite E1.
  - intros sib l1 l2 c Ec Hc. assert (parent a sib = Some p) as Es.
    { apply (wf_pc _ W). rewrite Ec. apply elem_of_app. right. by left. }
    destruct (insert_before_full a sib n p W Hn Ho Es Hab) as (a2 & E2 & L2).
    pose proof (wf_nd a W p) as Hnd. rewrite Ec in L2, Hnd. rewrite (insert_before_split _ _ _ _ (split_notin _ _ _ Hnd)) in L2.
    eexists. split; [|by apply linked_placed].
    destruct Hc as [->|[prev ->]]; cbn [sink_step]; fold a; [|unfold sink_foster; rewrite Es]; cbn [sink_before]; by rewrite E2.
  - intros el He. eexists. split; [|exact P1]. cbn [sink_step]. unfold sink_foster. fold a. rewrite He. cbn [sink_append]. by rewrite E1.
Qed.
Print Assumptions insertion_exact.

(** Removing a node takes it, with all below it, from its parent and changes nothing
    else. *)
Theorem removal_exact : forall (s : sink) (p n : nat) l1 l2,
  let a := sk_arena s in
  wf a -> children a p = (l1 ++ n :: l2)%list ->
  exists s', sink_step s (SRemove n) = Val s' /\
    wf (sk_arena s') /\ length (sk_arena s') = length a /\ sk_doctype s' = sk_doctype s /\
    (forall j, data (sk_arena s') j = data a j) /\
    children (sk_arena s') p = (l1 ++ l2)%list /\ (forall j, j <> p -> children (sk_arena s') j = children a j) /\
    parent (sk_arena s') n = None /\ (forall j, j <> n -> parent (sk_arena s') j = parent a j).
Proof.
  intros s p n l1 l2 a W Ec. eexists. split; [reflexivity|]. cbn [sk_arena sk_doctype].
  destruct (detach_full a n W) as [W' L D C P]. fold a.
  pose proof (wf_nd a W p) as Hnd. rewrite Ec in Hnd.
  split_and!; try done.
  - rewrite C, Ec, remove_id_app. cbn [remove_id]. rewrite Nat.eqb_refl.
    rewrite !remove_id_notin; [done| |by eapply split_notin].
    apply NoDup_app in Hnd as (_ & _ & Hnd). by inversion Hnd.
  - intros j Hj. rewrite C. apply remove_id_notin. intros Hi.
    apply (wf_pc a W) in Hi. assert (n ∈ children a p) as Hi' by (rewrite Ec; apply elem_of_app; right; by left).
    apply (wf_pc a W) in Hi'. congruence.
  - by rewrite P, Nat.eqb_refl.
  - intros j Hj. rewrite P. by destruct (Nat.eqb_spec j n).
Qed.
Print Assumptions removal_exact.

Example insertion_example : exists s s' s'',
  sink_run sink_new (firstn 9 ex_calls ++ [SCreateElement "i" NsHtml []])%list = Val s /\
  children (sk_arena s) 2 = [3; 4] /\ sink_step s (SFoster 4 0 (AppendNode 5)) = Val s' /\
  children (sk_arena s') 2 = [3; 5; 4] /\ sink_step s' (SRemove 3) = Val s'' /\ children (sk_arena s'') 2 = [5; 4].
Proof. eexists _, _, _. vm_compute. auto 10. Qed.


(** ** C30: no adjacent text nodes *)

(** Sensible callbacks that only add: no removal, no reparenting, text is not
    inserted before a text node, nodes handed over are not text. *)
Definition only_adds (s : sink) (c : sink_call) : Prop :=
  let a := sk_arena s in
  match c with
  | SRemove _ | SReparent _ _ => False
  | SAppend _ x => not_text a x
  | SBefore sib x => text_at a sib = false /\ not_text a x
  | SFoster el _ x => text_at a el = false /\ not_text a x
  | _ => True
  end.
Fixpoint all_add (s : sink) (cs : list sink_call) : Prop :=
  match cs with
  | [] => True
  | c :: cs' => sensible s c /\ only_adds s c /\ forall s', sink_step s c = Val s' -> all_add s' cs'
  end.

Lemma no_adjacent_new (a : arena dnode) d : wf a -> no_adjacent_text a -> no_adjacent_text (fst (new_node a d)).
Proof.
  intros W. rewrite !no_adjacent_alt. intros H p. rewrite children_new.
  rewrite (noadj_ext _ (text_at a)); [done|]. intros x Hx. unfold text_at, node_kind. rewrite data_new.
  pose proof (wf_child_lt _ _ _ W Hx). destruct (Nat.eqb_spec x (length a)); [lia|done].
Qed.

Theorem sink_merges_text : forall (cs : list sink_call) (s : sink),
  wf (sk_arena s) -> no_adjacent_text (sk_arena s) -> all_add s cs ->
  exists s', sink_run s cs = Val s' /\ wf (sk_arena s') /\ no_adjacent_text (sk_arena s').
Proof.
  induction cs as [|c cs IH]; intros s W N H; cbn [sink_run]; [by exists s|].
  destruct H as (Hc & Ha & Hcs).
  assert (exists s1, sink_step s c = Val s1 /\ wf (sk_arena s1) /\ no_adjacent_text (sk_arena s1))
    as (s1 & E & W1 & N1).
  { destruct c as [t ns l|x|  |p x|sib x|e prev x|n|n l|n|n p]; cbn [sink_step sensible only_adds] in *; try done.
    1,2,3: eexists; split; [reflexivity|]; split; [apply wf_new; exact W|by apply no_adjacent_new].
    - destruct (sink_append_ok _ p x W (proj1 Hc) (proj2 Hc)) as (a' & -> & W' & _ & N').
      eexists. split; [reflexivity|]. split; [done|by apply N'].
    - destruct Hc as (q & Hq & Hf). destruct (sink_before_ok _ sib q x W Hq Hf) as (a' & -> & W' & _ & N').
      eexists. split; [reflexivity|]. split; [done|]. apply N'; [done|apply Ha..].
    - unfold sink_foster. destruct (parent (sk_arena s) e) as [q|] eqn:Eq.
      + destruct (sink_before_ok _ e q x W Eq Hc) as (a' & -> & W' & _ & N').
        eexists. split; [reflexivity|]. split; [done|]. apply N'; [done|apply Ha..].
      + destruct (sink_append_ok _ prev x W (proj1 Hc) (proj2 Hc)) as (a' & -> & W' & _ & N').
        eexists. split; [reflexivity|]. split; [done|]. apply N'; [done|apply Ha..].
    - eexists. split; [reflexivity|done].
    - eexists. split; [reflexivity|]. cbn. unfold sink_add_attrs.
      destruct (node_kind (sk_arena s) n) as [[|tg ats| |]|] eqn:Ek; try done.
      split; [by apply set_kind_wf|]. revert N. rewrite !no_adjacent_alt. intros N q. rewrite children_set_kind.
      rewrite (noadj_ext _ (text_at (sk_arena s))); [done|]. intros y _. unfold text_at, node_kind, set_kind in *.
      destruct (data (sk_arena s) n) as [dn|] eqn:En; [|done]. destruct (decide (y = n)) as [->|Hne].
      + rewrite data_set_data, Nat.eqb_refl, En by (by eapply data_lt). injection Ek as ->. done.
      + by rewrite data_set_data_ne. }
  rewrite E. cbn [obind]. apply IH; [done..|]. by apply Hcs.
Qed.
Print Assumptions sink_merges_text.

(** Appending text appends exactly this text to the text directly below the
    parent, and touches no other node's children or text. *)
Theorem sink_text_is_kept : forall (a : arena dnode) (p : nat) (s : string),
  wf a -> p < length a ->
  exists a', sink_append a p (AppendText s) = Val a' /\
    direct_text a' p = direct_text a p ++ s /\
    (forall q, q <> p -> children a' q = children a q) /\
    (forall q, q <> p -> direct_text a' q = direct_text a q).
Proof. exact sink_append_text. Qed.
Print Assumptions sink_text_is_kept.

(** Text inserted before a sibling, or fostered before an element, comes after the text
    before it and before what follows. *)
Theorem sink_text_before : forall (s : sink) (p sib : nat) (l1 l2 : list nat) (x : string) (c : sink_call),
  let a := sk_arena s in
  wf a -> children a p = (l1 ++ sib :: l2)%list ->
  c = SBefore sib (AppendText x) \/ (exists prev, c = SFoster sib prev (AppendText x)) ->
  exists s' k, let a' := sk_arena s' in
    sink_step s c = Val s' /\ wf a' /\
    children a' p = (l1 ++ k ++ sib :: l2)%list /\ (forall j, j ∈ k -> length a <= j) /\
    texts_of a' (l1 ++ k) = texts_of a l1 ++ x /\ texts_of a' (sib :: l2) = texts_of a (sib :: l2) /\
    (forall q, q <> p -> q < length a -> children a' q = children a q) /\
    (forall q, q <> p -> q < length a -> direct_text a' q = direct_text a q).
Proof.
  intros s p sib l1 l2 x c a W Ec Hc.
  pose proof (wf_nd a W p) as Hnd. rewrite Ec in Hnd. pose proof (split_notin _ _ _ Hnd) as Hni.
  assert (sib ∈ children a p) as Hin by (rewrite Ec; apply elem_of_app; right; by left).
  pose proof (proj2 (wf_pc _ W sib p) Hin) as Es.
  assert (exists a' k, sink_before a sib (AppendText x) = Val a' /\ wf a' /\
    children a' p = (l1 ++ k ++ sib :: l2)%list /\ (forall j, j ∈ k -> length a <= j) /\
    texts_of a' (l1 ++ k) = texts_of a l1 ++ x /\ texts_of a' (sib :: l2) = texts_of a (sib :: l2) /\
    (forall q, q <> p -> q < length a -> children a' q = children a q) /\
    (forall q, q <> p -> q < length a -> direct_text a' q = direct_text a q)) as (a' & k & E & HR).
  2:{ exists (mkSink a' (sk_doctype s)), k. split; [|exact HR].
      destruct Hc as [->|[prev ->]]; cbn [sink_step]; fold a; [|unfold sink_foster; rewrite Es]; by rewrite E. }
  cbn [sink_before].
  assert (exists a' k, insert_before (fst (new_node a (text_node x))) sib (length a) = Val a' /\ wf a' /\
    children a' p = (l1 ++ k ++ sib :: l2)%list /\ (forall j, j ∈ k -> length a <= j) /\
    texts_of a' (l1 ++ k) = texts_of a l1 ++ x /\ texts_of a' (sib :: l2) = texts_of a (sib :: l2) /\
    (forall q, q <> p -> q < length a -> children a' q = children a q) /\
    (forall q, q <> p -> q < length a -> direct_text a' q = direct_text a q)) as Hfresh.
  { pose proof (wf_parent_lt _ _ _ W Es) as Hp.
    destruct (new_node_full a (text_node x) W) as (W1 & L1 & P1 & C1 & D1 & Cj & Pj & Dj).
    destruct (insert_before_full (fst (new_node a (text_node x))) sib (length a) p W1) as (a' & E & [W' L D C P]);
      [lia|done|by rewrite Pj|apply leaf_not_above; [done|done|lia]|].
    assert (Ho : forall q y, y ∈ children a q -> own_text a' y = own_text a y).
    { intros q y Hy. unfold own_text, node_kind. rewrite D, Dj; [done|]. pose proof (wf_child_lt _ _ _ W Hy). lia. }
    exists a', [length a]. split; [done|]. split; [done|]. split_and!.
    - rewrite C, Nat.eqb_refl, Cj, Ec. by rewrite insert_before_split.
    - intros j Hj. apply elem_of_list_singleton in Hj as ->. lia.
    - rewrite texts_app. f_equal.
      + apply texts_ext. intros y Hy. apply (Ho p). rewrite Ec. apply elem_of_app. by left.
      + unfold texts_of. cbn. unfold own_text, node_kind. by rewrite D, D1.
    - apply texts_ext. intros y Hy. apply (Ho p). rewrite Ec. apply elem_of_app. by right.
    - intros q Hq _. rewrite C. destruct (Nat.eqb_spec q p); [done|]. apply Cj.
    - intros q Hq _. unfold direct_text. rewrite C. destruct (Nat.eqb_spec q p); [done|]. rewrite Cj. apply texts_ext, Ho. }
  change (new_node a (text_node x)) with (fst (new_node a (text_node x)), length a). cbv beta iota zeta.
  unfold previous_sibling. rewrite Es, Ec, prev_in_split by done.
  destruct (list.last l1) as [l|] eqn:El; [|done].
  destruct (node_kind a l) as [[| |e|]|] eqn:Ek; try done. clear Hfresh.
  apply last_Some in El as [l' El]. assert (Hl : l ∈ l1) by (rewrite El; apply elem_of_app; right; by left).
  assert (l ∈ children a p) as Hlp by (rewrite Ec; apply elem_of_app; by left).
  pose proof (wf_child_lt _ _ _ W Hlp) as Hll.
  assert (l ∉ sib :: l2) as Hl2 by (intros F; apply NoDup_app in Hnd as (_ & Hd & _); by apply (Hd l)).
  exists (set_kind a l (NText (e ++ x))), []. split; [done|]. split; [unfold set_kind; destruct (data a l); [by apply wf_set_data|done]|]. split_and!.
  - by rewrite children_set_kind, Ec.
  - intros j Hj. by apply elem_of_nil in Hj.
  - rewrite app_nil_r, El, !texts_app, str_app_assoc. f_equal.
    + apply texts_ext. intros y Hy. rewrite own_text_set_kind by done. destruct (Nat.eqb_spec y l) as [->|]; [|done].
      exfalso. rewrite El in Hnd. apply NoDup_app in Hnd as (Hnd & _). by apply split_notin in Hnd.
    + unfold texts_of. cbn. rewrite own_text_set_kind, Nat.eqb_refl by done. unfold own_text. by rewrite Ek.
  - apply texts_ext. intros y Hy. rewrite own_text_set_kind by done. destruct (Nat.eqb_spec y l) as [->|]; done.
  - intros q _ _. apply children_set_kind.
  - intros q Hq _. unfold direct_text. rewrite children_set_kind. apply texts_ext. intros y Hy.
    rewrite own_text_set_kind by done. destruct (Nat.eqb_spec y l) as [->|]; [|done].
    apply (wf_pc a W) in Hy, Hlp. congruence.
Qed.
Print Assumptions sink_text_before.

Example sink_text_example :
  exists s', sink_run sink_new (firstn 10 ex_calls) = Val s' /\
    children (sk_arena s') 2 = [3; 4] /\ direct_text (sk_arena s') 2 = "abc".
Proof. eexists. vm_compute. auto. Qed.

(** With removals the invariant is lost: the parser may leave adjacent text
    nodes behind. *)
Theorem remove_makes_adjacent_text_refuted : exists cs s,
  all_sensible sink_new cs /\ sink_run sink_new cs = Val s /\ ~ no_adjacent_text (sk_arena s).
Proof.
  exists [SAppend 0 (AppendText "a"); SCreateElement "p" NsHtml []; SAppend 0 (AppendNode 2);
          SAppend 0 (AppendText "b"); SRemove 2]. eexists.
  split; [|split; [vm_compute; reflexivity|]].
  - sens; cbn [sensible sk_arena fits]; try exact I; try (split; [vm_compute; lia|exact I]).
    split; [vm_compute; lia|]. eapply (loose_alt _ _ _ []); [vm_compute; lia|done|by constructor|done|intros H; inversion H].
  - intros H. apply (H 0 0 1 3); vm_compute; auto.
Qed.
Print Assumptions remove_makes_adjacent_text_refuted.

(** ** C36: attributes of repeated html/body tags *)

(** [add_attrs_if_missing] never overwrites: existing attributes keep value and
    place, missing ones get the first given value, no name is duplicated. *)
Theorem add_attrs_only_adds : forall (old new : attrs),
  (exists extra, add_missing old new = (old ++ extra)%list) /\
  (forall q, attr_get q (add_missing old new) =
     match attr_get q old with Some v => Some v | None => attr_get q new end) /\
  (NoDup (keys old) -> NoDup (keys (add_missing old new))).
Proof.
  intros old new. split; [apply add_missing_prefix|]. split; [intros q; apply add_missing_get|apply add_missing_nodup].
Qed.
Print Assumptions add_attrs_only_adds.
Example add_attrs_example :
  let q n := mkQ None "" n in
  add_missing [(q "id", "1"); (q "class", "x")] [(q "class", "y"); (q "lang", "en"); (q "lang", "de")]
  = [(q "id", "1"); (q "class", "x"); (q "lang", "en")].
Proof. vm_compute. reflexivity. Qed.

(** The callback does this to the attributes of the named element and nothing else. *)
Theorem add_attrs_callback : forall (s : sink) (n : nat) (tag : string) (ns : nspace) (old new : attrs),
  data (sk_arena s) n = Some (mkD (NElem tag old) ns) ->
  exists s' extra, sink_step s (SAddAttrs n new) = Val s' /\
    data (sk_arena s') n = Some (mkD (NElem tag (old ++ extra)%list) ns) /\
    (forall q, attr_get q (old ++ extra)%list = match attr_get q old with Some v => Some v | None => attr_get q new end) /\
    (NoDup (keys old) -> NoDup (keys (old ++ extra)%list)) /\
    (forall j, j <> n -> data (sk_arena s') j = data (sk_arena s) j) /\
    (forall j, children (sk_arena s') j = children (sk_arena s) j /\ parent (sk_arena s') j = parent (sk_arena s) j) /\
    length (sk_arena s') = length (sk_arena s) /\ sk_doctype s' = sk_doctype s.
Proof.
  intros s n tag ns old new Hn. destruct (add_attrs_only_adds old new) as ((extra & Ee) & Hg & Hd).
  eexists _, extra. split; [reflexivity|]. cbn [sk_arena sk_doctype]. rewrite <- Ee.
  unfold sink_add_attrs. unfold node_kind. rewrite Hn. cbn [d_kind].
  split; [|split; [done|split; [done|]]]; unfold set_kind; rewrite Hn.
  - rewrite data_set_data, Nat.eqb_refl by (by eapply data_lt). done.
  - split; [intros j Hj; by rewrite data_set_data_ne|]. split; [|by rewrite length_set_data].
    intros j. by rewrite children_set_data, parent_set_data.
Qed.
Print Assumptions add_attrs_callback.
Example add_attrs_callback_example : exists s s',
  sink_run sink_new (firstn 5 ex_calls) = Val s /\
  data (sk_arena s) 2 = Some (mkD (NElem "body" []) NsHtml) /\
  sink_step s (SAddAttrs 2 [(mkQ None "" "id", "x"); (mkQ None "" "id", "y")]) = Val s' /\
  data (sk_arena s') 2 = Some (mkD (NElem "body" [(mkQ None "" "id", "x")]) NsHtml).
Proof. eexists _, _. vm_compute. auto. Qed.

(** ** C34: letter case *)

Theorem detection_ignores_case : forall s t : string,
  to_ascii_lowercase s = to_ascii_lowercase t ->
  has_doctype_prefix s = has_doctype_prefix t /\ has_html_structure s = has_html_structure t.
Proof.
  intros s t E. rewrite <- (doctype_lower s), <- (doctype_lower t), <- (structure_lower s), <- (structure_lower t), E.
  done.
Qed.
Print Assumptions detection_ignores_case.

(** What lower case means, letter by letter; every other byte is kept. *)
Definition upper_letters : list ascii := list_ascii_of_string "ABCDEFGHIJKLMNOPQRSTUVWXYZ".
Definition lower_letters : list ascii := list_ascii_of_string "abcdefghijklmnopqrstuvwxyz".
Theorem lower_case_exact : forall c : ascii,
  (c ∉ upper_letters /\ lower_char c = c) \/
  exists k, upper_letters !! k = Some c /\ lower_letters !! k = Some (lower_char c).
Proof.
  intros c.
  assert (forallb (fun c => match List.filter (fun k => match upper_letters !! k with Some u => Ascii.eqb u c | None => false end) (seq 0 26) with
    | [] => negb (existsb (Ascii.eqb c) upper_letters) && Ascii.eqb (lower_char c) c
    | k :: _ => match upper_letters !! k, lower_letters !! k with
                | Some u, Some l => Ascii.eqb u c && Ascii.eqb l (lower_char c)
                | _, _ => false
                end
    end) (map Ascii.ascii_of_nat (seq 0 256)) = true) as HF by (vm_compute; reflexivity).
  rewrite forallb_forall in HF. specialize (HF c).
  assert (In c (map Ascii.ascii_of_nat (seq 0 256))) as Hc.
  { apply in_map_iff. exists (Ascii.nat_of_ascii c). split; [apply Ascii.ascii_nat_embedding|]. apply in_seq.
    pose proof (Ascii.nat_ascii_bounded c). lia. }
  specialize (HF Hc). cbv beta in HF. destruct (List.filter _ _) as [|k l].
  - left. apply andb_true_iff in HF as [H1 H2]. split; [|by apply Ascii.eqb_eq].
    intros Hin. apply negb_true_iff in H1. rewrite <- not_true_iff_false in H1. apply H1, existsb_exists.
    exists c. split; [by apply elem_of_list_In|apply Ascii.eqb_refl].
  - right. exists k. destruct (upper_letters !! k) as [u|]; [|done]. destruct (lower_letters !! k) as [v|]; [|done].
    apply andb_true_iff in HF as [H1 H2]. apply Ascii.eqb_eq in H1, H2. by subst.
Qed.
Print Assumptions lower_case_exact.

(** A page has structure of its own if a tag [<html] or [<body] occurs anywhere, in
    any case. *)
Theorem structure_anywhere : forall s : string,
  has_html_structure s = true <->
  exists u t v, s = u ++ t ++ v /\ (to_ascii_lowercase t = "<html" \/ to_ascii_lowercase t = "<body").
Proof.
  intros s.
  assert (forall w, str_contains (to_ascii_lowercase s) w = true <->
            exists u t v, s = u ++ t ++ v /\ to_ascii_lowercase t = w) as HC.
  { intros w. unfold str_contains. destruct (str_find w (to_ascii_lowercase s)) as [k|] eqn:E.
    - split; [|done]. intros _. apply str_find_some in E as [(v & Hv) _]. rewrite lower_drop in Hv.
      exists (str_take k s), (str_take (String.length w) (str_drop k s)), (str_drop (String.length w) (str_drop k s)).
      split; [by rewrite !take_drop|]. rewrite <- lower_take, Hv. apply take_app.
    - split; [done|]. intros (u & t & v & -> & <-). exfalso. eapply str_find_none_occurs; [exact E|].
      rewrite !lower_app. by eexists _, _. }
  unfold has_html_structure. rewrite orb_true_iff, !HC. split.
  - intros [(u & t & v & E & L)|(u & t & v & E & L)]; exists u, t, v; auto.
  - intros (u & t & v & E & [L|L]); [left|right]; by exists u, t, v.
Qed.
Print Assumptions structure_anywhere.

Example detection_example :
  has_doctype_prefix " <!DocType HTML>" = true /\ has_doctype_prefix " <!doctyp html>" = false /\
  has_html_structure "x<HTML>" = true /\ has_html_structure "<p>" = false.
Proof. vm_compute. auto. Qed.

Lemma ws_codes c : is_ascii_ws c = true <-> Ascii.nat_of_ascii c ∈ [32; 9; 10; 12; 13].
Proof. unfold is_ascii_ws. rewrite !orb_true_iff, !Nat.eqb_eq, !elem_of_cons, elem_of_nil. tauto. Qed.

(** A doctype is recognised exactly when, after leading white space (space, tab,
    newline, form feed, carriage return), the text starts with the nine letters
    in any case. *)
Theorem doctype_exact : forall s : string,
  has_doctype_prefix s = true <->
  exists w d r, s = w ++ d ++ r /\ to_ascii_lowercase d = "<!doctype" /\
    (forall c u v, w = u ++ String c v -> Ascii.nat_of_ascii c ∈ [32; 9; 10; 12; 13]).
Proof.
  intros s. setoid_rewrite <- ws_codes.
  unfold has_doctype_prefix. destruct (skip_ws_spec s) as (w & E & Hw & Hs).
  rewrite andb_true_iff, Nat.leb_le, String.eqb_eq. split.
  - intros [_ H]. exists w, (str_take 9 (skip_ws s)), (str_drop 9 (skip_ws s)).
    rewrite take_drop. done.
  - intros (w' & d & r & Hd & Hl & Hw').
    assert (Ed : exists x d', d = String x d' /\ is_ascii_ws x = false).
    { destruct d as [|x d']; [discriminate|]. exists x, d'. split; [done|]. cbn in Hl. injection Hl as Hx _.
      rewrite <- ws_lower, Hx. vm_compute. reflexivity. }
    assert (skip_ws s = d ++ r) as ->.
    { rewrite Hd. clear -Hw' Ed. induction w' as [|c w' IH]; cbn.
      - destruct Ed as (x & d' & -> & Hx). cbn. by rewrite Hx.
      - rewrite (Hw' c "" w' eq_refl). apply IH. intros c' u v ->. by apply (Hw' c' (String c u) v). }
    assert (L : String.length d = 9) by (by rewrite <- lower_length, Hl).
    rewrite str_app_length, L. split; [lia|]. rewrite <- L, take_app. done.
Qed.
Print Assumptions doctype_exact.

(** ** C38: input preparation *)

(** The parser always sees the given text intact, with a doctype in front of
    it; text is only added when the input has no doctype, and then the
    document's own doctype is reported as absent. *)
Theorem parser_input_keeps_text : forall s : string,
  has_doctype_prefix (parser_input s) = true /\
  (exists pre post, parser_input s = pre ++ s ++ post) /\
  (has_doctype_prefix s = true -> parser_input s = s) /\
  (forall html5ever d, has_doctype_prefix s = false -> parse html5ever s = Val d -> doc_doctype d = None).
Proof.
  intros s. unfold parser_input. destruct (has_doctype_prefix s) eqn:E.
  - split_and!; try done. exists "", "". cbn. by rewrite str_app_nil_r.
  - split_and!; try done.
    + destruct (has_html_structure s); unfold has_doctype_prefix; cbn; done.
    + destruct (has_html_structure s); [exists "<!DOCTYPE html>", ""; by rewrite str_app_nil_r|].
      by exists "<!DOCTYPE html><html><body>", "</body></html>".
    + intros h d _. unfold parse. destruct (sink_run sink_new _) as [k| | |]; try done. cbn. rewrite E.
      by intros [= <-].
Qed.
Print Assumptions parser_input_keeps_text.

(** With a doctype in the input the document's doctype is the last one the parser
    reported, if it reported any. *)
Definition is_doctype_call (c : sink_call) : Prop := exists n, c = SDoctype n.
Lemma sink_run_doctype cs : forall s s', sink_run s cs = Val s' ->
  (exists pre n post, cs = (pre ++ SDoctype n :: post)%list /\ (forall c, c ∈ post -> ~ is_doctype_call c) /\
     sk_doctype s' = Some n) \/
  ((forall c, c ∈ cs -> ~ is_doctype_call c) /\ sk_doctype s' = sk_doctype s).
Proof.
  induction cs as [|c cs IH]; intros s s' E; cbn [sink_run] in E.
  - injection E as <-. right. split; [|done]. intros c Hc. inversion Hc.
  - destruct (sink_step s c) as [s1| | |] eqn:E1; try done. cbn [obind] in E.
    destruct (IH s1 s' E) as [(pre & n & post & -> & Hp & Hn)|[Hp Hn]].
    + left. by exists (c :: pre), n, post.
    + assert (Hd : (exists n, c = SDoctype n /\ sk_doctype s1 = Some n) \/
                   (~ is_doctype_call c /\ sk_doctype s1 = sk_doctype s)).
      { destruct c; try (right; split; [by intros (? & ?)|]);
          try (left; eexists; split; [reflexivity|]);
          cbn [sink_step] in E1;
          repeat match type of E1 with
                 | obind ?o _ = _ => destruct o; try done; cbn [obind] in E1
                 end; by injection E1 as <-. }
      destruct Hd as [(n & -> & Hd)|[Hc Hd]].
      * left. exists [], n, cs. rewrite Hn. done.
      * right. split; [|by rewrite Hn]. intros x Hx. apply elem_of_cons in Hx as [->|Hx]; [done|by apply Hp].
Qed.
Theorem doctype_reported : forall (html5ever : string -> list sink_call) (s : string) (d : document),
  has_doctype_prefix s = true -> parse html5ever s = Val d ->
  match doc_doctype d with
  | Some n => exists pre post, html5ever s = (pre ++ SDoctype n :: post)%list /\ forall m, SDoctype m ∉ post
  | None => forall m, SDoctype m ∉ html5ever s
  end.
Proof.
  intros h s d Hp E. destruct (parser_input_keeps_text s) as (_ & _ & Hi & _). unfold parse in E.
  rewrite (Hi Hp), Hp in E. destruct (sink_run sink_new (h s)) as [k| | |] eqn:Ek; try done.
  cbn [obind] in E. injection E as <-. cbn [sink_finish doc_doctype].
  destruct (sink_run_doctype _ _ _ Ek) as [(pre & n & post & E' & Hn & ->)|[Hn ->]].
  - exists pre, post. split; [done|]. intros m Hm. apply (Hn _ Hm). by exists m.
  - cbn. intros m Hm. apply (Hn _ Hm). by exists m.
Qed.
Print Assumptions doctype_reported.
Example doctype_example : exists d,
  has_doctype_prefix "<!doctype html><p>" = true /\ parse (fun _ => ex_calls) "<!doctype html><p>" = Val d /\
  doc_doctype d = Some "html".
Proof. eexists. vm_compute. auto. Qed.
Example parser_input_example :
  parser_input " x" = "<!DOCTYPE html><html><body> x</body></html>" /\
  parser_input "<body>x" = "<!DOCTYPE html><body>x".
Proof. vm_compute. auto. Qed.

(** Finding: any occurrence of the letters, even inside an attribute value or
    as the start of a longer tag name, counts as document structure, so the
    protection of leading white space is lost for such fragments. *)
Theorem structure_detection_refuted : exists s,
  parser_input s = "<!DOCTYPE html>" ++ s /\ ~ occurs "<body>" s /\ ~ occurs "<html>" s /\
  str_take 3 s = " x<".
Proof.
  exists " x<bodyguard></bodyguard>". split; [vm_compute; reflexivity|].
  split; [apply str_find_none_occurs; vm_compute; reflexivity|].
  split; [apply str_find_none_occurs; vm_compute; reflexivity|vm_compute; reflexivity].
Qed.
Print Assumptions structure_detection_refuted.

(** Finding: the root is the first child of the document node whatever it is;
    after a leading comment it is the comment, and the page has no body. *)
Theorem leading_comment_hides_body_refuted : exists cs s,
  all_sensible sink_new cs /\ sink_run sink_new cs = Val s /\
  serialize_inner_html (sk_arena s) 0 = Some "<!--c--><html><body></body></html>" /\
  body (sink_finish s) = None /\ to_body_html (sink_finish s) = Some "".
Proof.
  exists [SCreateComment "c"; SAppend 0 (AppendNode 1); SCreateElement "html" NsHtml []; SAppend 0 (AppendNode 2);
          SCreateElement "body" NsHtml []; SAppend 2 (AppendNode 3)].
  eexists. split; [|vm_compute; auto].
  sens; cbn [sensible sk_arena fits]; try exact I.
  - split; [vm_compute; lia|]. eapply (loose_alt _ _ _ []); [vm_compute; lia|done|by constructor|done|intros H; inversion H].
  - split; [vm_compute; lia|]. eapply (loose_alt _ _ _ []); [vm_compute; lia|done|by constructor|done|intros H; inversion H].
  - split; [vm_compute; lia|]. eapply (loose_alt _ _ _ [0]); [vm_compute; lia|done| |done|].
    + eapply chain_up; [done|by constructor].
    + intros H. apply elem_of_list_singleton in H. done.
Qed.
Print Assumptions leading_comment_hides_body_refuted.
