(** Documents built by the parser's callbacks are proper: texts and comments are
    leaves, the document node is nobody's child, attribute names are distinct.
    Used for C43. *)
From Verif Require Import Base Arena Matching Chawathe Dom HtmlDiff Server Sink ArenaProofs ArenaOps ServerProofs
  FrameProofs AttrProofs SinkProofs DiffTotal.
Local Open Scope string_scope.

(** [p] may have children. *)
Definition container (a : arena dnode) (p : nat) : Prop :=
  match node_kind a p with Some (NElem _ _) | Some NDocument => True | _ => False end.

Record parsed (a : arena dnode) : Prop := {
  ps_wf : wf a;
  ps_leaf : forall i s, node_kind a i = Some (NText s) \/ node_kind a i = Some (NComment s) -> children a i = [];
  ps_doc : forall i, node_kind a i = Some NDocument -> i = 0;
  ps_root : parent a 0 = None;
  ps_attrs : forall i tag ns l, data a i = Some (mkD (NElem tag l) ns) -> NoDup (map fst l)
}.

Lemma parsed_proper a r t : parsed a -> proper (mkDoc a r t).
Proof.
  intros P. split; cbn; [apply P|apply P|]. intros i p Hp Hk. apply (ps_doc a P) in Hk as ->.
  rewrite (ps_root a P) in Hp. discriminate.
Qed.

Lemma parsed_nodes a a' : parsed a -> wf a' -> (forall j, data a' j = data a j) -> parent a' 0 = None ->
  (forall i s, node_kind a i = Some (NText s) \/ node_kind a i = Some (NComment s) -> children a' i = []) -> parsed a'.
Proof.
  intros P W D R L. assert (K : forall j, node_kind a' j = node_kind a j) by (intros j; unfold node_kind; by rewrite D).
  split; [done| | |done|].
  - intros i s. rewrite K. apply L.
  - intros i. rewrite K. apply P.
  - intros i tag ns l. rewrite D. apply P.
Qed.

Lemma parsed_new a d : parsed a -> length a <> 0 -> d_kind d <> NDocument ->
  (forall t l, d_kind d = NElem t l -> NoDup (map fst l)) -> parsed (fst (new_node a d)).
Proof.
  intros P Hl Hd Ha. destruct (new_node_full a d (ps_wf a P)) as (W & L & Pn & Cn & Dn & Cj & Pj & Dj).
  set (a' := fst (new_node a d)) in *.
  assert (K : forall j, j <> length a -> node_kind a' j = node_kind a j) by (intros j Hj; unfold node_kind; by rewrite Dj).
  split; [done| | | |].
  - intros i s. destruct (decide (i = length a)) as [->|Hne]; [done|]. rewrite K, Cj by done. apply P.
  - intros i Hi. destruct (decide (i = length a)) as [->|Hne]; [|rewrite K in Hi by done; by apply P].
    unfold node_kind in Hi. rewrite Dn in Hi. congruence.
  - rewrite Pj. apply P.
  - intros i tag ns l Hi. destruct (decide (i = length a)) as [->|Hne].
    + rewrite Dn in Hi. injection Hi as ->. by eapply Ha.
    + rewrite Dj in Hi by done. by eapply P.
Qed.

Lemma container_not_leaf a p s : container a p -> node_kind a p = Some (NText s) \/ node_kind a p = Some (NComment s) -> False.
Proof. unfold container. intros C [E|E]; by rewrite E in C. Qed.

Lemma child_container a p c : parsed a -> c ∈ children a p -> container a p.
Proof.
  intros P Hc. unfold container. destruct (node_kind a p) as [[|t l|s|s]|] eqn:E; try done.
  - rewrite (ps_leaf a P p s) in Hc by auto. inversion Hc.
  - rewrite (ps_leaf a P p s) in Hc by auto. inversion Hc.
  - unfold node_kind, data in E. unfold children in Hc. destruct (a !! p) as [n|]; [done|]. inversion Hc.
Qed.

Lemma parsed_linked a a' p c cs : parsed a -> linked a a' p c cs -> container a p -> c <> 0 -> parsed a'.
Proof.
  intros P [W L D C Pa] Hc Hn. eapply parsed_nodes; [exact P|done|done| |].
  - rewrite Pa. destruct (Nat.eqb_spec 0 c); [congruence|]. apply P.
  - intros i s Hi. rewrite C. destruct (Nat.eqb_spec i p) as [->|]; [by destruct (container_not_leaf a p s)|]. by eapply P.
Qed.

Lemma parsed_detach a n : parsed a -> parsed (detach a n).
Proof.
  intros P. destruct (detach_full a n (ps_wf a P)) as [W L D C Pa]. eapply parsed_nodes; [exact P|done|done| |].
  - rewrite Pa. destruct (Nat.eqb 0 n); [done|apply P].
  - intros i s Hi. rewrite C. by rewrite (ps_leaf a P i s Hi).
Qed.

Lemma set_kind_data a n d k j : data a n = Some d ->
  data (set_kind a n k) j = if Nat.eqb j n then Some (mkD k (d_ns d)) else data a j.
Proof. intros E. unfold set_kind. rewrite E. apply data_set_data. by eapply data_lt. Qed.

(** Replacing a text by a text, or the attributes of an element. *)
Lemma parsed_set_kind a n d k : parsed a -> data a n = Some d ->
  match d_kind d, k with
  | NText _, NText _ => True
  | NElem _ _, NElem _ l => NoDup (map fst l)
  | _, _ => False
  end -> parsed (set_kind a n k).
Proof.
  intros P E Hk.
  assert (K : forall j, node_kind (set_kind a n k) j = if Nat.eqb j n then Some k else node_kind a j).
  { intros j. unfold node_kind. rewrite (set_kind_data a n d) by done. by destruct (Nat.eqb j n). }
  assert (Ek : node_kind a n = Some (d_kind d)) by (unfold node_kind; by rewrite E).
  split.
  - apply set_kind_wf, P.
  - intros i s. rewrite K, children_set_kind. destruct (Nat.eqb_spec i n) as [->|]; [|apply P].
    intros Hs. destruct (d_kind d) as [|t l|e|e], k; try done.
    + by destruct Hs.
    + apply (ps_leaf a P n e). auto.
  - intros i. rewrite K. destruct (Nat.eqb_spec i n) as [->|]; [|apply P].
    intros [= ->]. by destruct (d_kind d).
  - rewrite parent_set_kind. apply P.
  - intros i tag ns l. rewrite (set_kind_data a n d) by done. destruct (Nat.eqb_spec i n) as [->|]; [|apply P].
    intros [= -> <-]. by destruct (d_kind d).
Qed.

(** A node handed over is not the document node. *)
Definition not_document (c : node_or_text) : Prop := c <> AppendNode 0.

Lemma parsed_pos a p : container a p -> length a <> 0.
Proof. unfold container, node_kind, data. destruct a; [done|done]. Qed.

Lemma node_kind_data a n k : node_kind a n = Some k -> exists d, data a n = Some d /\ d_kind d = k.
Proof. unfold node_kind. destruct (data a n) as [d|]; [|done]. intros [= <-]. by exists d. Qed.

Lemma parsed_append a p c : parsed a -> container a p -> fits a p c -> not_document c ->
  exists a', sink_append a p c = Val a' /\ parsed a'.
Proof.
  intros P Hc Hf Hn. pose proof (ps_wf a P) as W.
  assert (Hp : p < length a). { unfold container, node_kind in Hc. destruct (data a p) eqn:E; [|done]. by eapply data_lt. }
  destruct c as [n|s]; cbn [sink_append].
  - destruct Hf as (Hl & Ho & Hab). destruct (append_full a p n W Hp Hl Ho Hab) as (a' & E & Lk). exists a'.
    split; [done|]. eapply parsed_linked; [exact P|exact Lk|done|]. intros ->. by apply Hn.
  - assert (F : exists a', append (fst (new_node a (text_node s))) p (length a) = Val a' /\ parsed a').
    { destruct (new_node_full a (text_node s) W) as (W1 & L1 & P1 & C1 & D1 & Cj & Pj & Dj).
      destruct (append_full (fst (new_node a (text_node s))) p (length a) W1) as (a' & E & Lk);
        [lia|lia|done|apply leaf_not_above; [done|done|lia]|].
      exists a'. split; [done|]. eapply parsed_linked; [|exact Lk| |].
      - apply parsed_new; [done|lia|done|done].
      - unfold container, node_kind. rewrite Dj by lia. exact Hc.
      - lia. }
    change (new_node a (text_node s)) with (fst (new_node a (text_node s)), length a). cbv beta iota zeta.
    destruct (list.last (children a p)) as [l|]; [|done].
    destruct (node_kind a l) as [[| |e|]|] eqn:Ek; try done.
    eexists. split; [reflexivity|]. destruct (node_kind_data _ _ _ Ek) as (d & Ed & Kd).
    eapply parsed_set_kind; [done|exact Ed|]. by rewrite Kd.
Qed.

Lemma parsed_before a sib q c : parsed a -> parent a sib = Some q -> fits a q c -> not_document c ->
  exists a', sink_before a sib c = Val a' /\ parsed a'.
Proof.
  intros P Hq Hf Hn. pose proof (ps_wf a P) as W.
  assert (Hc : container a q). { eapply child_container; [done|]. by apply (wf_pc a W). }
  pose proof (wf_parent_lt _ _ _ W Hq) as Hql.
  destruct c as [n|s]; cbn [sink_before].
  - destruct Hf as (Hl & Ho & Hab). destruct (insert_before_full a sib n q W Hl Ho Hq Hab) as (a' & E & Lk).
    exists a'. split; [done|]. eapply parsed_linked; [exact P|exact Lk|done|]. intros ->. by apply Hn.
  - assert (F : exists a', insert_before (fst (new_node a (text_node s))) sib (length a) = Val a' /\ parsed a').
    { destruct (new_node_full a (text_node s) W) as (W1 & L1 & P1 & C1 & D1 & Cj & Pj & Dj).
      destruct (insert_before_full (fst (new_node a (text_node s))) sib (length a) q W1) as (a' & E & Lk);
        [lia|done|by rewrite Pj|apply leaf_not_above; [done|done|lia]|].
      exists a'. split; [done|]. eapply parsed_linked; [|exact Lk| |].
      - apply parsed_new; [done|lia|done|done].
      - unfold container, node_kind. rewrite Dj by lia. exact Hc.
      - lia. }
    change (new_node a (text_node s)) with (fst (new_node a (text_node s)), length a). cbv beta iota zeta.
    destruct (previous_sibling a sib) as [l|]; [|done].
    destruct (node_kind a l) as [[| |e|]|] eqn:Ek; try done.
    eexists. split; [reflexivity|]. destruct (node_kind_data _ _ _ Ek) as (d & Ed & Kd).
    eapply parsed_set_kind; [done|exact Ed|]. by rewrite Kd.
Qed.

Lemma parsed_add_attrs a n l : parsed a -> parsed (sink_add_attrs a n l).
Proof.
  intros P. unfold sink_add_attrs. destruct (node_kind a n) as [[|t ats| |]|] eqn:Ek; try done.
  destruct (node_kind_data _ _ _ Ek) as (d & Ed & Kd). eapply parsed_set_kind; [done|exact Ed|]. rewrite Kd.
  apply add_missing_nodup. destruct d as [k ns]. cbn in Kd. subst k. by eapply P.
Qed.

Lemma parsed_reparent a n p : parsed a -> container a p -> p <> n ->
  (forall c, c ∈ children a n -> ~ above a c p) ->
  exists a', sink_reparent a n p = Val a' /\ parsed a'.
Proof.
  intros P Hc Hne Hab. pose proof (ps_wf a P) as W.
  assert (Hp : p < length a). { unfold container, node_kind in Hc. destruct (data a p) eqn:E; [|done]. by eapply data_lt. }
  destruct (reparent_ok p n Hne _ a W Hp eq_refl Hab) as (a' & E & W' & L & D & N & Cp & O).
  exists a'. split; [done|]. eapply parsed_nodes; [exact P|done|done| |].
  - destruct (parent a' 0) as [q|] eqn:Eq; [exfalso|done]. apply (wf_pc a' W') in Eq.
    assert (0 ∉ children a n /\ forall j, 0 ∉ children a j) as [H1 H2].
    { assert (forall j, 0 ∉ children a j); [|auto]. intros j Hj. apply (wf_pc a W) in Hj. rewrite (ps_root a P) in Hj. done. }
    destruct (decide (q = n)) as [->|Hqn]; [rewrite N in Eq; inversion Eq|].
    destruct (decide (q = p)) as [->|Hqp].
    + rewrite Cp, elem_of_app in Eq. destruct Eq as [Eq|Eq]; [by apply (H2 p)|done].
    + rewrite O in Eq by done. by apply (H2 q).
  - intros i s Hi. destruct (decide (i = n)) as [->|Hin]; [done|].
    destruct (decide (i = p)) as [->|Hip]; [by destruct (container_not_leaf a p s)|].
    rewrite O by done. by eapply P.
Qed.

Lemma parsed_new_sink : parsed (sk_arena sink_new).
Proof.
  assert (W : wf (sk_arena sink_new)).
  { apply wf_new. split.
    - intros i p. unfold parent, children. cbn. rewrite !lookup_nil. split; [done|]. intros H. inversion H.
    - intros p. unfold children. rewrite lookup_nil. constructor.
    - intros i. exists []. constructor. by unfold parent; rewrite lookup_nil. }
  split; [done| | |done|].
  - intros [|[|i]] s; cbn; by intros [?|?].
  - intros [|[|i]]; done.
  - intros [|[|i]] tag ns l; done.
Qed.
