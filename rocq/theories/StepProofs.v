(** Both ways to apply a patch, side by side: the native one (dom.rs:493-700) on a
    document and the browser's (hotmeal-wasm/src/lib.rs:387-669) on the same
    document, its attributes stored as a browser stores them. *)
From stdpp Require Import list_numbers.
From Verif Require Import Base Arena Matching Chawathe Dom HtmlDiff Browser
  AttrProofs ArenaProofs ArenaOps TreeProofs DomTree ApplyProofs ShadowProofs SimProofs Applier BrowserProofs IsoProofs Fuzz Parity.
Local Open Scope string_scope.

(** ** The same document in a browser *)

Definition vd (d : dnode) : dnode := mkD (vkind battrs (d_kind d)) (d_ns d).
Definition vn (n : anode dnode) : anode dnode := mkNode (vd (nd_data n)) (nd_parent n) (nd_children n).
Definition vw (a : arena dnode) : arena dnode := map vn a.

Lemma vw_lookup a i : vw a !! i = option_map vn (a !! i).
Proof. unfold vw. by rewrite <- list_lookup_fmap. Qed.
Lemma vw_length a : length (vw a) = length a.
Proof. apply map_length. Qed.
Lemma vw_children a i : children (vw a) i = children a i.
Proof. unfold children. rewrite vw_lookup. by destruct (a !! i). Qed.
Lemma vw_parent a i : parent (vw a) i = parent a i.
Proof. unfold parent. rewrite vw_lookup. by destruct (a !! i). Qed.
Lemma vw_data a i : data (vw a) i = option_map vd (data a i).
Proof. unfold data. rewrite vw_lookup. by destruct (a !! i). Qed.
Lemma vw_kind a i : node_kind (vw a) i = option_map (vkind battrs) (node_kind a i).
Proof. unfold node_kind. rewrite vw_data. by destruct (data a i). Qed.

Lemma vw_chain a i l : chain (vw a) i l <-> chain a i l.
Proof.
  split; (induction 1 as [i E|i p l E H IH]; [apply chain_root|eapply chain_up; [|exact IH]]);
    rewrite vw_parent in *; done.
Qed.
Lemma vw_wf a : wf (vw a) <-> wf a.
Proof.
  split; intros [P N C]; split.
  - intros i p. rewrite <- vw_parent, <- vw_children. apply P.
  - intros p. rewrite <- vw_children. apply N.
  - intros i. destruct (C i) as [l Hl]. exists l. by apply vw_chain.
  - intros i p. rewrite vw_parent, vw_children. apply P.
  - intros p. rewrite vw_children. apply N.
  - intros i. destruct (C i) as [l Hl]. exists l. by apply vw_chain.
Qed.
Lemma vw_above a c p : above (vw a) c p <-> above a c p.
Proof. split; intros (l & Hl & Hx); exists l; (split; [by apply vw_chain|done]). Qed.

Lemma vw_alter f g a i : (forall x, vn (f x) = g (vn x)) -> vw (alter f i a) = alter g i (vw a).
Proof. intros H. unfold vw. apply (list_alter_fmap vn f g a i). apply Forall_forall. intros x _. apply H. Qed.
Lemma vw_set_parent a i p : vw (set_parent a i p) = set_parent (vw a) i p.
Proof. by apply vw_alter. Qed.
Lemma vw_set_children a i cs : vw (set_children a i cs) = set_children (vw a) i cs.
Proof. by apply vw_alter. Qed.
Lemma vw_set_data a i d : vw (set_data a i d) = set_data (vw a) i (vd d).
Proof. by apply vw_alter. Qed.
Lemma vw_set_kind a i k : vw (set_kind a i k) = set_kind (vw a) i (vkind battrs k).
Proof.
  unfold set_kind. rewrite vw_data. destruct (data a i) as [d|]; cbn [option_map]; [|done].
  by rewrite vw_set_data.
Qed.
Lemma vw_new a d : vw (fst (new_node a d)) = fst (new_node (vw a) (vd d)).
Proof. cbn. unfold vw. by rewrite map_app. Qed.

Lemma vw_detach a i : vw (detach a i) = detach (vw a) i.
Proof.
  unfold detach. rewrite vw_parent. destruct (parent a i); [|done].
  by rewrite vw_set_parent, vw_set_children, vw_children.
Qed.
Lemma vw_ancestors a f : forall i, ancestors f (vw a) i = ancestors f a i.
Proof.
  induction f as [|f IH]; intros i; cbn [ancestors]; [done|]. rewrite vw_parent.
  destruct (parent a i); [|done]. by rewrite IH.
Qed.
Lemma vw_is_ancestor a c p : is_ancestor (vw a) c p = is_ancestor a c p.
Proof. unfold is_ancestor, chain_fuel. by rewrite vw_length, vw_ancestors. Qed.

Definition ovw (o : outcome (arena dnode)) : outcome (arena dnode) :=
  match o with Val a => Val (vw a) | Fail e => Fail e | Panic => Panic | Diverge => Diverge end.

Lemma vw_append a p c : append (vw a) p c = ovw (append a p c).
Proof.
  unfold append. destruct (Nat.eqb p c); [done|]. rewrite vw_is_ancestor.
  destruct (is_ancestor a c p) as [[]|]; cbn [ovw]; try done.
  by rewrite vw_set_parent, vw_set_children, vw_detach, <- vw_detach, vw_children.
Qed.
Lemma vw_insert_before a s n : insert_before (vw a) s n = ovw (insert_before a s n).
Proof.
  unfold insert_before. destruct (Nat.eqb s n); [done|]. rewrite <- vw_detach, vw_parent.
  destruct (parent (detach a n) s) as [p|]; [|done]. destruct (Nat.eqb p n); [done|].
  cbn [ovw]. by rewrite vw_set_parent, vw_set_children, vw_children.
Qed.
Lemma vw_fill_gaps d k : vd d = d -> forall a p, fill_gaps k d (vw a) p = ovw (fill_gaps k d a p).
Proof.
  intros Hd. induction k as [|k IH]; intros a p; cbn [fill_gaps]; [done|].
  change (new_node (vw a) d) with (fst (new_node (vw a) d), length (vw a)).
  change (new_node a d) with (fst (new_node a d), length a). cbv beta iota.
  rewrite vw_length. rewrite <- Hd at 1. rewrite <- vw_new, vw_append.
  destruct (append (fst (new_node a d)) p (length a)); cbn [ovw obind]; try done.
Qed.
Lemma vw_replace_by_empty a n : replace_by_empty (vw a) n = ovw (replace_by_empty a n).
Proof.
  unfold replace_by_empty.
  change (new_node (vw a) (text_node "")) with (fst (new_node (vw a) (vd (text_node ""))), length (vw a)).
  change (new_node a (text_node "")) with (fst (new_node a (text_node "")), length a). cbv beta iota.
  rewrite vw_length, <- vw_new, vw_insert_before.
  destruct (insert_before _ n (length a)); cbn [ovw obind]; try done. by rewrite vw_detach.
Qed.
Lemma vw_navigate a q : forall c, navigate (vw a) c q = navigate a c q.
Proof. induction q as [|i q IH]; intros c; cbn [navigate]; [done|]. rewrite vw_children. by destruct (children a c !! i). Qed.

(** Arenas with the same nodes are the same. *)
Lemma arena_ext (a b : arena dnode) : length a = length b ->
  (forall j, data a j = data b j) -> (forall j, children a j = children b j) -> (forall j, parent a j = parent b j) -> a = b.
Proof.
  intros L D C P. apply list_eq. intros i. specialize (D i). specialize (C i). specialize (P i).
  unfold data, children, parent in *. destruct (a !! i) as [[d p c]|] eqn:E, (b !! i) as [[d' p' c']|] eqn:E'; cbn in *.
  - congruence.
  - apply lookup_lt_Some in E. apply lookup_ge_None in E'. lia.
  - apply lookup_lt_Some in E'. apply lookup_ge_None in E. lia.
  - done.
Qed.

(** ** Names *)

Lemma distinctb_spec l : distinctb l = true <-> NoDup l.
Proof.
  induction l as [|x l IH]; cbn [distinctb]; [split; [constructor|done]|].
  rewrite andb_true_iff, negb_true_iff, NoDup_cons, IH.
  assert (existsb (String.eqb x) l = false <-> x ∉ l) as ->; [|done].
  rewrite <- not_true_iff_false, existsb_exists. split; intros H Hx; apply H.
  - exists x. split; [by apply elem_of_list_In|apply String.eqb_refl].
  - destruct Hx as (y & Hy & Ey). apply String.eqb_eq in Ey as <-. by apply elem_of_list_In.
Qed.

Section Step.
  Variables valid_elem valid_attr : string -> bool.

  Lemma ok_attrb_spec q : ok_attrb valid_attr q = true <-> ok_attr valid_attr q.
  Proof using Type.
    unfold ok_attrb, ok_attr. rewrite !andb_true_iff, String.eqb_eq.
    assert (match q_prefix q with Some p => negb (String.eqb p "") | None => true end = true <-> q_prefix q <> Some "") as ->.
    { destruct (q_prefix q) as [p|]; [|done]. rewrite negb_true_iff, String.eqb_neq. split; [by intros ? [=]|congruence]. }
    tauto.
  Qed.
  Lemma ok_namesb_spec l : ok_namesb valid_attr l = true <-> (forall q, q ∈ l -> ok_attr valid_attr q) /\ NoDup (map bname l).
  Proof using Type.
    unfold ok_namesb. rewrite andb_true_iff, distinctb_spec, forallb_forall.
    split; intros [H N]; (split; [|done]); intros q Hq.
    - apply ok_attrb_spec, H. by apply elem_of_list_In.
    - apply ok_attrb_spec, H. by apply elem_of_list_In.
  Qed.
  Lemma ok_elemb_spec tag l : ok_elemb valid_elem valid_attr tag l = true <-> b_okn valid_elem valid_attr tag l.
  Proof using Type.
    unfold ok_elemb, b_okn, ok_tag, ok_attrs. rewrite !andb_true_iff, String.eqb_eq, ok_namesb_spec. tauto.
  Qed.

  Local Notation ok_attrb := (ok_attrb valid_attr).
  Local Notation ok_key := (ok_key valid_attr).
  Local Notation ok_changes := (ok_changes valid_attr).
  Local Notation ok_contentb := (ok_contentb valid_elem valid_attr).
  Local Notation fitb := (fitb valid_elem valid_attr).

  (** ** Content *)

  Variable parse_template : string -> list htree.
  Variable parse_inner : string -> list htree.

  Lemma dom_append_val a p c a' : append a p c = Val a' -> dom_append (vw a) p c = Val (vw a').
  Proof using Type. unfold dom_append. rewrite vw_append. by intros ->. Qed.

  Lemma b_create_vw c : forall a a' n, ok_contentb c = true -> create_content a c = Val (a', n) ->
    b_create valid_elem valid_attr parse_template (vw a) c = Val (vw a', n).
  Proof using Type.
    induction c as [s|s|tag ats cs IH] using icontent_ind'; intros a a' n Hok E.
    - injection E as <- <-. cbn [b_create]. unfold new_node. rewrite vw_length. unfold vw. by rewrite map_app.
    - injection E as <- <-. cbn [b_create]. unfold new_node. rewrite vw_length. unfold vw. by rewrite map_app.
    - cbn [ok_contentb] in Hok. apply andb_true_iff in Hok as [Hk Hcs]. cbn [b_create create_content] in E |- *.
      rewrite (b_create_ok valid_elem valid_attr tag ats) by (by apply ok_elemb_spec).
      change (new_node a (elem tag ats NsHtml)) with (fst (new_node a (elem tag ats NsHtml)), length a) in E.
      change (new_node (vw a) (mkD (NElem tag (battrs ats)) NsHtml))
        with (fst (new_node (vw a) (vd (elem tag ats NsHtml))), length (vw a)).
      cbv beta iota in E |- *. rewrite <- vw_new, vw_length.
      revert E. generalize (fst (new_node a (elem tag ats NsHtml))) as a1. generalize (length a) as m. intros m a1 E.
      match type of E with obind (?f a1 cs) _ = _ => destruct (f a1 cs) as [a2| | |] eqn:E2; try done end.
      cbn [obind] in E. injection E as <- <-.
      match goal with |- obind ?x _ = _ => assert (x = Val (vw a2)) as -> end; [|done].
      revert a1 E2. induction cs as [|c cs IHcs]; intros a1 E2; [by injection E2 as <-|].
      cbn [forallb] in Hcs. apply andb_true_iff in Hcs as [Hc Hcs].
      destruct (create_content a1 c) as [[a3 i]| | |] eqn:E3; cbn [obind] in E2; try done.
      rewrite (IH c ltac:(by left) a1 a3 i Hc E3). cbn [obind].
      destruct (append a3 m i) as [a4| | |] eqn:E4; cbn [obind] in E2; try done.
      rewrite (dom_append_val _ _ _ _ E4). cbn [obind]. apply IHcs; try done. intros c' Hc'. apply IH. by right.
  Qed.
  (** ** Attributes *)

  Lemma battrs_cons q v l : battrs ((q, v) :: l) = (flat (bname q), v) :: battrs l.
  Proof using Type. done. Qed.

  Lemma keys_set q v w l : keys (attr_set q v l) = keys (attr_set q w l).
  Proof using Type.
    induction l as [|[k x] l IH]; cbn [attr_set]; [done|]. destruct (qname_eqb k q); [done|].
    cbn [keys map fst]. f_equal. exact IH.
  Qed.

  (** The keys agree on a name iff they are the same. *)
  Lemma key_inj l q k v : NoDup (map bname (keys (attr_set q v l))) -> k ∈ keys l -> bname k = bname q -> k = q.
  Proof using Type.
    induction l as [|[k' x] l IH]; intros Hnd Hk E; [by apply elem_of_nil in Hk|].
    cbn [attr_set] in Hnd. destruct (qname_eqb k' q) eqn:Eq.
    - apply qname_eqb_eq in Eq as ->. cbn [keys map fst] in Hnd, Hk. apply NoDup_cons in Hnd as [Hn _].
      apply elem_of_cons in Hk as [->|Hk]; [done|]. destruct Hn. rewrite <- E. by apply elem_of_list_fmap_1.
    - cbn [keys map fst] in Hnd, Hk. apply NoDup_cons in Hnd as [Hn Hnd].
      apply elem_of_cons in Hk as [->|Hk]; [|by apply IH].
      destruct Hn. rewrite E. apply elem_of_list_fmap_1. clear.
      induction l as [|[k x] l IH]; cbn [attr_set]; [left|]. destruct (qname_eqb k q) eqn:Eq.
      + apply qname_eqb_eq in Eq as ->. left.
      + right. exact IH.
  Qed.
  Lemma keys_nodup l q v : NoDup (map bname (keys (attr_set q v l))) -> NoDup (map bname (keys l)).
  Proof using Type.
    induction l as [|[k x] l IH]; cbn [attr_set]; [constructor|]. destruct (qname_eqb k q) eqn:Eq; [done|].
    cbn [keys map fst]. rewrite !NoDup_cons. intros [Hn Hnd]. split; [|by apply IH].
    intros Hin. apply Hn. apply elem_of_list_fmap in Hin as (y & Ey & Hy). rewrite Ey. apply elem_of_list_fmap_1.
    clear -Hy. induction l as [|[k' x'] l IH]; cbn [attr_set]; [by apply elem_of_nil in Hy|].
    cbn [keys map fst] in Hy. destruct (qname_eqb k' q); [done|].
    apply elem_of_cons in Hy as [->|Hy]; [left|right; by apply IH].
  Qed.

  Lemma battrs_set ns l q v : ok_key l q = true ->
    b_set_attr valid_attr ns (battrs l) (bname q) v = Some (battrs (attr_set q v l)).
  Proof using Type.
    intros Hk. apply andb_true_iff in Hk as [Hq Hd]. apply ok_attrb_spec in Hq. apply distinctb_spec in Hd.
    unfold b_set_attr. pose proof Hq as (Hv & _). rewrite Hv, (ok_in_case _ ns q Hq). f_equal.
    assert (forall k, k ∈ keys l -> bname k = bname q -> k = q) as Hi by (intros k; by apply (key_inj l q k "")).
    clear Hd. induction l as [|[k x] l IH]; [done|]. rewrite battrs_cons. cbn [attr_set]. rewrite flat_eqb.
    destruct (String.eqb_spec (bname k) (bname q)) as [E|E].
    - assert (k = q) as -> by (apply Hi; [left|done]). by rewrite qname_eqb_refl.
    - destruct (qname_eqb k q) eqn:Eq; [apply qname_eqb_eq in Eq as ->; done|].
      rewrite battrs_cons. f_equal. apply IH. intros k' Hk'. apply Hi. by right.
  Qed.

  Lemma battrs_remove ns l q : ok_key l q = true ->
    b_remove_attr ns (battrs l) (bname q) = battrs (attr_remove q l).
  Proof using Type.
    intros Hk. apply andb_true_iff in Hk as [Hq Hd]. apply ok_attrb_spec in Hq. apply distinctb_spec in Hd.
    unfold b_remove_attr. rewrite (ok_in_case _ ns q Hq).
    assert (forall k, k ∈ keys l -> bname k = bname q -> k = q) as Hi by (intros k; by apply (key_inj l q k "")).
    apply keys_nodup in Hd. induction l as [|[k x] l IH]; [done|].
    rewrite battrs_cons. cbn [attr_drop attr_remove List.filter fst]. rewrite flat_eqb.
    cbn [keys map fst] in Hd. apply NoDup_cons in Hd as [Hn Hd].
    destruct (String.eqb_spec (bname k) (bname q)) as [E|E].
    - assert (k = q) as -> by (apply Hi; [left|done]). rewrite qname_eqb_refl. cbn [negb]. f_equal.
      symmetry. clear -Hn. induction l as [|[k y] l IH]; [done|]. cbn [keys map fst] in Hn.
      apply not_elem_of_cons in Hn as [H1 H2]. cbn [List.filter fst].
      destruct (qname_eqb k q) eqn:Eq; [apply qname_eqb_eq in Eq as ->; done|]. cbn [negb]. f_equal. by apply IH.
    - destruct (qname_eqb k q) eqn:Eq; [apply qname_eqb_eq in Eq as ->; done|]. cbn [negb].
      rewrite battrs_cons. f_equal. apply IH; [done|]. intros k' Hk'. apply Hi. by right.
  Qed.

  Lemma battrs_changes ns l ch : ok_changes l ch = true ->
    b_set_changes valid_attr ns (battrs l) (b_clear ns (battrs l)) ch = (battrs (rebuild_attrs l ch), true).
  Proof using Type.
    unfold ok_changes. rewrite !andb_true_iff, !ok_namesb_spec. intros [[Hl [Hok Hnd]] Hf].
    rewrite (b_clear_battrs _ ns l Hl).
    assert (forall l0, NoDup (keys l0 ++ map flat (map bname (change_names ch)))%list ->
      b_set_changes valid_attr ns (battrs l) l0 ch = ((l0 ++ battrs (rebuild_attrs l ch))%list, true)) as H.
    { clear Hnd. induction ch as [|[[|q] v] ch IH]; intros l0 Hn; cbn [forallb pc_name pc_value] in Hf; [by rewrite app_nil_r|done|].
      apply andb_true_iff in Hf as [H1 Hf]. cbn [b_set_changes pc_name pc_value].
      assert (ok_attr valid_attr q) as Hq by (apply Hok; left).
      rewrite (bname_up_ok valid_attr) by done. unfold b_set_attr. pose proof Hq as (Hv & _). rewrite Hv.
      rewrite (ok_in_case _ ns q Hq). change (change_names (_ :: ch)) with (q :: change_names ch) in Hn. cbn [map] in Hn.
      rewrite attr_set_fresh. 2:{ intros Hin. apply NoDup_app in Hn as (_ & Hd & _). apply (Hd _ Hin). left. }
      rewrite IH; [|intros q' Hq'; apply Hok; by right|done|].
      2:{ unfold keys at 1. rewrite map_app. cbn [map fst]. by rewrite <- app_assoc. }
      f_equal. rewrite <- app_assoc. f_equal. cbn [rebuild_attrs flat_map pc_name pc_value app].
      rewrite battrs_cons. f_equal. f_equal. destruct v as [v|]; [done|].
      destruct (attr_get q l) as [w|] eqn:Eg; [|done].
      by rewrite (last_value_battrs l q w) by (try apply Hl; by apply attr_get_elem). }
    rewrite H; [done|]. cbn [keys map app]. by apply (NoDup_fmap_2 _ _).
  Qed.

  (** ** The states *)

  (** [slx]: the browser's slots, [bd]: its root. *)
  Record lock (a : arena dnode) (sl : slots) (bd : nat) (slx : slots) : Prop := {
    lo_wf : wf a;
    lo_bd : slot_get sl 0 = Some bd;
    lo_lt : bd < length a;
    lo_sl : forall k n, slot_get slx k = Some n -> k <> 0 /\ slot_get sl k = Some n /\ n < length a /\ parent a n = None;
    lo_inj : forall k k' n, slot_get slx k = Some n -> slot_get slx k' = Some n -> k = k'
  }.

  Lemma lock_find a sl bd slx q n : lock a sl bd slx -> find_node bd (vw a) slx q = Val n ->
    navigate_slot_path a sl q = Val n.
  Proof using Type.
    intros L. unfold find_node, navigate_slot_path, get_slot_root. destruct q as [|k rel]; [done|].
    destruct (Nat.eqb_spec k 0) as [->|Hk]; cbn [obind].
    - rewrite (lo_bd _ _ _ _ L), vw_navigate. done.
    - destruct (slot_get slx k) as [r|] eqn:E; cbn [obind]; [|done].
      destruct (lo_sl _ _ _ _ L _ _ E) as (_ & -> & _). by rewrite vw_navigate.
  Qed.

  Lemma navigate_lt a q : forall c n, wf a -> c < length a -> navigate a c q = Val n -> n < length a.
  Proof using Type.
    induction q as [|i q IH]; intros c n W Hc E; cbn [navigate] in E; [congruence|].
    destruct (children a c !! i) as [c'|] eqn:Ei; [|done]. apply (IH c'); try done.
    eapply wf_child_lt; [done|by eapply elem_of_list_lookup_2].
  Qed.
  Lemma lock_found_lt a sl bd slx q n : lock a sl bd slx -> find_node bd (vw a) slx q = Val n -> n < length a.
  Proof using Type.
    intros L. unfold find_node, get_slot_root. destruct q as [|k rel]; [done|].
    destruct (Nat.eqb_spec k 0) as [->|Hk]; cbn [obind]; rewrite ?vw_navigate.
    - apply navigate_lt; apply L.
    - destruct (slot_get slx k) as [r|] eqn:E; cbn [obind]; [|done]. rewrite vw_navigate.
      apply navigate_lt; [apply L|by destruct (lo_sl _ _ _ _ L _ _ E) as (_ & _ & ? & _)].
  Qed.

  (** The same tree, other data. *)
  Lemma lock_set_kind a sl bd slx n k : lock a sl bd slx -> lock (set_kind a n k) sl bd slx.
  Proof using Type.
    intros [W B Lt S I]. unfold set_kind. destruct (data a n) as [d|]; [|by split].
    split; rewrite ?length_set_data; try done; [by apply wf_set_data|].
    intros k' m Hm. destruct (S k' m Hm) as (H1 & H2 & H3 & H4). rewrite ?length_set_data, ?parent_set_data. auto.
  Qed.

  (** ** Placing *)

  Lemma is_ancestor_above (a : arena dnode) c p : wf a -> c <> p -> is_ancestor a c p = Some false -> ~ above a c p.
  Proof using Type.
    intros W Hne E (l & Hl & [->|Hin]); [done|]. unfold is_ancestor in E.
    rewrite (ancestors_chain _ _ _ _ Hl) in E by (unfold chain_fuel; pose proof (chain_length _ _ _ W Hl); lia).
    injection E as E. rewrite <- not_true_iff_false, existsb_exists in E. apply E. exists c.
    split; [by apply elem_of_list_In|apply Nat.eqb_refl].
  Qed.

  (** What the placed node is not, and what its place is. *)
  Lemma put_step a sl bd slx p n at_ pos slot bx slx' :
    lock a sl bd slx -> get_slot_parent a sl at_ = Val (p, pos) ->
    p < length a -> n < length a -> parent a n = None -> (forall k, slot_get slx k <> Some n) ->
    slot_fine a p pos slot = true ->
    b_insert_at_position (vw a) slx p n pos slot = ((bx, slx'), Val tt) ->
    exists a' sl', insert_at a sl at_ n slot = ((a', sl'), Val tt) /\ vw a' = bx /\ lock a' sl' bd slx'.
  Proof using Type.
    intros L Hg Hp Hn Ho Hfree Hs Hb. pose proof (lo_wf _ _ _ _ L) as W. pose proof (proj2 (vw_wf a) W) as Wv.
    unfold b_insert_at_position in Hb. rewrite vw_children in Hb.
    destruct (children a p !! pos) as [d|] eqn:Ed.
    - destruct slot as [k|]; cbn [slot_fine] in Hs.
      2:{ apply Nat.leb_le in Hs. apply lookup_lt_Some in Ed. lia. }
      apply negb_true_iff, Nat.eqb_neq in Hs.
      destruct (replace_child (vw a) p n d) as [b'| | |] eqn:Er; cbn [plift] in Hb; try done. injection Hb as <- <-.
      assert (~ above a n p) as Hna.
      { unfold replace_child in Er. destruct (Nat.eqb_spec n p); [done|]. rewrite vw_is_ancestor in Er.
        destruct (is_ancestor a n p) as [[]|] eqn:Ea; try done. by apply is_ancestor_above. }
      destruct (replace_child_took (vw a) p pos n d Wv) as (b1 & Eb & T); rewrite ?vw_length, ?vw_parent, ?vw_children; try done.
      { by rewrite vw_above. }
      assert (b1 = b') as -> by congruence. clear Eb.
      destruct (insert_at_some a sl at_ n k p pos d Hg Ed W Hn Ho Hna) as (a' & E & T').
      exists a', (slot_set sl k d). split; [done|].
      assert (vw a' = b') as Hv.
      { destruct T as [_ L1 D1 C1 P1], T' as [_ L2 D2 C2 P2]. apply arena_ext.
        - by rewrite vw_length, L1, L2, vw_length.
        - intros j. by rewrite vw_data, D1, D2, vw_data.
        - intros j. by rewrite vw_children, C1, C2, !vw_children.
        - intros j. by rewrite vw_parent, P1, P2, vw_parent. }
      split; [done|]. destruct T' as [W2 L2 _ _ P2].
      assert (d ∈ children a p) as Hd by (by eapply elem_of_list_lookup_2). pose proof (proj2 (wf_pc _ W d p) Hd) as Hpd.
      split; try done.
      + cbn. destruct (Nat.eqb_spec k 0); [lia|]. apply L.
      + rewrite L2. apply L.
      + intros j m Hm. cbn in Hm |- *. destruct (Nat.eqb_spec k j) as [->|Hj].
        * injection Hm as <-. rewrite L2, P2, Nat.eqb_refl. split_and!; try done. by eapply wf_child_lt.
        * destruct (lo_sl _ _ _ _ L _ _ Hm) as (H1 & H2 & H3 & H4). rewrite L2, P2. split_and!; try done.
          destruct (Nat.eqb_spec m d); [done|]. destruct (Nat.eqb_spec m n) as [->|]; [by destruct (Hfree j)|done].
      + intros j j' m Hm Hm'. cbn in Hm, Hm'.
        assert (forall i, slot_get slx i <> Some d) as Hx.
        { intros i Hi. destruct (lo_sl _ _ _ _ L _ _ Hi) as (_ & _ & _ & H4). congruence. }
        destruct (Nat.eqb_spec k j) as [Hj|Hj], (Nat.eqb_spec k j') as [Hj'|Hj']; [congruence|..].
        * injection Hm as <-. by destruct (Hx j').
        * injection Hm' as <-. by destruct (Hx j).
        * by eapply (lo_inj _ _ _ _ L).
    - assert (length (children a p) <= pos) as Hle by (by apply lookup_ge_None).
      rewrite (vw_fill_gaps (text_node "")) in Hb by done.
      destruct (fill_gaps_full (text_node "") (pos - length (children a p)) a p W Hp) as (a1 & E1 & Fl).
      rewrite E1 in Hb. cbn [ovw] in Hb. unfold dom_append in Hb. rewrite vw_append in Hb.
      pose proof Fl as [W1 L1 D1 N1 C1 P1].
      destruct (append a1 p n) as [a2| | |] eqn:E2; cbn [ovw plift] in Hb; try done. injection Hb as <- <-.
      assert (~ above a n p) as Hna.
      { intros (l & Hl & Hx). unfold append in E2. destruct (Nat.eqb_spec p n); [done|].
        destruct (is_ancestor a1 n p) as [[]|] eqn:Ea; try done.
        apply (is_ancestor_above a1 n p W1) in Ea; [|done]. apply Ea. exists l. split; [|done].
        eapply chain_agree; [done|]. intros x Hx'. rewrite P1.
        assert (x < length a) by (destruct Hx' as [->|]; [done|by eapply chain_lt]).
        destruct (Nat.leb_spec (length a) x); simpl; [lia|done]. }
      destruct (insert_at_position_grew a p pos n W Hp Hn Ho Hna) as (a' & E & [W2 L2 D2 N2 C2 P2]).
      assert (a' = a2) as ->.
      { unfold insert_at_position in E. rewrite E1 in E. cbn [obind] in E.
        assert (children a1 p !! pos = None) as En.
        { apply lookup_ge_None. rewrite C1, Nat.eqb_refl, app_length, seq_length. lia. }
        rewrite En in E. congruence. }
      exists a2, sl. split.
      { unfold insert_at. rewrite Hg, Ed. by destruct slot; rewrite E. }
      split; [done|].
      split; try apply L; [done|rewrite L2; pose proof (lo_lt _ _ _ _ L); lia|].
      intros j m Hm. destruct (lo_sl _ _ _ _ L _ _ Hm) as (H1 & H2 & H3 & H4). split_and!; try done; [lia|].
      rewrite P2. destruct (Nat.eqb_spec m n) as [->|]; [by destruct (Hfree j)|].
      destruct (Nat.leb_spec (length a) m); [lia|]. cbn [andb take].
      by case_bool_decide.
  Qed.

  Lemma lock_extends a a' sl bd slx : lock a sl bd slx -> extends a a' -> lock a' sl bd slx.
  Proof using Type.
    intros L [W Le D C P]. split; try apply L; [done|pose proof (lo_lt _ _ _ _ L); lia|].
    intros k n Hk. destruct (lo_sl _ _ _ _ L _ _ Hk) as (H1 & H2 & H3 & H4). split_and!; try done; [lia|]. by rewrite P.
  Qed.
  Lemma extends_new (a : arena dnode) d : wf a -> extends a (fst (new_node a d)).
  Proof using Type.
    intros W. destruct (new_node_full a d W) as (W1 & L1 & P1 & C1 & D1 & Cj & Pj & Dj).
    split; [done|lia|..]; intros j Hj; auto. apply Dj. lia.
  Qed.
  Lemma lock_take a sl bd slx k : lock a sl bd slx -> lock a sl bd (slot_take slx k).
  Proof using Type.
    intros [W B Lt S I]. split; try done.
    - intros j n. rewrite slot_take_get. destruct (Nat.eqb j k); [done|]. apply S.
    - intros j j' n. rewrite !slot_take_get. destruct (Nat.eqb j k), (Nat.eqb j' k); try done. apply I.
  Qed.
  Lemma lock_replaced a a' sl bd slx n d : lock a sl bd slx -> replaced a a' n d -> lock a' sl bd slx.
  Proof using Type.
    intros L [W Le D Dn Cn Pn P C Co]. split; try apply L; [done|rewrite Le; pose proof (lo_lt _ _ _ _ L); lia|].
    intros k m Hk. destruct (lo_sl _ _ _ _ L _ _ Hk) as (H1 & H2 & H3 & H4). split_and!; try done; [lia|].
    rewrite P by lia. by destruct (Nat.eqb m n).
  Qed.

  (** Replacing a node without parent leaves a stray text behind. *)
  Lemma replace_orphan a n : wf a -> n < length a -> parent a n = None ->
    replace_by_empty a n = Val (fst (new_node a (text_node ""))).
  Proof using Type.
    intros W Hn Ho. unfold replace_by_empty.
    destruct (new_node_full a (text_node "") W) as (W1 & L1 & P1 & C1 & D1 & Cj & Pj & Dj).
    change (new_node a (text_node "")) with (fst (new_node a (text_node "")), length a).
    set (a1 := fst (new_node a (text_node ""))) in *. cbv iota beta.
    assert (forall m, parent a1 m = None -> detach a1 m = a1) as Hd by (intros m; unfold detach; by intros ->).
    unfold insert_before. destruct (Nat.eqb_spec n (length a)); [lia|].
    rewrite (Hd (length a)) by done. rewrite (Pj n), Ho. cbn [obind]. rewrite Hd; [done|]. by rewrite Pj.
  Qed.

  Lemma navigate_extends a a' q : forall c, wf a -> extends a a' -> c < length a -> navigate a' c q = navigate a c q.
  Proof using Type.
    induction q as [|i q IH]; intros c W E Hc; cbn [navigate]; [done|].
    rewrite (ex_children _ _ E) by done. destruct (children a c !! i) as [c'|] eqn:Ei; [|done].
    apply IH; try done. eapply wf_child_lt; [done|by eapply elem_of_list_lookup_2].
  Qed.
  Lemma lock_find_lt a sl bd slx q n : lock a sl bd slx -> find_node bd (vw a) slx q = Val n ->
    forall a', extends a a' -> navigate_slot_path a' sl q = Val n.
  Proof using Type.
    intros L. unfold find_node, get_slot_root, navigate_slot_path. destruct q as [|k rel]; [done|].
    destruct (Nat.eqb_spec k 0) as [->|Hk]; cbn [obind].
    - intros E a' X. rewrite (lo_bd _ _ _ _ L). rewrite (navigate_extends a a') by (try done; apply L). by rewrite <- vw_navigate.
    - destruct (slot_get slx k) as [r|] eqn:E; cbn [obind]; [|done]. intros E' a' X.
      destruct (lo_sl _ _ _ _ L _ _ E) as (_ & -> & Hr & _).
      rewrite (navigate_extends a a') by (try done; apply L). by rewrite <- vw_navigate.
  Qed.

  Lemma insert_step a sl bd slx make at_ slot a2 bx slx' :
    lock a sl bd slx -> extends a a2 -> length a < length a2 -> parent a2 (length a) = None ->
    make (vw a) = Val (vw a2, length a) -> place_fine a sl at_ slot = true ->
    b_insert bd (vw a, slx) at_ slot make = ((bx, slx'), Val tt) ->
    exists a' sl', insert_at a2 sl at_ (length a) slot = ((a', sl'), Val tt) /\ vw a' = bx /\ lock a' sl' bd slx'.
  Proof using Type.
    intros L X Hl Ho Hm Hf Hb. unfold b_insert in Hb.
    destruct (Nat.ltb (length at_) 2) eqn:El; [done|]. unfold with_found in Hb. cbn [fst snd] in Hb.
    destruct (find_node bd (vw a) slx (removelast at_)) as [p| | |] eqn:Ep; try done.
    destruct (node_kind (vw a) p) as [[| | |]|]; try done.
    rewrite Hm in Hb. pose proof (lock_found_lt _ _ _ _ _ _ L Ep) as Hp.
    pose proof (lock_find _ _ _ _ _ _ L Ep) as En.
    pose proof (lock_find_lt _ _ _ _ _ _ L Ep a2 X) as En2.
    assert (slot_fine a p (List.last at_ 0) slot = true) as Hs.
    { unfold place_fine, get_slot_parent in Hf. rewrite El, En in Hf. exact Hf. }
    apply (put_step a2 sl bd slx p (length a) at_ (List.last at_ 0) slot bx slx'); try done.
    - by eapply lock_extends.
    - unfold get_slot_parent. by rewrite El, En2.
    - lia.
    - intros k Hk. destruct (lo_sl _ _ _ _ L _ _ Hk) as (_ & _ & ? & _). lia.
    - unfold slot_fine in *. by rewrite (ex_children _ _ X).
  Qed.

  Lemma create_content_elem a tag ats cs : create_content a (ICElem tag ats cs) =
    let a1 := fst (new_node a (elem tag ats NsHtml)) in let! a2 := create_contents a1 (length a) cs in Val (a2, length a).
  Proof using Type.
    cbn [create_content]. change (new_node a (elem tag ats NsHtml)) with (fst (new_node a (elem tag ats NsHtml)), length a).
    cbv beta iota zeta. f_equal. generalize (fst (new_node a (elem tag ats NsHtml))) as a1. generalize (length a) as m.
    intros m a0. cbn [fst]. revert a0. induction cs as [|c cs IH]; intros a1; [done|]. cbn [create_contents].
    destruct (create_content a1 c) as [[a3 i]| | |]; cbn [obind]; try done.
    destruct (append a3 m i); cbn [obind]; try done.
  Qed.

  Lemma navigate_parent a q : forall c n i, wf a -> navigate a c (i :: q) = Val n -> exists p, parent a n = Some p.
  Proof using Type.
    induction q as [|j q IH]; intros c n i W E; cbn [navigate] in E; destruct (children a c !! i) as [c'|] eqn:Ei; try done.
    - injection E as <-. exists c. apply (wf_pc _ W). by eapply elem_of_list_lookup_2.
    - by apply (IH c' n j).
  Qed.

  Lemma app_same (x y : arena dnode) : x = y -> exists l, x = (y ++ l)%list.
  Proof using Type. intros ->. exists []. by rewrite app_nil_r. Qed.

  Ltac look Hb Ep := unfold with_found in Hb; cbn [fst snd] in Hb;
    match type of Hb with context [find_node ?b ?a ?s ?q] => destruct (find_node b a s q) as [n| | |] eqn:Ep; try done end.
  Ltac looked En := unfold with_node; cbn [fst snd]; rewrite En.

  Lemma patch_step a sl bd slx p bx slx' :
    lock a sl bd slx -> fitb a sl p = true ->
    b_apply_patch valid_elem valid_attr parse_template bd (vw a, slx) p = ((bx, slx'), Val tt) ->
    exists a' sl', apply_patch parse_inner (a, sl) p = ((a', sl'), Val tt) /\ lock a' sl' bd slx' /\
      exists l, vw a' = (bx ++ l)%list.
  Proof using Type.
    intros L Hf Hb. pose proof (lo_wf _ _ _ _ L) as W.
    destruct p as [at_ tag ats cs slot|at_ s slot|at_ s slot|q|q s|q name v|q name|from to slot|q ch|q content];
      cbn [fitb b_apply_patch apply_patch] in Hf, Hb |- *.
    - apply andb_true_iff in Hf as [Hc Hf].
      pose proof (create_content_clone (ICElem tag ats cs) a) as Ec.
      destruct (clone_tree_all (htree_of_ic (ICElem tag ats cs)) a W) as (a2 & E2 & X & Hl & Ho & _). rewrite E2 in Ec.
      destruct (insert_step a sl bd slx (fun a => b_create valid_elem valid_attr parse_template a (ICElem tag ats cs))
                  at_ slot a2 bx slx' L X Hl Ho) as (a' & sl' & E & V & L'); try done.
      { by apply b_create_vw. }
      exists a', sl'. split; [|split; [done|by apply app_same]].
      rewrite create_content_elem in Ec. change (new_node a (elem tag ats NsHtml)) with (fst (new_node a (elem tag ats NsHtml)), length a).
      cbv beta iota zeta in Ec |- *. destruct (create_contents _ (length a) cs); cbn [obind] in Ec; try done.
      by injection Ec as ->.
    - destruct (new_node_full a (text_node s) W) as (W1 & L1 & P1 & _).
      destruct (insert_step a sl bd slx (fun a => Val (new_node a (text_node s))) at_ slot (fst (new_node a (text_node s))) bx slx' L)
        as (a' & sl' & E & V & L'); try done; [by apply extends_new|lia|by rewrite vw_new, <- (vw_length a)|].
      exists a', sl'. split; [exact E|]. split; [done|by apply app_same].
    - destruct (new_node_full a (comment_node s) W) as (W1 & L1 & P1 & _).
      destruct (insert_step a sl bd slx (fun a => Val (new_node a (comment_node s))) at_ slot (fst (new_node a (comment_node s))) bx slx' L)
        as (a' & sl' & E & V & L'); try done; [by apply extends_new|lia|by rewrite vw_new, <- (vw_length a)|].
      exists a', sl'. split; [exact E|]. split; [done|by apply app_same].
    - (* Remove *)
      destruct q as [|k rel]; [done|].
      destruct (negb (Nat.eqb k 0) && Nat.eqb (length rel) 0) eqn:Ek.
      + apply andb_true_iff in Ek as [Hk Hr]. apply negb_true_iff, Nat.eqb_neq in Hk. apply Nat.eqb_eq in Hr.
        destruct rel; [|done]. injection Hb as <- <-.
        destruct (Nat.eqb_spec k 0) as [?|_]; [done|]. cbn [orb] in Hf.
        destruct (slot_get sl k) as [n|] eqn:En; [|done]. destruct (parent a n) eqn:Ep; [done|]. apply Nat.ltb_lt in Hf.
        unfold with_node. cbn [fst snd navigate_slot_path navigate]. rewrite En.
        rewrite (replace_orphan a n W Hf Ep). cbn [plift snd]. eexists _, _. split; [reflexivity|].
        split; [|by eexists; apply map_app]. eapply lock_extends; [by apply lock_take|by apply extends_new].
      + look Hb Ep. pose proof (lock_find _ _ _ _ _ _ L Ep) as En. pose proof (lock_found_lt _ _ _ _ _ _ L Ep) as Hn.
        looked En. unfold vacate in Hb. rewrite vw_parent in Hb. destruct (parent a n) as [pp|] eqn:Epp.
        * rewrite vw_replace_by_empty in Hb.
          destruct (replace_leaf_full a n (text_node "") W Hn) as (a1 & E1 & R).
          change (replace_leaf a n (text_node "")) with (replace_by_empty a n) in E1. rewrite E1 in Hb |- *.
          cbn [ovw plift snd] in Hb |- *. injection Hb as <- <-. eexists _, _. split; [reflexivity|].
          split; [by eapply lock_replaced|by apply app_same].
        * cbn [plift snd] in Hb. injection Hb as <- <-. rewrite (replace_orphan a n W Hn Epp). cbn [plift snd].
          eexists _, _. split; [reflexivity|]. split; [|by eexists; apply map_app].
          eapply lock_extends; [done|by apply extends_new].
    - (* SetText *)
      look Hb Ep. pose proof (lock_find _ _ _ _ _ _ L Ep) as En. looked En.
      unfold found in Hf. rewrite En in Hf. unfold set_text_content in Hb. rewrite vw_kind in Hb.
      pose proof (lock_found_lt _ _ _ _ _ _ L Ep) as Hn.
      destruct (node_kind a n) as [[| |t|t]|] eqn:Ek; try done; cbn [option_map vkind plift snd] in Hb; injection Hb as <- <-;
        try (eexists _, _; split; [reflexivity|]; split; [by apply lock_set_kind|apply app_same; by rewrite vw_set_kind]).
      exfalso. unfold node_kind, data in Ek. destruct (lookup_lt_is_Some_2 a n Hn) as [x Hx]. by rewrite Hx in Ek.
    - (* SetAttribute *)
      look Hb Ep. pose proof (lock_find _ _ _ _ _ _ L Ep) as En. looked En.
      unfold found, node_kind in Hf. rewrite En in Hf. unfold node_kind. rewrite vw_data in Hb.
      destruct (data a n) as [[[|t l| |] ns]|] eqn:Ed; try done; cbn [option_map vd vkind d_kind d_ns] in Hb, Hf |- *.
      rewrite battrs_set in Hb by done. injection Hb as <- <-.
      eexists _, _; split; [reflexivity|]; split; [by apply lock_set_kind|apply app_same; by rewrite vw_set_kind].
    - look Hb Ep. pose proof (lock_find _ _ _ _ _ _ L Ep) as En. looked En.
      unfold found, node_kind in Hf. rewrite En in Hf. unfold node_kind. rewrite vw_data in Hb.
      destruct (data a n) as [[[|t l| |] ns]|] eqn:Ed; try done; cbn [option_map vd vkind d_kind d_ns] in Hb, Hf |- *.
      rewrite battrs_remove in Hb by done. injection Hb as <- <-.
      eexists _, _; split; [reflexivity|]; split; [by apply lock_set_kind|apply app_same; by rewrite vw_set_kind].
    - (* Move *)
      assert (exists n a1 slx1, navigate_slot_path a sl from = Val n /\
        (if Nat.ltb 1 (length from) then replace_by_empty a n else Val (detach a n)) = Val a1 /\
        lock a1 sl bd slx1 /\ n < length a1 /\ parent a1 n = None /\ (forall k, slot_get slx1 k <> Some n) /\
        (if Nat.ltb (length to) 2 then ((vw a1, slx1), Fail EmptyPath) else
           with_found bd (vw a1, slx1) (removelast to) (fun p =>
                  match node_kind (vw a1) p with
                  | Some (NElem _ _) => b_insert_at_position (vw a1) slx1 p n (List.last to 0) slot
                  | _ => ((vw a1, slx1), Fail NotAnElement)
                  end)) = ((bx, slx'), Val tt)) as (n & a1 & slx1 & En & E1 & L1 & Hn & Ho & Hfree & Hb1).
      { destruct from as [|k [|i rel]].
        - done.
        - destruct (slot_get slx k) as [n|] eqn:Es; [|done]. destruct (lo_sl _ _ _ _ L _ _ Es) as (H1 & H2 & H3 & H4).
          exists n, a, (slot_take slx k). cbn [navigate_slot_path navigate length]. rewrite H2.
          split; [done|]. split; [unfold detach; by rewrite H4|]. split; [by apply lock_take|]. split_and!; try done.
          intros j. rewrite slot_take_get. destruct (Nat.eqb_spec j k) as [|Hj]; [done|]. intros Hx. apply Hj.
          by apply (lo_inj _ _ _ _ L _ _ n).
        - destruct (find_node bd (vw a) slx (k :: i :: rel)) as [n| | |] eqn:Ep; cbn [obind] in Hb; try done.
          pose proof (lock_find _ _ _ _ _ _ L Ep) as En. pose proof (lock_found_lt _ _ _ _ _ _ L Ep) as Hn.
          assert (exists pp, parent a n = Some pp) as (pp & Epp).
          { unfold navigate_slot_path in En. destruct (slot_get sl k); [|done]. by eapply navigate_parent. }
          destruct (replace_leaf_full a n (text_node "") W Hn) as (a1 & E1 & R).
          change (replace_leaf a n (text_node "")) with (replace_by_empty a n) in E1.
          unfold vacate in Hb. rewrite vw_parent, Epp, vw_replace_by_empty, E1 in Hb. cbn [ovw obind] in Hb.
          exists n, a1, slx. split; [done|]. split; [done|]. split; [by eapply lock_replaced|].
          pose proof (rp_len _ _ _ _ R). split; [lia|].
          split; [rewrite (rp_parent _ _ _ _ R), Nat.eqb_refl by lia; done|]. split; [|exact Hb].
          intros j Hj. destruct (lo_sl _ _ _ _ L _ _ Hj) as (_ & _ & _ & H4). congruence. }
      rewrite En, E1 in Hf. looked En. rewrite E1. clear Hb E1 En.
      destruct (Nat.ltb (length to) 2) eqn:El; [done|]. unfold with_found in Hb1. cbn [fst snd] in Hb1.
      destruct (find_node bd (vw a1) slx1 (removelast to)) as [n0| | |] eqn:Ep; try done.
      destruct (node_kind (vw a1) n0) as [[| | |]|]; try done.
      pose proof (lock_find _ _ _ _ _ _ L1 Ep) as En. pose proof (lock_found_lt _ _ _ _ _ _ L1 Ep) as Hp.
      assert (get_slot_parent a1 sl to = Val (n0, List.last to 0)) as Hg by (unfold get_slot_parent; by rewrite El, En).
      unfold place_fine in Hf. rewrite Hg in Hf.
      destruct (put_step a1 sl bd slx1 n0 n to (List.last to 0) slot bx slx' L1 Hg Hp Hn Ho Hfree Hf Hb1)
        as (a' & sl' & E & V & L').
      exists a', sl'. split; [done|]. split; [done|by apply app_same].
    - (* UpdateProps *)
      look Hb Ep. pose proof (lock_find _ _ _ _ _ _ L Ep) as En. looked En.
      unfold found in Hf. rewrite En in Hf. unfold set_text_content in Hb.
      set (tc := find _ ch) in *. 
      assert (forall t l, node_kind a n = Some (NElem t l) -> tc = None) as Hno.
      { intros t l Hk. rewrite Hk in Hf. unfold ok_changes in Hf. apply andb_true_iff in Hf as [_ Hf]. unfold tc.
        clear -Hf. induction ch as [|[[|q] v] ch IH]; cbn [forallb pc_name] in Hf; [done|done|]. cbn [find pc_name].
        apply IH. by apply andb_true_iff in Hf as [_ Hf]. }
      destruct (data a n) as [[k ns]|] eqn:Ed.
      2:{ exfalso. pose proof (lock_found_lt _ _ _ _ _ _ L Ep) as Hn. unfold data in Ed.
          destruct (lookup_lt_is_Some_2 a n Hn) as [x Hx]. by rewrite Hx in Ed. }
      assert (node_kind a n = Some k) as Hk by (unfold node_kind; by rewrite Ed). rewrite vw_kind, Hk in Hb. rewrite Hk in Hf |- *.
      cbn [option_map] in Hb.
      destruct k as [|t l|t|t]; cbn [vkind] in Hb.
      + assert (((vw a, slx), Val tt) = ((bx, slx'), Val tt)) as Hb'.
        { destruct tc as [c|]; [destruct (pc_value c)|]; rewrite vw_data, Ed in Hb; exact Hb. }
        injection Hb' as <- <-. eexists _, _. split; [reflexivity|]. split; [done|by apply app_same].
      + rewrite (Hno t l Hk) in Hb. rewrite vw_data, Ed in Hb. cbn [option_map vd vkind d_kind d_ns] in Hb.
        rewrite battrs_changes in Hb by done. injection Hb as <- <-.
        eexists _, _; split; [reflexivity|]; split; [by apply lock_set_kind|apply app_same; by rewrite vw_set_kind].
      + assert (forall s, data (set_kind (vw a) n (NText s)) n = Some (mkD (NText s) ns)) as Hd.
        { intros s. change (NText s) with (vkind battrs (NText s)) at 1. rewrite <- vw_set_kind, vw_data. unfold set_kind.
          rewrite Ed, data_set_data, Nat.eqb_refl by (by eapply data_lt). done. }
        destruct tc as [c|]; [destruct (pc_value c)|]; rewrite ?Hd, ?vw_data, ?Ed in Hb; injection Hb as <- <-;
          (eexists _, _; split; [reflexivity|]; split; [try by apply lock_set_kind|apply app_same; try by rewrite vw_set_kind]); done.
      + assert (forall s, data (set_kind (vw a) n (NComment s)) n = Some (mkD (NComment s) ns)) as Hd.
        { intros s. change (NComment s) with (vkind battrs (NComment s)) at 1. rewrite <- vw_set_kind, vw_data. unfold set_kind.
          rewrite Ed, data_set_data, Nat.eqb_refl by (by eapply data_lt). done. }
        destruct tc as [c|]; [destruct (pc_value c)|]; rewrite ?Hd, ?vw_data, ?Ed in Hb; injection Hb as <- <-;
          (eexists _, _; split; [reflexivity|]; split; [try by apply lock_set_kind|apply app_same; try by rewrite vw_set_kind]); done.
    - done.
  Qed.
End Step.
