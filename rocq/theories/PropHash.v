(** Property theorems on precomputed tables and hashes: C60, C61. *)
From Coq Require Import NArith.
From Verif Require Import Base Arena Matching Chawathe Dom HtmlDiff HashModel
  ArenaProofs ArenaOps TreeProofs DtreeProofs MatchProofs DomTree HashProofs ConvTotal DiffTotal PayloadProofs
  Instances InstanceProofs PropMatch PropTotal BuildProofs ConvProofs AssembleProofs NestProofs PropRoundtrip.
Local Open Scope list_scope.

Lemma upd_same {A} (f : nat -> A) i x : upd f i x i = x.
Proof. unfold upd. by rewrite Nat.eqb_refl. Qed.
Lemma upd_other {A} (f : nat -> A) i x j : i <> j -> upd f i x j = f j.
Proof. unfold upd. by intros ->%Nat.eqb_neq. Qed.

Lemma subt_cases s i rs : subt s (Rose i rs) -> s = Rose i rs \/ exists r, r ∈ rs /\ subt s r.
Proof. intros Hs. inversion Hs; subst; [by left|]. right. eauto. Qed.

(** A loop over the nodes in post-order that sets the value of each node from the
    values of its children. *)
Lemma post_table {A} (step : (nat -> A) -> nat -> (nat -> A)) (val : rose -> A) (init : nat -> A) r :
  (forall s tab, subt s r -> tab (rid s) = init (rid s) -> (forall c, c ∈ rsub s -> tab (rid c) = val c) ->
     step tab (rid s) = upd tab (rid s) (val s)) ->
  NoDup (preorder r) -> forall tab, (forall i, i ∈ preorder r -> tab i = init i) ->
  (forall j, j ∉ preorder r -> fold_left step (postorder r) tab j = tab j) /\
  forall s, subt s r -> fold_left step (postorder r) tab (rid s) = val s.
Proof.
  induction r as [i rs IH] using rose_ind'. intros HS ND tab HI.
  cbn [preorder postorder] in *. apply NoDup_cons in ND as [Hi ND].
  assert (forall rs' tab, (forall r, r ∈ rs' -> r ∈ rs) -> NoDup (flat_map preorder rs') ->
    (forall x, x ∈ flat_map preorder rs' -> tab x = init x) ->
    (forall j, j ∉ flat_map preorder rs' -> fold_left step (flat_map postorder rs') tab j = tab j) /\
    forall s r, subt s r -> r ∈ rs' -> fold_left step (flat_map postorder rs') tab (rid s) = val s) as HF.
  { induction rs' as [|r rs' IHl]; intros tab' Hin ND' HI'; [split; [done|intros s r _ Hr; by apply elem_of_nil in Hr]|].
    cbn [flat_map] in *. apply NoDup_app in ND' as (ND1 & Hd & ND2).
    destruct (IH r (Hin r ltac:(left))) with (tab := tab') as [K1 K2]; [|done| |].
    { intros s tb Hs. apply HS. eapply subt_trans; [exact Hs|]. apply subt_child, Hin. left. }
    { intros x Hx. apply HI'. apply elem_of_app. by left. }
    destruct (IHl (fold_left step (postorder r) tab') ltac:(intros; apply Hin; by right) ND2) as [L1 L2].
    { intros x Hx. rewrite K1 by (intros Hx'; by apply (Hd x)). apply HI'. apply elem_of_app. by right. }
    rewrite fold_left_app. split.
    - intros j Hj. rewrite elem_of_app in Hj. rewrite L1 by tauto. apply K1. tauto.
    - intros s r' Hs Hr'. apply elem_of_cons in Hr' as [->|Hr']; [|by apply (L2 s r')].
      rewrite L1; [by apply K2|]. apply Hd. apply preorder_subt. by exists s. }
  destruct (HF rs tab (fun _ x => x) ND) as [K1 K2]; [intros; apply HI; by right|].
  rewrite fold_left_app. cbn [fold_left]. set (tab' := fold_left step (flat_map postorder rs) tab) in *.
  pose proof (HS (Rose i rs) tab' (subt_refl _)) as HR. cbn [rid] in HR. rewrite HR.
  2:{ cbn [rid]. rewrite K1 by done. apply HI. left. }
  2:{ intros c Hc. by apply (K2 c c (subt_refl c)). }
  cbn [rid]. split.
  - intros j Hj. rewrite elem_of_cons in Hj. rewrite upd_other by (intros ->; tauto). apply K1. tauto.
  - intros s Hs. apply subt_cases in Hs as [->|(r & Hr & Hs)]; [cbn [rid]; by rewrite upd_same|].
    rewrite upd_other; [by apply (K2 s r)|]. intros ->. apply Hi. apply elem_flat_map. exists r. split; [done|].
    apply preorder_subt. by exists s.
Qed.

(** ** C60: tables *)

Section Tables.
  Context {H : Type}.
  Variable hcomb : hkind -> option string -> list H -> H.
  Variable h0 : H.

  (** [recompute_hashes] leaves in every node of the tree the hash that Matching.v
      reads. *)
  Theorem recompute_table : forall (t : arena tdata) root,
    wf t -> root < length t ->
    exists tab ta, recompute_hashes hcomb h0 t root = Val tab /\ mk_dtree hcomb h0 (fun d => d) t root = Val ta /\
      forall i, (i ∈ t_iter ta -> tab i = t_hash ta i) /\ (i ∉ t_iter ta -> tab i = h0).
  Proof.
    intros t root W Hl. destruct (tree_exists t root W) as (r & <- & Hr).
    destruct (mk_dtree_presents hcomb h0 (fun d => d) t r W Hl Hr) as (ta & Ea & PA).
    unfold recompute_hashes. rewrite (post_order_spec _ _ W Hr Hl). cbn [ofuel obind].
    eexists _, ta. split; [reflexivity|]. split; [done|].
    assert (NoDup (preorder r)) as ND by apply PA.
    destruct (post_table (rehash hcomb t) (rhash hcomb (fun d => d) t) (fun _ => h0) r) with (tab := fun _ : nat => h0) as [K1 K2]; [|done|done|].
    { intros s tab Hs _ Hc. pose proof (is_tree_subt _ _ _ Hs Hr) as Hts.
      assert (rid s < length t) as Hls. { eapply preorder_lt; [done|exact Hr|done|]. apply preorder_subt. by exists s. }
      destruct (data_some t (rid s) Hls) as (n & Hd).
      unfold rehash. rewrite Hd. destruct s as [i rs]. cbn [rhash rid rsub] in *. unfold dkind, dtext. rewrite Hd. do 2 f_equal.
      rewrite (is_tree_children _ _ Hts : children t i = map rid rs), map_map. apply map_ext_in. intros c Hin. apply elem_of_list_In in Hin. by apply Hc. }
    intros i. rewrite (pr_iter _ _ PA). split; [|apply K1]. intros Hi. apply preorder_subt in Hi as (s & Hs & <-).
    rewrite K2 by done. symmetry. by apply (mk_dtree_hash hcomb h0 (fun d => d) t r).
  Qed.

  Lemma first_pass_spec (a : arena dnode) : forall l nodes i,
    fold_left (first_pass h0 a) l nodes i =
    if mem i l then
      match data a i with
      | Some d => match d_kind d with
                  | NDocument => nodes i
                  | _ => Some (mkDND h0 (td_kind (tdata_of d)) (td_props (tdata_of d)) (td_text (tdata_of d)) 0)
                  end
      | None => nodes i
      end
    else nodes i.
  Proof.
    induction l as [|x l IH]; intros nodes i; [done|]. cbn [fold_left]. rewrite IH.
    assert (mem i (x :: l) = Nat.eqb x i || mem i l) as ->.
    { unfold mem. cbn. by rewrite Nat.eqb_sym. }
    unfold first_pass. destruct (Nat.eqb_spec x i) as [->|Hne]; cbn [orb].
    - destruct (data a i) as [[[|t l'|s|s] ns]|]; unfold tdata_of; cbn; rewrite ?upd_same; by destruct (mem i l).
    - destruct (mem i l); destruct (data a x) as [[[|t l'|s|s] ns]|]; rewrite ?upd_other by done; done.
  Qed.

  (** The height of a node from those of its children. *)
  Lemma rheight_max i rs : rheight (Rose i rs) = match rs with [] => 0 | _ => 1 + fold_right Nat.max 0 (map rheight rs) end.
  Proof.
    cbn. destruct rs as [|r rs]; [done|]. cbn. do 2 f_equal. induction rs as [|x rs IH]; [done|]. cbn. by rewrite IH.
  Qed.

  (** [DiffableDocument::new] has exactly the nodes of the body, each with its kind,
      attributes and text, and with the hash and the height that Matching.v reads. *)
  Theorem diffable_table : forall (doc : document) b, proper doc -> body doc = Some b ->
    exists nodes tb, diffable_new hcomb h0 doc = Val (b, nodes) /\ mk_dtree hcomb h0 tdata_of (doc_arena doc) b = Val tb /\
      (forall i, i ∈ t_iter tb -> nodes i = Some (mkDND (t_hash tb i) (t_kind tb i) (t_props tb i) (t_text tb i) (t_height tb i))) /\
      (forall i, i ∉ t_iter tb -> nodes i = None) /\
      (forall i, i ∈ t_iter tb -> d_hash h0 nodes i = t_hash tb i /\ d_height nodes i = t_height tb i).
  Proof.
    intros doc b PD Eb.
    enough (exists nodes tb, diffable_new hcomb h0 doc = Val (b, nodes) /\ mk_dtree hcomb h0 tdata_of (doc_arena doc) b = Val tb /\
      (forall i, i ∈ t_iter tb -> nodes i = Some (mkDND (t_hash tb i) (t_kind tb i) (t_props tb i) (t_text tb i) (t_height tb i))) /\
      (forall i, i ∉ t_iter tb -> nodes i = None)) as (nodes & tb & E1 & E2 & E3 & E4).
    { exists nodes, tb. do 4 (split; [done|]). intros i Hi. unfold d_hash, d_height. by rewrite (E3 i Hi). } pose proof (pp_wf _ PD) as W. destruct (body_data _ _ Eb) as (bd & Hbd). pose proof (data_lt _ _ _ Hbd) as Hl.
    destruct (tree_exists (doc_arena doc) b W) as (r & <- & Hr).
    destruct (mk_dtree_presents hcomb h0 tdata_of (doc_arena doc) r W Hl Hr) as (tb & Ed & PB).
    unfold diffable_new. rewrite Eb, (descendants_spec _ _ W Hr), (post_order_spec _ _ W Hr Hl). cbn [ofuel obind].
    eexists _, tb. split; [reflexivity|]. split; [done|].
    set (a := doc_arena doc) in *.
    set (init := fun i => Some (mkDND h0 (dkind tdata_of a i) (dprops tdata_of a i) (dtext tdata_of a i) 0)).
    set (val := fun s => Some (mkDND (rhash hcomb tdata_of a s) (dkind tdata_of a (rid s)) (dprops tdata_of a (rid s)) (dtext tdata_of a (rid s)) (rheight s))).
    destruct (post_table (second_pass hcomb a) val init r) with (tab := fold_left (first_pass h0 a) (preorder r) (fun _ => None)) as [K1 K2].
    - intros s tab Hs Ht Hc. unfold second_pass. rewrite Ht. unfold init. cbn [dd_kind dd_text dd_props].
      destruct s as [i rs]. cbn [rid rsub] in *. pose proof (is_tree_subt _ _ _ Hs Hr) as Hts.
      assert (found tab (children a i) = map (fun s => mkDND (rhash hcomb tdata_of a s) (dkind tdata_of a (rid s)) (dprops tdata_of a (rid s)) (dtext tdata_of a (rid s)) (rheight s)) rs) as ->.
      { rewrite (is_tree_children _ _ Hts : children a i = map rid rs). clear -Hc. induction rs as [|c rs IH]; [done|]. cbn [map]. unfold found in *. cbn [flat_map].
        rewrite (Hc c ltac:(left)). cbn [app]. f_equal. apply IH. intros; apply Hc; by right. }
      unfold val. rewrite !map_map. cbn [dd_hash dd_height]. cbn [rid rhash]. do 3 f_equal. rewrite rheight_max, (is_tree_children _ _ Hts : children a i = map rid rs).
      by destruct rs.
    - apply PB.
    - intros i Hi. rewrite first_pass_spec. rewrite (proj2 (mem_true _ _) Hi). unfold init, dkind, dprops, dtext.
      destruct (proper_inside _ _ PD Eb i) as (k & Hk & Hnd).
      { apply preorder_subt in Hi as (s & Hs & <-). clear -Hs Hr. revert Hr.
        assert (forall s u, subt s u -> is_tree a u -> forall b, inside a b (rid u) -> inside a b (rid s)) as HH.
        { clear. intros s u Hs. induction Hs as [u|s t u Hs IH Hin]; intros Hu b Hb; [done|].
          apply IH; [by eapply is_tree_sub|]. eapply inside_child; [exact Hb|]. rewrite (is_tree_children _ _ Hu).
          apply elem_of_list_fmap. by exists t. }
        intros Hr. apply (HH s r Hs Hr). constructor. }
      fold a in Hk. unfold node_kind in Hk. destruct (data a i) as [[k' ns]|]; [|done]. cbn in Hk. injection Hk as <-.
      by destruct k'.
    - split.
      + intros i Hi. rewrite (pr_iter _ _ PB) in Hi. apply preorder_subt in Hi as (s & Hs & <-). rewrite K2 by done. unfold val.
        rewrite (mk_dtree_hash hcomb h0 tdata_of a r tb s W Hl Hr Ed Hs).
        destruct (mk_dtree_fields _ _ _ _ _ _ Ed) as (_ & -> & -> & -> & _). by rewrite (pr_height _ _ PB s Hs).
      + intros i Hi. rewrite (pr_iter _ _ PB) in Hi. rewrite K1 by done. rewrite first_pass_spec. apply mem_false in Hi. by rewrite Hi.
  Qed.
End Tables.

(** The equation that Merkle hashes satisfy. *)
Lemma mk_dtree_merkle {H D} (hcomb : hkind -> option string -> list H -> H) h0 (td : D -> tdata) a root t i :
  wf a -> root < length a -> mk_dtree hcomb h0 td a root = Val t -> i ∈ t_iter t ->
  t_hash t i = hcomb (t_kind t i) (t_text t i) (map (t_hash t) (t_children t i)).
Proof.
  intros W Hl E Hi. destruct (tree_exists a root W) as (r & <- & Hr).
  destruct (mk_dtree_presents hcomb h0 td a r W Hl Hr) as (t' & E' & PB). rewrite E in E'. injection E' as <-.
  rewrite (pr_iter _ _ PB) in Hi. apply preorder_subt in Hi as (s & Hs & <-).
  rewrite (mk_dtree_hash hcomb h0 td a r t s W Hl Hr E Hs), (pr_children _ _ PB s Hs), map_map.
  destruct (mk_dtree_fields _ _ _ _ _ _ E) as (_ & -> & _ & -> & _).
  destruct s as [i rs]. cbn [rid rsub rhash]. f_equal.
  apply map_ext_in. intros c Hc. apply elem_of_list_In in Hc. symmetry.
  apply (mk_dtree_hash hcomb h0 td a r t c W Hl Hr E). eapply subt_trans; [|exact Hs]. by apply subt_child.
Qed.

(** The same, read off the table that the loops leave. *)
Corollary diffable_merkle : forall {H} (hcomb : hkind -> option string -> list H -> H) h0 (doc : document) b nodes i d,
  proper doc -> body doc = Some b -> diffable_new hcomb h0 doc = Val (b, nodes) -> nodes i = Some d ->
  dd_hash d = hcomb (dd_kind d) (dd_text d) (map (d_hash h0 nodes) (children (doc_arena doc) i)).
Proof.
  intros H hcomb h0 doc b nodes i d PD Eb EN Hd.
  destruct (diffable_table hcomb h0 doc b PD Eb) as (nodes' & tb & EN' & Etb & HT & HF & _). rewrite EN in EN'. injection EN' as <-.
  pose proof (pp_wf _ PD) as W. destruct (body_data _ _ Eb) as (bd & Hbd). pose proof (data_lt _ _ _ Hbd) as Hl.
  destruct (decide (i ∈ t_iter tb)) as [Hi|Hi]; [|rewrite HF in Hd by done; done].
  rewrite HT in Hd by done. injection Hd as <-. cbn [dd_hash dd_kind dd_text].
  rewrite (mk_dtree_merkle hcomb h0 tdata_of _ _ _ i W Hl Etb Hi). f_equal.
  destruct (tree_exists (doc_arena doc) b W) as (r & <- & Hr).
  destruct (mk_dtree_presents hcomb h0 tdata_of (doc_arena doc) r W Hl Hr) as (tb' & Ed & PB). rewrite Etb in Ed. injection Ed as <-.
  rewrite (pr_iter _ _ PB) in Hi. apply preorder_subt in Hi as (s & Hs & <-).
  rewrite (is_tree_children _ _ (is_tree_subt _ _ _ Hs Hr)), (pr_children _ _ PB s Hs).
  apply map_ext_in. intros c Hc. apply in_map_iff in Hc as (u & <- & Hu). apply elem_of_list_In in Hu.
  unfold d_hash. rewrite HT; [done|].
  rewrite (pr_iter _ _ PB). apply preorder_subt. exists u. split; [|done]. eapply subt_trans; [|exact Hs]. destruct s as [i rs]. by apply subt_child.
Qed.

(** Caches that compute on the first query answer every query as the function would. *)
Theorem caches_transparent : forall {A} (f : nat -> A) l, queries f (fun _ => None) l = map f l.
Proof.
  intros A f l. assert (forall cache, (forall i x, cache i = Some x -> x = f i) -> queries f cache l = map f l) as HH; [|by apply HH].
  induction l as [|i l IH]; intros cache HC; [done|]. cbn. unfold get_or_compute.
  destruct (cache i) as [x|] eqn:E; cbn.
  - by rewrite (HC _ _ E), IH.
  - f_equal. apply IH. intros j y. unfold upd. destruct (Nat.eqb_spec i j) as [<-|]; [by intros [= <-]|apply HC].
Qed.

(** ** C61: what is hashed *)

(** Everything but attributes and the spelling of tags can be read off the input of
    the hasher. *)
Theorem hash_input : forall {H} atom k t (hs : list H) k' t' hs',
  node_writes atom k t hs = node_writes atom k' t' hs' ->
  t = t' /\ hs = hs' /\
  (k = k' \/ exists tag tag' ns, k = KElem tag ns /\ k' = KElem tag' ns /\ atom tag = atom tag').
Proof.
  intros H atom k t hs k' t' hs' E. unfold node_writes in E.
  assert (forall hs hs', map (@WHash H) hs = map WHash hs' -> hs = hs') as HI.
  { induction hs0 as [|h hs0 IH]; intros [|h' hs0']; try done. intros [= -> E']. f_equal. by apply IH. }
  assert (forall t t' (hs hs' : list H), match t with Some s => [WStr s] | None => [] end ++ map WHash hs =
            match t' with Some s => [WStr s] | None => [] end ++ map WHash hs' -> t = t' /\ hs = hs') as HT.
  { intros [s|] [s'|] l l'; cbn.
    - intros [= -> E']. auto.
    - by destruct l'.
    - by destruct l.
    - auto. }
  destruct k as [tag ns| |], k' as [tag' ns'| |]; cbn [kind_writes app] in E; try done.
  - injection E as Ea Ens E. apply HT in E as [-> ->]. split; [done|]. split; [done|]. right.
    exists tag, tag', ns. split; [done|]. split; [|done]. f_equal. by destruct ns, ns'.
  - injection E as E. apply HT in E as [-> ->]. auto.
  - injection E as E. apply HT in E as [-> ->]. auto.
Qed.

(** The input of the hasher for node [i] of a tree. *)
Definition fed {H P} atom (t : dtree H hkind P string) (i : nat) : list (write H) :=
  node_writes atom (t_kind t i) (t_text t i) (map (t_hash t) (t_children t i)).

(** So it is enough that the hasher does not map two different inputs that occur in
    the two pages to one value, and that no two different tags in them have the same
    atom hash: then the pages' hashes do not collide. *)
Theorem writes_no_collision : forall {H} (heqb : H -> H -> bool) (finish : list (write H) -> H) atom h0
    (old new : document) ob nb oats nats ts us t ta tb m,
  (forall h, heqb h h = true) ->
  mild_doc old ob oats ts -> mild_doc new nb nats us ->
  compared heqb (fun k s hs => finish (node_writes atom k s hs)) h0 old new t ta tb m ->
  (forall x y, x ∈ t_iter ta -> y ∈ t_iter tb ->
     heqb (finish (fed atom ta x)) (finish (fed atom tb y)) = true -> fed atom ta x = fed atom tb y) ->
  (forall x y tag tag' ns, x ∈ t_iter ta -> y ∈ t_iter tb -> t_kind ta x = KElem tag ns -> t_kind tb y = KElem tag' ns ->
     atom tag = atom tag' -> tag = tag') ->
  faithful_hashes heqb ta tb.
Proof.
  intros H heqb finish atom h0 old new ob nb oats nats ts us t ta tb m HR PO PN (ob' & nb' & Eo & En & Et & Ea & Eb & _) HF HT x y Hx Hy Hh.
  assert (ob' = ob) as -> by (pose proof (md_body _ _ _ _ PO); congruence).
  assert (nb' = nb) as -> by (pose proof (md_body _ _ _ _ PN); congruence).
  destruct (build_tree_ok (doc_arena old) ob _ ts (md_wf _ _ _ _ PO) (md_data _ _ _ _ PO) (md_holds _ _ _ _ PO))
    as (t' & Et' & BT). assert (t' = t) as -> by congruence.
  rewrite (mk_dtree_merkle _ h0 _ t 0 ta x (bt_wf _ _ _ BT) ltac:(eapply data_lt; apply BT) Ea Hx) in Hh.
  rewrite (mk_dtree_merkle _ h0 _ (doc_arena new) nb tb y (md_wf _ _ _ _ PN) ltac:(eapply data_lt; apply (md_data _ _ _ _ PN)) Eb Hy) in Hh.
  apply (HF x y Hx Hy), hash_input in Hh as (E1 & E2 & E3).
  split.
  { destruct E3 as [E3|(tag & tag' & ns & K1 & K2 & K3)]; [done|]. rewrite K1, K2. f_equal. by apply (HT x y tag tag' ns). }
  split; [done|]. revert E2. generalize (t_children ta x) (t_children tb y). induction l as [|c l IH]; intros [|c' l']; try done.
  intros [= E2 E2']. constructor; [by rewrite E2|by apply IH].
Qed.

(** With this in place of the assumption on hashes, pages round-trip. *)
Corollary diff_roundtrip_writes : forall {H} (heqb : H -> H -> bool) (finish : list (write H) -> H) atom h0
    (parse : string -> list htree) (old new : document) ob nb oats nats ts us,
  (forall h, heqb h h = true) ->
  plain_doc old ob oats ts -> plain_doc new nb nats us ->
  (forall t ta tb m, compared heqb (fun k s hs => finish (node_writes atom k s hs)) h0 old new t ta tb m ->
     (forall x y, x ∈ t_iter ta -> y ∈ t_iter tb ->
        heqb (finish (fed atom ta x)) (finish (fed atom tb y)) = true -> fed atom ta x = fed atom tb y) /\
     (forall x y tag tag' ns, x ∈ t_iter ta -> y ∈ t_iter tb -> t_kind ta x = KElem tag ns -> t_kind tb y = KElem tag' ns ->
        atom tag = atom tag' -> tag = tag') /\
     swap_free m (init_parents t tb m) (html_edit_script ta tb m)) ->
  exists ps d',
    diff heqb (fun k s hs => finish (node_writes atom k s hs)) h0 old new = Val ps /\
    apply_patches parse old ps = (d', Val tt) /\ to_body_html d' = to_body_html new.
Proof.
  intros H heqb finish atom h0 parse old new ob nb oats nats ts us HR PO PN HC.
  destruct (diff_roundtrip heqb (fun k s hs => finish (node_writes atom k s hs)) h0 parse old new ob nb oats nats ts us PO PN)
    as (ps & d' & H1 & H2 & _ & _ & H5 & _).
  - intros t ta tb m CM. destruct (HC t ta tb m CM) as (HF & HT & SF). split; [|done]. apply faithful_no_collision.
    by apply (writes_no_collision heqb finish atom h0 old new ob nb oats nats ts us t ta tb m HR PO PN CM HF HT).
  - by exists ps, d'.
Qed.

(** ** A hasher that loses nothing *)

Inductive whash := WH (l : list (write whash)).
Definition write_eqb {H} (heqb : H -> H -> bool) (x y : write H) : bool :=
  match x, y with
  | WDisc n, WDisc n' => Nat.eqb n n'
  | WU32 n, WU32 n' => N.eqb n n'
  | WStr s, WStr s' => String.eqb s s'
  | WHash h, WHash h' => heqb h h'
  | _, _ => false
  end.
Fixpoint whash_eqb (x y : whash) : bool :=
  match x, y with
  | WH l, WH l' =>
      (fix go (l l' : list (write whash)) : bool :=
         match l, l' with
         | [], [] => true
         | a :: l, b :: l' => write_eqb whash_eqb a b && go l l'
         | _, _ => false
         end) l l'
  end.
Fixpoint whash_size (x : whash) : nat :=
  match x with
  | WH l => S ((fix go (l : list (write whash)) : nat :=
      match l with [] => 0 | a :: l => match a with WHash h => whash_size h | _ => 0 end + go l end) l)
  end.

Lemma whash_eqb_eq x y : whash_eqb x y = true <-> x = y.
Proof.
  assert (forall n x y, whash_size x < n -> whash_eqb x y = true <-> x = y) as HH.
  2:{ apply (HH (S (whash_size x))). lia. }
  induction n as [|n IH]; intros [l] [l'] Hn; [lia|]. cbn in *. apply Nat.succ_lt_mono in Hn.
  transitivity (l = l'); [|split; congruence].
  revert l' Hn. induction l as [|a l IHl]; intros [|b l'] Hn; try (split; done).
  rewrite andb_true_iff, IHl by lia.
  assert (write_eqb whash_eqb a b = true <-> a = b) as ->.
  { destruct a, b; cbn; try (split; congruence).
    - rewrite Nat.eqb_eq. split; congruence.
    - rewrite N.eqb_eq. split; congruence.
    - rewrite String.eqb_eq. split; congruence.
    - rewrite IH by lia. split; congruence. }
  split; [intros [-> ->]; done|by intros [= -> ->]].
Qed.

Definition whash_comb atom k t hs := WH (node_writes atom k t hs).

(** The full statement, that pages of different HTML have different hashes if the
    hasher itself loses nothing, is false: two tags may have the same atom hash. *)
Theorem tag_hash_refuted : exists old new,
  proper old /\ proper new /\
  diff whash_eqb (whash_comb (atom_hash (String.eqb "body") (fun _ => 0%N))) (WH []) old new = Val [] /\
  to_body_html old = Some "<x-a>x</x-a>"%string /\ to_body_html new = Some "<x-ap>x</x-ap>"%string.
Proof.
  exists (mk_doc [] [el "x-a" [tx "x"]]), (mk_doc [] [el "x-ap" [tx "x"]]).
  split; [apply proper_mk_doc; vm_compute; reflexivity|].
  split; [apply proper_mk_doc; vm_compute; reflexivity|].
  split; [vm_compute; reflexivity|]. split; vm_compute; reflexivity.
Qed.

(** Tags of at most three bytes cannot do that. *)
Lemma bytes_of_bound s : Forall (fun b => b < 256)%N (bytes_of s).
Proof.
  unfold bytes_of. apply Forall_forall. intros b Hb. apply elem_of_list_In, in_map_iff in Hb as (c & <- & _).
  apply N_ascii_bounded.
Qed.

Lemma le_bytes_inj l l' : length l = length l' -> Forall (fun b => b < 256)%N l -> Forall (fun b => b < 256)%N l' ->
  le_bytes l = le_bytes l' -> l = l'.
Proof.
  revert l'. induction l as [|b l IH]; intros [|b' l'] Hl Hb Hb' E; try (cbn in Hl; lia); [done|].
  inversion Hb; subst. inversion Hb'; subst. cbn [le_bytes] in E. cbn in Hl.
  assert (b = b' /\ le_bytes l = le_bytes l') as [-> E']; [|f_equal; apply IH; auto; lia].
  split; lia.
Qed.

Lemma bytes_of_inj s t : bytes_of s = bytes_of t -> s = t.
Proof.
  revert t. induction s as [|c s IH]; intros [|c' t] E; try done.
  unfold bytes_of in E. cbn in E. injection E as Ec El.
  apply (f_equal ascii_of_N) in Ec. rewrite !ascii_N_embedding in Ec. subst. f_equal. by apply IH.
Qed.

Lemma bytes_of_length s : length (bytes_of s) = String.length s.
Proof. unfold bytes_of. rewrite map_length. induction s; cbn; congruence. Qed.

Lemma le_bytes_bound l : Forall (fun b => b < 256)%N l -> (le_bytes l < 256 ^ N.of_nat (length l))%N.
Proof.
  induction 1 as [|b l Hb _ IH]; cbn [le_bytes length]; [done|].
  rewrite Nat2N.inj_succ, N.pow_succ_r'. lia.
Qed.

Lemma short_inline_hash s : String.length s <= 3 -> inline_hash s = inline_data s.
Proof.
  intros Hl. unfold inline_hash.
  assert (inline_data s < 2 ^ 32)%N as Hb.
  { unfold inline_data. set (x := (16 * N.of_nat (String.length s) + 1)%N).
    assert (Forall (fun b => b < 256)%N (x :: bytes_of s)) as HF by (constructor; [unfold x; lia|apply bytes_of_bound]).
    apply le_bytes_bound in HF. eapply N.lt_le_trans; [exact HF|].
    cbn [length]. rewrite bytes_of_length. change (2 ^ 32)%N with (256 ^ 4)%N. apply N.pow_le_mono_r; lia. }
  rewrite N.shiftr_div_pow2, (N.div_small _ _ Hb), N.lxor_0_l. by apply N.mod_small.
Qed.

Theorem short_tags_distinct known other s t :
  String.length s <= 3 -> String.length t <= 3 -> known s = false -> known t = false ->
  atom_hash known other s = atom_hash known other t -> s = t.
Proof.
  intros Hs Ht Ks Kt. unfold atom_hash. rewrite Ks, Kt. cbn [negb andb].
  destruct (Nat.leb_spec (String.length s) 7); [|lia]. destruct (Nat.leb_spec (String.length t) 7); [|lia].
  rewrite !short_inline_hash by done. unfold inline_data. intros E.
  assert (String.length s = String.length t) as El.
  { cbn [le_bytes] in E. lia. }
  apply bytes_of_inj. rewrite El in E.
  apply le_bytes_inj in E; [by injection E| | |].
  - cbn. by rewrite !bytes_of_length, El.
  - constructor; [lia|apply bytes_of_bound].
  - constructor; [lia|apply bytes_of_bound].
Qed.
Print Assumptions recompute_table.
Print Assumptions diffable_table.
Print Assumptions diffable_merkle.
Print Assumptions caches_transparent.
Print Assumptions hash_input.
Print Assumptions writes_no_collision.
Print Assumptions diff_roundtrip_writes.
Print Assumptions tag_hash_refuted.
Print Assumptions short_tags_distinct.

(** Names that are not kept in the atom - known ones, and those of eight bytes and more -
    are told apart exactly as far as string_cache's own hashes tell them apart. *)
Theorem other_tags known other s t :
  known s = true \/ 8 <= String.length s -> known t = true \/ 8 <= String.length t ->
  atom_hash known other s = atom_hash known other t <-> other s = other t.
Proof.
  assert (forall x, known x = true \/ 8 <= String.length x -> atom_hash known other x = other x) as HA.
  { intros x [Hx|Hx]; unfold atom_hash; [by rewrite Hx|].
    destruct (Nat.leb_spec (String.length x) 7); [lia|]. by rewrite andb_false_r. }
  intros Hs Ht. by rewrite !HA.
Qed.
Print Assumptions other_tags.

(** ** Examples *)

(** The tables of a page with text next to elements. *)
Example diffable_example :
  let doc := mk_doc [el "title" [tx "t"]] ex_old_body in
  proper doc /\ body doc = Some 2 /\
  exists nodes, diffable_new PH PH0 doc = Val (2, nodes) /\ d_height nodes 2 = 3 /\ nodes 1 = None /\
    d_hash PH0 nodes 6 = PH KText (Some "one"%string) [] /\
    d_hash PH0 nodes 5 = PH (KElem "p" NsHtml) None [PH KText (Some "one"%string) []].
Proof.
  split; [apply proper_mk_doc; vm_compute; reflexivity|]. split; [done|].
  eexists. split; [vm_compute; reflexivity|]. repeat split; vm_compute; reflexivity.
Qed.

Example recompute_example :
  exists t tab, build_tree (doc_arena (mk_doc [] [el "p" [tx "a"; el "b" []]])) 2 = Val t /\
    recompute_hashes PH PH0 t 0 = Val tab /\
    tab 0 = PH (KElem "body" NsHtml) None [PH (KElem "p" NsHtml) None [PH KText (Some "a"%string) []; PH (KElem "b" NsHtml) None []]].
Proof. eexists _, _. split; [vm_compute; reflexivity|]. split; vm_compute; reflexivity. Qed.

(** Three bytes is as far as it goes: [x-a] and [x-ap] have the same hash. *)
Example short_tags_example :
  let h := atom_hash (fun _ => false) (fun _ => 0%N) in
  h "ul"%string = 7107873%N /\ h "ul"%string <> h "ol"%string /\ h "x-a"%string = h "x-ap"%string.
Proof. vm_compute. repeat split; congruence. Qed.

(** A name of eight bytes is not kept in the atom, one of seven is. *)
Example other_tags_example :
  let h := atom_hash (String.eqb "body") (fun s => N.of_nat (String.length s)) in
  h "x-abcdef"%string = h "x-uvwxyz"%string /\ h "x-abcde"%string <> h "x-uvwxy"%string /\ h "body"%string = 4%N.
Proof. vm_compute. repeat split; congruence. Qed.

Example caches_example : queries (fun i => i * i) (fun _ => None) [3; 1; 3; 1; 2] = [9; 1; 9; 1; 4].
Proof. vm_compute. reflexivity. Qed.

(** Two pages for the round trip, hashed as the code does with a hasher that loses
    nothing; the names are short enough to be kept in the atom. *)
Definition ex_atom := atom_hash (String.eqb "body") (fun _ => 0%N).
Definition write_check (old new : document) : bool :=
  match body old, body new with
  | Some ob, Some nb =>
      match build_tree (doc_arena old) ob with
      | Val t =>
          match mk_dtree (whash_comb ex_atom) (WH []) (fun d => d) t 0, mk_dtree (whash_comb ex_atom) (WH []) tdata_of (doc_arena new) nb with
          | Val ta, Val tb =>
              match html_matching whash_eqb ta tb with
              | Val m => swap_freeb 100 m (init_parents t tb m) (html_edit_script ta tb m) &&
                  forallb (fun x => forallb (fun y =>
                    match t_kind ta x, t_kind tb y with
                    | KElem u _, KElem v _ => implb (N.eqb (ex_atom u) (ex_atom v)) (String.eqb u v)
                    | _, _ => true
                    end) (t_iter tb)) (t_iter ta)
              | _ => false
              end
          | _, _ => false
          end
      | _ => false
      end
  | _, _ => false
  end.

Example diff_roundtrip_writes_example :
  let old := mk_doc [el "title" [tx "t"]] ex_old_body in
  let new := mk_doc [] ex_new_body in
  plain_doc old 2 [] ex_old_body /\ plain_doc new 2 [] ex_new_body /\
  (forall h, whash_eqb h h = true) /\
  (forall t ta tb m, compared whash_eqb (fun k s hs => WH (node_writes ex_atom k s hs)) (WH []) old new t ta tb m ->
     (forall x y, x ∈ t_iter ta -> y ∈ t_iter tb ->
        whash_eqb (WH (fed ex_atom ta x)) (WH (fed ex_atom tb y)) = true -> fed ex_atom ta x = fed ex_atom tb y) /\
     (forall x y tag tag' ns, x ∈ t_iter ta -> y ∈ t_iter tb -> t_kind ta x = KElem tag ns -> t_kind tb y = KElem tag' ns ->
        ex_atom tag = ex_atom tag' -> tag = tag') /\
     swap_free m (init_parents t tb m) (html_edit_script ta tb m)) /\
  exists ps, diff whash_eqb (fun k s hs => WH (node_writes ex_atom k s hs)) (WH []) old new = Val ps /\ length ps = 15.
Proof.
  intros old new.
  split; [apply mk_doc_plain; solve_plain|]. split; [apply mk_doc_plain; solve_plain|].
  split; [intros h; by apply whash_eqb_eq|]. split; [|eexists; split; [vm_compute; reflexivity|reflexivity]].
  intros t ta tb m (ob & nb & Eo & En & Et & Ea & Eb & Em).
  assert (write_check old new = true) as Hc by (vm_compute; reflexivity).
  unfold write_check in Hc. change (fun k s hs => WH (node_writes ex_atom k s hs)) with (whash_comb ex_atom) in *.
  rewrite Eo, En, Et, Ea, Eb, Em in Hc. apply andb_true_iff in Hc as [Hc1 Hc2].
  split; [|split].
  - intros x y _ _ E. apply whash_eqb_eq in E. by injection E.
  - intros x y tag tag' ns Hx Hy Kx Ky E. rewrite forallb_forall in Hc2.
    pose proof (Hc2 x (proj1 (elem_of_list_In _ _) Hx)) as Hc3. rewrite forallb_forall in Hc3.
    pose proof (Hc3 y (proj1 (elem_of_list_In _ _) Hy)) as Hc4. rewrite Kx, Ky, E, N.eqb_refl in Hc4. by apply String.eqb_eq.
  - by eapply swap_freeb_sound.
Qed.
