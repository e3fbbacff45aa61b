(** [build_tree]: the copy of the old body that is compared and shadowed holds
    the same tree as the body, except for the body's attributes. *)
From Verif Require Import Base Arena Matching Dom HtmlDiff ArenaProofs ArenaOps TreeProofs DomTree.

(** Node data of the root of a tree. *)
Definition tdata_of_h (t : htree) : tdata :=
  match t with
  | HText s => mkTD KText [] (Some s)
  | HComment s => mkTD KComment [] (Some s)
  | HElem tag ns ats _ => mkTD (KElem tag ns) ats None
  end.
Definition hchildren (t : htree) : list htree :=
  match t with HElem _ _ _ cs => cs | _ => [] end.

(** The subtree of [a] at node [i] is [t]. *)
Fixpoint tholds (a : arena tdata) (t : htree) (i : nat) {struct t} : Prop :=
  data a i = Some (tdata_of_h t) /\
  match t with
  | HElem _ _ _ cs =>
      (fix all (cs : list htree) (l : list nat) : Prop :=
         match cs, l with
         | [], [] => True
         | c :: cs', j :: l' => tholds a c j /\ all cs' l'
         | _, _ => False
         end) cs (children a i)
  | _ => children a i = []
  end.

Definition tholds_list (a : arena tdata) (ts : list htree) (l : list nat) : Prop :=
  Forall2 (tholds a) ts l.

Lemma tholds_eq a t i :
  tholds a t i <-> data a i = Some (tdata_of_h t) /\ tholds_list a (hchildren t) (children a i).
Proof.
  destruct t as [tag ns ats cs|s|s]; simpl; apply and_iff_compat_l; unfold tholds_list.
  - generalize (children a i). induction cs as [|c cs IH]; intros [|j l]; split; try done.
    all: try (intros Hf; by inversion Hf).
    + intros [? ?]. constructor; [done|]. by apply IH.
    + intros Hf. inversion Hf; subst. split; [done|]. by apply IH.
  - split; [intros ->; constructor|intros Hf; by inversion Hf].
  - split; [intros ->; constructor|intros Hf; by inversion Hf].
Qed.

Lemma tholds_agree (P : nat -> Prop) a a' t i :
  P i -> (forall j c, P j -> c ∈ children a j -> P c) ->
  (forall j, P j -> data a' j = data a j /\ children a' j = children a j) ->
  tholds a t i -> tholds a' t i.
Proof.
  intros Hi Hcl Hag. revert i Hi. induction t as [s|s|tag ns ats cs IH] using htree_ind'; intros i Hi Ht;
    apply tholds_eq in Ht as [Hd Hcs]; apply tholds_eq; destruct (Hag i Hi) as [Ed Ec]; rewrite Ed, Ec;
    (split; [done|]); simpl in Hcs; simpl; try (inversion Hcs; constructor; fail).
  assert (forall j, j ∈ children a i -> P j) as HP by eauto. clear Ec Hd Ed Hi.
  unfold tholds_list in *. revert HP. induction Hcs as [|c j cs l Hc HF IHl]; intros HP; constructor.
  - apply IH; [left|apply HP; left|done].
  - apply IHl; [intros c' Hc'; apply IH; by right|intros; apply HP; by right].
Qed.

Lemma tholds_list_agree (P : nat -> Prop) a a' ts l :
  (forall i, i ∈ l -> P i) -> (forall j c, P j -> c ∈ children a j -> P c) ->
  (forall j, P j -> data a' j = data a j /\ children a' j = children a j) ->
  tholds_list a ts l -> tholds_list a' ts l.
Proof.
  intros Hl Hcl Hag HF. unfold tholds_list in *. induction HF as [|t i ts l Ht HF IH]; constructor.
  - apply (tholds_agree P a a'); [apply Hl; left|done..].
  - apply IH. intros; apply Hl; by right.
Qed.

Lemma tholds_lt a t i : tholds a t i -> i < length a.
Proof.
  intros Ht. apply tholds_eq in Ht as [Hd _]. unfold data in Hd.
  destruct (a !! i) eqn:E; [|done]. by eapply lookup_lt_Some.
Qed.

Lemma above_agree {D} (a a' : arena D) x y :
  wf a -> (forall j, j < length a -> parent a' j = parent a j) ->
  y < length a -> above a x y -> above a' x y.
Proof.
  intros W HP Hy (l & Hl & Hor). exists l. split; [|done]. clear Hor.
  induction Hl as [i Hi|i p l Hi Hl IH].
  - constructor. by rewrite HP.
  - apply chain_up; [by rewrite HP|]. apply IH. by eapply wf_parent_lt.
Qed.

(** Effect of [add_children doc t p src]. *)
Record tcloned (a a' : arena tdata) (n : nat) (ts : list htree) (ids : list nat) : Prop := {
  tc_wf : wf a';
  tc_len : length a <= length a';
  tc_data : forall j, j < length a -> data a' j = data a j;
  tc_children : forall j, j < length a ->
     children a' j = if Nat.eqb j n then (children a n ++ ids)%list else children a j;
  tc_parent : forall j, j < length a -> parent a' j = parent a j;
  tc_new : forall j, length a <= j < length a' -> above a' n j;
  tc_ids : forall i, i ∈ ids -> length a <= i;
  tc_holds : tholds_list a' ts ids
}.

Lemma tcloned_closed a a' n ts ids j c :
  wf a -> tcloned a a' n ts ids -> length a <= j -> c ∈ children a' j -> length a <= c.
Proof.
  intros W [W' L D C P N I HH] Hj Hc. apply (wf_pc a' W') in Hc.
  destruct (decide (c < length a)) as [Hlt|]; [|lia].
  rewrite P in Hc by done. apply (wf_parent_lt _ _ _ W) in Hc. lia.
Qed.

Fixpoint hdepth (t : htree) : nat :=
  match t with
  | HElem _ _ _ cs => S (fold_right (fun c m => Nat.max (hdepth c) m) 0 cs)
  | _ => 0
  end.
Definition hdepths (ts : list htree) : nat := fold_right (fun c m => Nat.max (hdepth c) m) 0 ts.

Lemma hdepths_elem ts t : t ∈ ts -> hdepth t <= hdepths ts.
Proof.
  induction ts as [|u ts IH]; intros Hin; [inversion Hin|].
  apply elem_of_cons in Hin as [->|Hin]; simpl; [lia|]. specialize (IH Hin). unfold hdepths in *. lia.
Qed.

Definition add_go (f : nat) (doc : arena dnode) (p : nat) :=
  fix go (l : list nat) (t : arena tdata) : outcome (arena tdata) :=
    match l with
    | [] => Val t
    | c :: l' =>
        match data doc c with
        | None => Panic
        | Some d =>
            match d_kind d with
            | NDocument => go l' t
            | NElem _ _ =>
                let '(t1, n) := new_node t (tdata_of d) in
                let! t2 := append t1 p n in
                let! t3 := add_children f doc t2 n c in
                go l' t3
            | _ =>
                let '(t1, n) := new_node t (tdata_of d) in
                let! t2 := append t1 p n in
                go l' t2
            end
        end
    end.

Lemma add_children_S f doc t p src :
  add_children (S f) doc t p src = add_go f doc p (children doc src) t.
Proof. reflexivity. Qed.

Lemma tcloned_nil a p : wf a -> tcloned a a p [] [].
Proof.
  intros W. split; try done.
  - intros j Hj. destruct (Nat.eqb_spec j p) as [->|]; [by rewrite app_nil_r|done].
  - lia.
  - intros i Hi; inversion Hi.
  - constructor.
Qed.

(** One more child, then its children, then the following siblings. *)
Lemma tcloned_cons a d p h ts ids' ids t2 t3 t4 :
  wf a -> p < length a ->
  append (fst (new_node a d)) p (length a) = Val t2 ->
  tcloned t2 t3 (length a) (hchildren h) ids' -> d = tdata_of_h h ->
  tcloned t3 t4 p ts ids ->
  tcloned a t4 p (h :: ts) (length a :: ids).
Proof.
  intros W Hp E2 K3 -> K4.
  destruct (new_node_full a (tdata_of_h h) W) as (W1 & L1 & P1 & C1 & D1 & Cj & Pj & Dj).
  set (a1 := fst (new_node a (tdata_of_h h))) in *.
  destruct (append_full a1 p (length a)) as (a2 & E2' & K); try done; [lia|lia| |].
  { apply leaf_not_above; [done|done|lia]. }
  rewrite E2 in E2'. injection E2' as <-.
  destruct K as [W2 L2 D2 C2 P2]. pose proof K3 as [W3 L3 D3 C3 P3 N3 I3 HH3].
  pose proof K4 as [W4 L4 D4 C4 P4 N4 I4 HH4].
  assert (parent t4 (length a) = Some p) as Hpn.
  { rewrite P4, P3, P2, Nat.eqb_refl by lia. done. }
  assert (above t4 p (length a)) as Hab.
  { eapply above_parent; [|exact Hpn]. by apply above_refl. }
  assert (forall j, length a < j < length t3 -> j <> p) as Hjp by (intros; lia).
  split.
  - done.
  - lia.
  - intros j Hj. rewrite D4, D3, D2 by lia. apply Dj. lia.
  - intros j Hj. rewrite C4 by lia. destruct (Nat.eqb_spec j p) as [->|Hne].
    + rewrite C3 by lia. destruct (Nat.eqb_spec p (length a)); [lia|].
      rewrite C2, Nat.eqb_refl, Cj. by rewrite <- app_assoc.
    + rewrite C3 by lia. destruct (Nat.eqb_spec j (length a)); [lia|].
      rewrite C2. destruct (Nat.eqb_spec j p); [done|]. apply Cj.
  - intros j Hj. rewrite P4, P3, P2 by lia. destruct (Nat.eqb_spec j (length a)); [lia|]. apply Pj.
  - intros j Hj. destruct (decide (j < length t3)) as [Hj3|]; [|apply N4; lia].
    destruct (decide (j = length a)) as [->|Hne]; [done|].
    assert (above t3 (length a) j) as Hj' by (apply N3; lia).
    apply above_trans with (length a); [done|done|].
    by apply (above_agree t3 t4).
  - intros i Hi. apply elem_of_cons in Hi as [->|Hi]; [done|]. specialize (I4 i Hi). lia.
  - constructor; [|done].
    assert (tholds t3 h (length a)) as Hh.
    { apply tholds_eq. split.
      - rewrite D3, D2 by lia. by rewrite D1.
      - rewrite C3, Nat.eqb_refl by lia. rewrite C2. destruct (Nat.eqb_spec (length a) p); [lia|].
        by rewrite C1. }
    apply (tholds_agree (fun j => length a <= j < length t3) t3); [lia| | |done].
    + intros j c [Hj Hj3] Hc. split; [|by eapply wf_child_lt].
      apply (wf_pc t3 W3) in Hc. destruct (decide (c < length a)) as [Hlt|]; [|lia].
      rewrite P3, P2 in Hc by lia. destruct (Nat.eqb_spec c (length a)); [lia|].
      rewrite Pj in Hc. apply (wf_parent_lt _ _ _ W) in Hc. lia.
    + intros j Hj. split; [by apply D4; lia|]. rewrite C4 by lia. destruct (Nat.eqb_spec j p); [lia|done].
Qed.

Lemma tdata_of_holds doc h c :
  holds doc h c -> exists d, data doc c = Some d /\ tdata_of d = tdata_of_h h.
Proof.
  destruct h as [tag ns ats cs|s|s]; intros Hh.
  - apply holds_elem in Hh as [Hd _]. eauto.
  - destruct Hh as [Hk _]. unfold node_kind in Hk. destruct (data doc c) as [d|]; [|done].
    exists d. split; [done|]. injection Hk as Hk. unfold tdata_of. by rewrite Hk.
  - destruct Hh as [Hk _]. unfold node_kind in Hk. destruct (data doc c) as [d|]; [|done].
    exists d. split; [done|]. injection Hk as Hk. unfold tdata_of. by rewrite Hk.
Qed.

Lemma holds_children doc h c : holds doc h c -> holds_list doc (hchildren h) (children doc c).
Proof.
  destruct h as [tag ns ats cs|s|s]; intros Hh.
  - by apply holds_elem in Hh as [_ ?].
  - destruct Hh as [_ ->]. constructor.
  - destruct Hh as [_ ->]. constructor.
Qed.

Lemma add_children_ok doc f : forall ts src t p,
  holds_list doc ts (children doc src) -> hdepths ts < f -> wf t -> p < length t ->
  exists t' ids, add_children f doc t p src = Val t' /\ tcloned t t' p ts ids.
Proof.
  induction f as [|f IH]; intros ts src t p HF Hf W Hp; [lia|].
  rewrite add_children_S. revert t W Hp Hf. unfold holds_list in HF.
  induction HF as [|h c ts l Hh HF IHl]; intros t W Hp Hf.
  - exists t, []. split; [done|]. by apply tcloned_nil.
  - destruct (tdata_of_holds doc h c Hh) as (d & Hd & Ed).
    assert (hdepths ts < S f) as Hf' by (simpl in Hf; unfold hdepths in *; lia).
    destruct (new_node_full t (tdata_of d) W) as (W1 & L1 & P1 & C1 & D1 & Cj & Pj & Dj).
    destruct (append_full (fst (new_node t (tdata_of d))) p (length t)) as (t2 & E2 & K2); try done;
      [lia|lia| |].
    { apply leaf_not_above; [done|done|lia]. }
    pose proof (lk_wf _ _ _ _ _ K2) as W2. pose proof (lk_len _ _ _ _ _ K2) as L2.
    assert (exists t3 ids', tcloned t2 t3 (length t) (hchildren h) ids' /\
              add_go f doc p (c :: l) t = add_go f doc p l t3) as (t3 & ids' & K3 & E3).
    { destruct h as [tag ns ats cs|s|s].
      - destruct (IH cs c t2 (length t)) as (t3 & ids' & E3 & K3).
        + by apply holds_elem in Hh as [_ ?].
        + cbn [hdepths fold_right hdepth] in Hf. unfold hdepths. lia.
        + done.
        + lia.
        + exists t3, ids'. split; [done|]. cbn [add_go]. rewrite Hd.
          apply holds_elem in Hh as [Hd' _]. rewrite Hd in Hd'. injection Hd' as Hd'. rewrite Hd'. cbn [d_kind].
          rewrite Hd' in E2. unfold new_node in *. cbn [fst] in E2. rewrite E2. simpl. by rewrite E3.
      - exists t2, []. split; [by apply tcloned_nil|]. cbn [add_go]. rewrite Hd.
        destruct Hh as [Hk _]. unfold node_kind in Hk. rewrite Hd in Hk. injection Hk as Hk. rewrite Hk.
        unfold new_node in *. cbn [fst] in E2. rewrite E2. done.
      - exists t2, []. split; [by apply tcloned_nil|]. cbn [add_go]. rewrite Hd.
        destruct Hh as [Hk _]. unfold node_kind in Hk. rewrite Hd in Hk. injection Hk as Hk. rewrite Hk.
        unfold new_node in *. cbn [fst] in E2. rewrite E2. done. }
    destruct (IHl t3) as (t4 & ids & E4 & K4).
    + apply K3.
    + pose proof (tc_len _ _ _ _ _ K3). lia.
    + done.
    + exists t4, (length t :: ids). rewrite E3. split; [done|].
      by eapply (tcloned_cons t (tdata_of d) p h ts ids' ids t2 t3 t4).
Qed.

Lemma hdepth_holds doc h i : wf doc -> holds doc h i ->
  forall r, rid r = i -> is_tree doc r -> hdepth h <= S (rheight r).
Proof.
  intros W. revert i. induction h as [s|s|tag ns ats cs IH] using htree_ind'; intros i Hh r Er Ht; simpl; [lia|lia|].
  apply holds_elem in Hh as [_ Hcs].
  assert (forall c, c ∈ cs -> hdepth c <= rheight r) as Hall.
  { intros c Hc. destruct (Forall2_in_l _ _ _ _ Hcs Hc) as (j & Hj & Hcj).
    rewrite <- Er, (is_tree_children doc r Ht) in Hj. apply elem_of_list_fmap in Hj as (u & -> & Hu).
    pose proof (IH c Hc (rid u) Hcj u eq_refl (is_tree_sub doc r u Ht Hu)).
    pose proof (rheight_child r u Hu). lia. }
  apply le_n_S. clear -Hall. induction cs as [|c cs IHl]; simpl; [lia|].
  assert (hdepth c <= rheight r) by (apply Hall; left).
  assert (fold_right (fun c m => Nat.max (hdepth c) m) 0 cs <= rheight r).
  { apply IHl. intros; apply Hall; by right. }
  lia.
Qed.

Lemma hdepths_holds doc ts b : wf doc -> holds_list doc ts (children doc b) -> hdepths ts < tree_fuel doc.
Proof.
  intros W HF. destruct (tree_exists doc b W) as (r & Er & Ht).
  pose proof (is_tree_height doc r W Ht) as Hh.
  assert (forall t, t ∈ ts -> hdepth t <= rheight r) as Hall.
  { intros t Hin. destruct (Forall2_in_l _ _ _ _ HF Hin) as (j & Hj & Htj).
    rewrite <- Er, (is_tree_children doc r Ht) in Hj. apply elem_of_list_fmap in Hj as (u & -> & Hu).
    pose proof (hdepth_holds doc t (rid u) W Htj u eq_refl (is_tree_sub doc r u Ht Hu)).
    pose proof (rheight_child r u Hu). lia. }
  assert (hdepths ts <= rheight r); [|lia].
  clear -Hall. induction ts as [|c cs IHl]; simpl; [lia|].
  assert (hdepth c <= rheight r) by (apply Hall; left).
  assert (hdepths cs <= rheight r) by (apply IHl; intros; apply Hall; by right). unfold hdepths in *. lia.
Qed.

(** The copy made by [build_tree]. *)
Record built (t : arena tdata) (k : hkind) (ts : list htree) : Prop := {
  bt_wf : wf t;
  bt_root : data t 0 = Some (mkTD k [] None);
  bt_root_parent : parent t 0 = None;
  bt_all : forall j, j < length t -> above t 0 j;
  bt_holds : tholds_list t ts (children t 0)
}.

Lemma single_wf {D} (d : D) : wf [mkNode d None []].
Proof.
  pose proof (new_node_full (D := D) [] d) as H. apply H. split.
  - intros i p. unfold parent, children. rewrite !lookup_nil. split; [done|]. intros Hin; inversion Hin.
  - intros p. unfold children. rewrite lookup_nil. constructor.
  - intros i. exists []. constructor. unfold parent. by rewrite lookup_nil.
Qed.

Lemma build_tree_ok doc b d ts :
  wf doc -> data doc b = Some d -> holds_list doc ts (children doc b) ->
  exists t, build_tree doc b = Val t /\ built t (td_kind (tdata_of d)) ts.
Proof.
  intros W Hd HF. unfold build_tree. rewrite Hd.
  set (t0 := [mkNode (mkTD (td_kind (tdata_of d)) [] None) None []]).
  assert (wf t0) as W0 by apply single_wf.
  destruct (add_children_ok doc (tree_fuel doc) ts b t0 0 HF) as (t & ids & E & K).
  - by eapply hdepths_holds.
  - done.
  - simpl. lia.
  - exists t. split; [done|]. destruct K as [W' L D C P N I HH]. simpl in *.
    split.
    + done.
    + by rewrite D by lia.
    + by rewrite P by lia.
    + intros j Hj. destruct j as [|j]; [by apply above_refl|]. apply N. lia.
    + by rewrite C by lia.
Qed.
