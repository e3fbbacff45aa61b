(** Trees held by a document arena, and what serialization and cloning do to
    them. *)
From Verif Require Import Base Arena Dom ArenaProofs ArenaOps TreeProofs.
Local Open Scope string_scope.

Lemma htree_ind' (P : htree -> Prop) :
  (forall s, P (HText s)) -> (forall s, P (HComment s)) ->
  (forall t ns ats cs, (forall c, c ∈ cs -> P c) -> P (HElem t ns ats cs)) ->
  forall t, P t.
Proof.
  intros Ht Hc He. fix IH 1. intros [t ns ats cs|s|s]; [|apply Ht|apply Hc].
  apply He, Forall_forall. induction cs as [|c cs IHcs]; constructor; [apply IH|exact IHcs].
Qed.

(** ** Specification: the tree found at a node *)

(** The subtree of [a] at node [i] is [t]. *)
Fixpoint holds (a : arena dnode) (t : htree) (i : nat) {struct t} : Prop :=
  match t with
  | HText s => node_kind a i = Some (NText s) /\ children a i = []
  | HComment s => node_kind a i = Some (NComment s) /\ children a i = []
  | HElem tag ns ats cs =>
      data a i = Some (mkD (NElem tag ats) ns) /\
      (fix all (cs : list htree) (l : list nat) : Prop :=
         match cs, l with
         | [], [] => True
         | c :: cs', j :: l' => holds a c j /\ all cs' l'
         | _, _ => False
         end) cs (children a i)
  end.

Definition holds_list (a : arena dnode) (ts : list htree) (l : list nat) : Prop :=
  Forall2 (holds a) ts l.

Lemma holds_elem a tag ns ats cs i :
  holds a (HElem tag ns ats cs) i <->
  data a i = Some (mkD (NElem tag ats) ns) /\ holds_list a cs (children a i).
Proof.
  simpl. apply and_iff_compat_l. generalize (children a i). unfold holds_list.
  induction cs as [|c cs IH]; intros [|j l]; split; try done.
  all: try (intros Hf; by inversion Hf).
  - intros [? ?]. constructor; [done|]. by apply IH.
  - intros Hf. inversion Hf; subst. split; [done|]. by apply IH.
Qed.

(** Serialization as a function of the tree. *)
Fixpoint ser_t (raw : bool) (t : htree) : string :=
  match t with
  | HText s => if raw then s else escape_text s
  | HComment s => "<!--" ++ s ++ "-->"
  | HElem tag _ ats cs =>
      if is_void_element tag then "<" ++ tag ++ ser_attrs ats ++ ">"
      else "<" ++ tag ++ ser_attrs ats ++ ">"
           ++ (fix go (l : list htree) : string :=
                 match l with
                 | [] => ""
                 | c :: l' => ser_t (is_raw_text_element tag) c ++ go l'
                 end) cs
           ++ "</" ++ tag ++ ">"
  end.

Fixpoint ser_ts (raw : bool) (ts : list htree) : string :=
  match ts with
  | [] => ""
  | t :: ts' => ser_t raw t ++ ser_ts raw ts'
  end.

Lemma ser_t_elem raw tag ns ats cs :
  ser_t raw (HElem tag ns ats cs) =
  if is_void_element tag then "<" ++ tag ++ ser_attrs ats ++ ">"
  else "<" ++ tag ++ ser_attrs ats ++ ">" ++ ser_ts (is_raw_text_element tag) cs
       ++ "</" ++ tag ++ ">".
Proof.
  simpl. destruct (is_void_element tag); [done|].
  assert (forall l, (fix go (l : list htree) : string :=
                 match l with
                 | [] => ""
                 | c :: l' => ser_t (is_raw_text_element tag) c ++ go l'
                 end) l = ser_ts (is_raw_text_element tag) l) as E.
  { induction l as [|c l IH]; simpl; [done|]. by rewrite IH. }
  by rewrite E.
Qed.

Fixpoint hdepth (t : htree) : nat :=
  match t with
  | HElem _ _ _ cs => S (fold_right (fun t m => Nat.max (hdepth t) m) 0 cs)
  | _ => 0
  end.

Lemma hdepth_child tag ns ats cs c : c ∈ cs -> hdepth c < hdepth (HElem tag ns ats cs).
Proof.
  intros Hc. simpl. apply Nat.lt_succ_r. induction cs as [|d cs IH]; [inversion Hc|].
  simpl. apply elem_of_cons in Hc as [->|Hc]; [lia|]. specialize (IH Hc). lia.
Qed.

Lemma Forall2_in_l {A B} (R : A -> B -> Prop) l k x :
  Forall2 R l k -> x ∈ l -> exists y, y ∈ k /\ R x y.
Proof.
  induction 1 as [|u v l k Huv HF IH]; intros Hx; [inversion Hx|].
  apply elem_of_cons in Hx as [->|Hx].
  - exists v. split; [left|done].
  - destruct (IH Hx) as (y & ? & ?). exists y. split; [by right|done].
Qed.

Lemma Forall2_in_r {A B} (R : A -> B -> Prop) l k y :
  Forall2 R l k -> y ∈ k -> exists x, x ∈ l /\ R x y.
Proof.
  induction 1 as [|u v l k Huv HF IH]; intros Hx; [inversion Hx|].
  apply elem_of_cons in Hx as [->|Hx].
  - exists u. split; [left|done].
  - destruct (IH Hx) as (x & ? & ?). exists x. split; [by right|done].
Qed.

(** The model's serializer computes [ser_t]. *)
Lemma ser_f_holds a t i f raw :
  holds a t i -> hdepth t < f -> ser_f f a raw i = Some (ser_t raw t).
Proof.
  revert i f raw. induction t as [s|s|tag ns ats cs IH] using htree_ind'; intros i [|f] raw Ht Hf;
    try lia.
  - destruct Ht as [Hk _]. cbn [ser_f ser_t]. by rewrite Hk.
  - destruct Ht as [Hk _]. cbn [ser_f ser_t]. by rewrite Hk.
  - apply holds_elem in Ht as [Hd Hcs]. rewrite ser_t_elem. cbn [ser_f].
    unfold node_kind. rewrite Hd. simpl d_kind. cbv iota beta.
    destruct (is_void_element tag); [done|].
    assert (forall ts l, holds_list a ts l -> (forall c, c ∈ ts -> c ∈ cs) ->
      (fix go (l : list nat) : option string :=
                 match l with
                 | [] => Some ""
                 | c :: l' =>
                     match ser_f f a (is_raw_text_element tag) c, go l' with
                     | Some x, Some y => Some (x ++ y)
                     | _, _ => None
                     end
                 end) l = Some (ser_ts (is_raw_text_element tag) ts)) as Hgo.
    { intros ts l HF. induction HF as [|c j ts l Hc HF IHl]; intros Hin; [done|].
      cbn [ser_ts]. rewrite IHl by (intros; apply Hin; by right).
      assert (c ∈ cs) as Hccs by (apply Hin; left).
      rewrite (IH c Hccs j f) by (try done; pose proof (hdepth_child tag ns ats cs c Hccs); lia).
      done. }
    by rewrite (Hgo cs (children a i)).
Qed.

Lemma ser_list_holds a ts l f :
  holds_list a ts l -> (forall t, t ∈ ts -> hdepth t < f) ->
  ser_list f a l = Some (ser_ts false ts).
Proof.
  induction 1 as [|t i ts l Ht HF IH]; intros Hf; simpl; [done|].
  rewrite (ser_f_holds a t i) by (try done; apply Hf; left).
  rewrite IH by (intros; apply Hf; by right). done.
Qed.

(** Depth is bounded by the arena size. *)
Lemma holds_depth_chain a t i l :
  wf a -> holds a t i -> chain a i l -> i < length a -> hdepth t + length l < length a + 1 .
Proof.
  intros W. revert i l. induction t as [s|s|tag ns ats cs IH] using htree_ind';
    intros i l Ht Hl Hi.
  - simpl. pose proof (chain_length _ _ _ W Hl). lia.
  - simpl. pose proof (chain_length _ _ _ W Hl). lia.
  - apply holds_elem in Ht as [_ Hcs].
    assert (forall ts, (forall c, c ∈ ts -> c ∈ cs) ->
      fold_right (fun t m => Nat.max (hdepth t) m) 0 ts + S (length l) < length a + 1) as Hmax.
    { induction ts as [|c ts IHts]; intros Hin; simpl.
      - pose proof (chain_length_lt _ _ _ W Hi Hl). lia.
      - assert (c ∈ cs) as Hc by (apply Hin; left).
        destruct (Forall2_in_l _ _ _ _ Hcs Hc) as (j & Hj & Hcj).
        assert (chain a j (i :: l)) as Hch.
        { eapply chain_up; [|done]. by apply (wf_pc a W). }
        pose proof (IH c Hc j _ Hcj Hch (wf_child_lt _ _ _ W Hj)) as H1. simpl in H1.
        specialize (IHts (fun c' Hc' => Hin c' (elem_of_list_further _ _ _ Hc'))). lia. }
    simpl. specialize (Hmax cs (fun c Hc => Hc)). lia.
Qed.

Lemma holds_lt a t i : holds a t i -> i < length a.
Proof.
  destruct t; simpl; intros [Hk _]; unfold node_kind in *.
  - by eapply data_lt.
  - destruct (data a i) eqn:E; [|done]. by eapply data_lt.
  - destruct (data a i) eqn:E; [|done]. by eapply data_lt.
Qed.

Lemma holds_depth a t i : wf a -> holds a t i -> hdepth t < tree_fuel a.
Proof.
  intros W Ht. destruct (wf_chain a W i) as [l Hl].
  pose proof (holds_depth_chain a t i l W Ht Hl (holds_lt _ _ _ Ht)). unfold tree_fuel. lia.
Qed.

Lemma serialize_node_holds a t i :
  wf a -> holds a t i -> serialize_node a i = Some (ser_t false t).
Proof. intros W Ht. apply ser_f_holds; [done|]. by eapply holds_depth. Qed.

Lemma serialize_inner_holds a ts i :
  wf a -> holds_list a ts (children a i) -> serialize_inner_html a i = Some (ser_ts false ts).
Proof.
  intros W Ht. apply ser_list_holds; [done|]. intros t Hin.
  destruct (Forall2_in_l _ _ _ _ Ht Hin) as (j & _ & Hj). by eapply holds_depth.
Qed.

(** ** Framing *)

Lemma holds_agree (P : nat -> Prop) a a' t i :
  P i -> (forall j c, P j -> c ∈ children a j -> P c) ->
  (forall j, P j -> data a' j = data a j /\ children a' j = children a j) ->
  holds a t i -> holds a' t i.
Proof.
  intros Hi Hcl Hag. revert i Hi. induction t as [s|s|tag ns ats cs IH] using htree_ind'; intros i Hi Ht.
  - simpl in *. unfold node_kind in *. destruct (Hag i Hi) as [-> ->]. done.
  - simpl in *. unfold node_kind in *. destruct (Hag i Hi) as [-> ->]. done.
  - apply holds_elem in Ht as [Hd Hcs]. apply holds_elem.
    destruct (Hag i Hi) as [Ed Ec]. rewrite Ed, Ec. split; [done|].
    assert (forall j, j ∈ children a i -> P j) as HP by eauto. clear Ec Hd Ed Hi.
    unfold holds_list in *. revert HP. induction Hcs as [|c j cs l Hc HF IHl]; intros HP; constructor.
    + apply IH; [left|apply HP; left|done].
    + apply IHl; [intros c' Hc'; apply IH; by right|intros; apply HP; by right].
Qed.

Lemma holds_list_agree (P : nat -> Prop) a a' ts l :
  (forall i, i ∈ l -> P i) -> (forall j c, P j -> c ∈ children a j -> P c) ->
  (forall j, P j -> data a' j = data a j /\ children a' j = children a j) ->
  holds_list a ts l -> holds_list a' ts l.
Proof.
  intros Hl Hcl Hag HF. unfold holds_list in *. induction HF as [|t i ts l Ht HF IH]; constructor.
  - apply (holds_agree P a a'); [apply Hl; left|done..].
  - apply IH. intros; apply Hl; by right.
Qed.

Lemma holds_extends a a' t i : wf a -> extends a a' -> holds a t i -> holds a' t i.
Proof.
  intros W E Ht. apply (holds_agree (fun j => j < length a) a); [by eapply holds_lt| | |done].
  - intros j c _ Hc. by eapply wf_child_lt.
  - intros j Hj. split; [by apply (ex_data _ _ E)|by apply (ex_children _ _ E)].
Qed.

(** ** Cloning *)

Fixpoint htree_of_ic (c : icontent) : htree :=
  match c with
  | ICElem t l cs => HElem t NsHtml l (map htree_of_ic cs)
  | ICText s => HText s
  | ICComment s => HComment s
  end.

Lemma icontent_ind' (P : icontent -> Prop) :
  (forall s, P (ICText s)) -> (forall s, P (ICComment s)) ->
  (forall t ats cs, (forall c, c ∈ cs -> P c) -> P (ICElem t ats cs)) ->
  forall t, P t.
Proof.
  intros Ht Hc He. fix IH 1. intros [t ats cs|s|s]; [|apply Ht|apply Hc].
  apply He, Forall_forall. induction cs as [|c cs IHcs]; constructor; [apply IH|exact IHcs].
Qed.

Lemma clone_tree_elem a t ns ats cs :
  clone_tree a (HElem t ns ats cs) =
  let '(a1, n) := new_node a (mkD (NElem t ats) ns) in
  let! a2 := clone_under a1 n cs in Val (a2, n).
Proof.
  simpl. f_equal. generalize (a ++ [mkNode (mkD (NElem t ats) ns) None []])%list as a1.
  induction cs as [|c cs IH]; intros a1; [done|]. cbn [clone_under].
  destruct (clone_tree a1 c) as [[a' i]| | |]; simpl; try done.
  destruct (append a' (length a) i); simpl; try done.
Qed.

Lemma create_content_clone c : forall a, create_content a c = clone_tree a (htree_of_ic c).
Proof.
  induction c as [s|s|t ats cs IH] using icontent_ind'; intros a; try done.
  cbn [create_content htree_of_ic]. rewrite clone_tree_elem. unfold elem.
  destruct (new_node a (mkD (NElem t ats) NsHtml)) as [a1 n].
  f_equal. revert a1. induction cs as [|c cs IHcs]; intros a1; [done|].
  cbn [map clone_under]. rewrite IH by left.
  destruct (clone_tree a1 (htree_of_ic c)) as [[a' i]| | |]; simpl; try done.
  destruct (append a' n i); simpl; try done. apply IHcs. intros; apply IH. by right.
Qed.

Lemma create_contents_clone l : forall a n,
  create_contents a n l = clone_under a n (map htree_of_ic l).
Proof.
  induction l as [|c l IH]; intros a n; [done|]. cbn [create_contents map clone_under].
  rewrite create_content_clone. destruct (clone_tree a (htree_of_ic c)) as [[a' i]| | |]; simpl; try done.
  destruct (append a' n i); simpl; try done.
Qed.

(** Effect of [clone_under a n ts]: new children of [n], everything else kept. *)
Record cloned (a a' : arena dnode) (n : nat) (ts : list htree) (ids : list nat) : Prop := {
  cl_wf : wf a';
  cl_len : length a <= length a';
  cl_data : forall j, j < length a -> data a' j = data a j;
  cl_children : forall j, j < length a ->
     children a' j = if Nat.eqb j n then (children a n ++ ids)%list else children a j;
  cl_parent : forall j, j < length a -> parent a' j = parent a j;
  cl_ids : forall i, i ∈ ids -> length a <= i;
  cl_holds : holds_list a' ts ids
}.

Definition clone_tree_ok (t : htree) : Prop := forall a, wf a ->
  exists a', clone_tree a t = Val (a', length a) /\ extends a a' /\ length a < length a' /\
    parent a' (length a) = None /\ holds a' t (length a).

Lemma cloned_closed a a' n ts ids j c :
  wf a -> cloned a a' n ts ids -> length a <= j -> c ∈ children a' j -> length a <= c.
Proof.
  intros W [W' L D C P I HH] Hj Hc. apply (wf_pc a' W') in Hc.
  destruct (decide (c < length a)) as [Hlt|]; [|lia].
  rewrite P in Hc by done. apply (wf_parent_lt _ _ _ W) in Hc. lia.
Qed.

Lemma clone_under_ok ts :
  (forall t, t ∈ ts -> clone_tree_ok t) ->
  forall a n, wf a -> n < length a ->
  exists a' ids, clone_under a n ts = Val a' /\ cloned a a' n ts ids.
Proof.
  induction ts as [|t ts IH]; intros Hok a n W Hn.
  - exists a, []. split; [done|]. split; try done.
    + intros j Hj. destruct (Nat.eqb_spec j n) as [->|]; [by rewrite app_nil_r|done].
    + intros i Hi; inversion Hi.
    + constructor.
  - destruct (Hok t ltac:(left) a W) as (a1 & E1 & X1 & L1 & P1 & H1).
    pose proof (ex_wf _ _ X1) as W1.
    destruct (append_full a1 n (length a)) as (a2 & E2 & K); try done; [lia| |].
    { by apply (extends_not_above a a1). }
    destruct K as [W2 L2 D2 C2 P2].
    destruct (IH ltac:(intros; apply Hok; by right) a2 n W2 ltac:(lia)) as (a3 & ids & E3 & K3).
    pose proof K3 as [W3 L3 D3 C3 P3 I3 HH3].
    exists a3, (length a :: ids). split.
    { cbn [clone_under]. rewrite E1. simpl. rewrite E2. simpl. done. }
    assert (forall j, length a <= j < length a1 -> j <> n) as Hjn by (intros; lia).
    split.
    + done.
    + lia.
    + intros j Hj. rewrite D3 by lia. rewrite D2. by apply (ex_data _ _ X1).
    + intros j Hj. rewrite C3 by lia. rewrite !C2, Nat.eqb_refl.
      destruct (Nat.eqb_spec j n) as [->|].
      * rewrite (ex_children _ _ X1 n) by done. by rewrite <- app_assoc.
      * by apply (ex_children _ _ X1).
    + intros j Hj. rewrite P3 by lia. rewrite P2.
      destruct (Nat.eqb_spec j (length a)); [lia|]. by apply (ex_parent _ _ X1).
    + intros i Hi. apply elem_of_cons in Hi as [->|Hi]; [done|]. specialize (I3 i Hi). lia.
    + constructor; [|done].
      apply (holds_agree (fun j => length a <= j < length a1) a1); [lia| | |done].
      * intros j c [Hj _] Hc. split; [by eapply (extends_new_closed a a1)|by eapply wf_child_lt].
      * intros j Hj. split; [by rewrite D3 by lia; rewrite D2|].
        rewrite C3 by lia. destruct (Nat.eqb_spec j n); [lia|].
        rewrite C2. destruct (Nat.eqb_spec j n); [lia|done].
Qed.

Lemma clone_tree_all t : clone_tree_ok t.
Proof.
  induction t as [s|s|tag ns ats cs IH] using htree_ind'; intros a W.
  - destruct (new_node_full a (mkD (NText s) NsHtml) W) as (W1 & L1 & P1 & C1 & D1 & Cj & Pj & Dj).
    exists (fst (new_node a (mkD (NText s) NsHtml))).
    split; [done|]. split; [by apply extends_new|]. split; [lia|]. split; [done|].
    simpl. unfold node_kind. simpl in D1. by rewrite D1.
  - destruct (new_node_full a (mkD (NComment s) NsHtml) W) as (W1 & L1 & P1 & C1 & D1 & Cj & Pj & Dj).
    exists (fst (new_node a (mkD (NComment s) NsHtml))).
    split; [done|]. split; [by apply extends_new|]. split; [lia|]. split; [done|].
    simpl. unfold node_kind. simpl in D1. by rewrite D1.
  - rewrite clone_tree_elem.
    destruct (new_node_full a (mkD (NElem tag ats) ns) W) as (W1 & L1 & P1 & C1 & D1 & Cj & Pj & Dj).
    change (new_node a (mkD (NElem tag ats) ns))
      with (fst (new_node a (mkD (NElem tag ats) ns)), length a).
    set (a1 := fst (new_node a (mkD (NElem tag ats) ns))) in *. cbv iota beta.
    destruct (clone_under_ok cs IH a1 (length a) W1 ltac:(lia)) as (a2 & ids & E2 & [W2 L2 D2 C2 P2 I2 HH]).
    exists a2. rewrite E2. simpl. split; [done|]. split; [|split; [lia|split]].
    + split; [done|lia| | |]; intros j Hj.
      * rewrite D2 by lia. apply Dj. lia.
      * rewrite C2 by lia. destruct (Nat.eqb_spec j (length a)); [lia|]. apply Cj.
      * rewrite P2 by lia. apply Pj.
    + rewrite P2 by lia. done.
    + change (holds a2 (HElem tag ns ats cs) (length a)). apply holds_elem.
      rewrite D2, C2, Nat.eqb_refl by lia. rewrite C1. by rewrite D1.
Qed.

Lemma clone_under_all a n ts :
  wf a -> n < length a -> exists a' ids, clone_under a n ts = Val a' /\ cloned a a' n ts ids.
Proof. apply clone_under_ok. intros; apply clone_tree_all. Qed.

(** ** Empty text nodes (C16) *)

(** One empty text node more, anywhere in a list of trees. *)
Inductive empty_inserted : list htree -> list htree -> Prop :=
| ei_here l k : empty_inserted (l ++ k) (l ++ HText "" :: k)
| ei_below l tag ns ats cs cs' k :
    empty_inserted cs cs' ->
    empty_inserted (l ++ HElem tag ns ats cs :: k) (l ++ HElem tag ns ats cs' :: k).

Lemma sapp_assoc' (x y z : string) : (x ++ y) ++ z = x ++ (y ++ z).
Proof. induction x as [|c x IH]; simpl; [done|]. by rewrite IH. Qed.

Lemma ser_ts_app raw l k : ser_ts raw (l ++ k)%list = ser_ts raw l ++ ser_ts raw k.
Proof. induction l as [|t l IH]; simpl; [done|]. by rewrite IH, sapp_assoc'. Qed.

Lemma ser_ts_empty_inserted l k : empty_inserted l k -> forall raw, ser_ts raw l = ser_ts raw k.
Proof.
  induction 1 as [l k|l tag ns ats cs cs' k Hi IH]; intros raw; rewrite !ser_ts_app.
  - cbn [ser_ts ser_t]. destruct raw; done.
  - cbn [ser_ts]. by rewrite !ser_t_elem, IH.
Qed.

(** Forests without empty text nodes and namespaces; used to compare. *)
Fixpoint norm (t : htree) : htree :=
  match t with
  | HElem tag _ ats cs =>
      HElem tag NsHtml ats
        ((fix go (l : list htree) : list htree :=
            match l with
            | [] => []
            | HText "" :: l' => go l'
            | c :: l' => norm c :: go l'
            end) cs)
  | _ => t
  end.
Fixpoint norms (l : list htree) : list htree :=
  match l with
  | [] => []
  | HText "" :: l' => norms l'
  | c :: l' => norm c :: norms l'
  end.

Lemma norm_elem tag ns ats cs : norm (HElem tag ns ats cs) = HElem tag NsHtml ats (norms cs).
Proof.
  reflexivity.
Qed.

Lemma ser_t_norm t : forall raw, ser_t raw (norm t) = ser_t raw t.
Proof.
  induction t as [s|s|tag ns ats cs IH] using htree_ind'; intros raw; try done.
  rewrite norm_elem, !ser_t_elem. destruct (is_void_element tag); [done|].
  enough (forall r, ser_ts r (norms cs) = ser_ts r cs) as -> by done.
  induction cs as [|c cs IHcs]; intros r; [done|].
  assert (forall r, ser_ts r (norms cs) = ser_ts r cs) as IH' by
    (intros; apply IHcs; intros; apply IH; by right).
  destruct c as [? ? ? ?|[|]|]; cbn [norms].
  - cbn [ser_ts]. rewrite IH by left. by rewrite IH'.
  - cbn [ser_ts ser_t]. rewrite IH'. by destruct r.
  - cbn [ser_ts]. by rewrite IH', IH by left.
  - cbn [ser_ts]. by rewrite IH', IH by left.
Qed.

Lemma ser_ts_norms raw l : ser_ts raw (norms l) = ser_ts raw l.
Proof.
  induction l as [|[? ? ? ?|[|]|] l IH]; cbn [norms ser_ts]; try done;
    try (by rewrite ser_t_norm, IH).
  rewrite IH. by destruct raw.
Qed.
