(** Subtrees of a well-formed arena as finite trees; the fuel of the traversal
    functions always suffices. *)
From Verif Require Import Base Arena Matching ArenaProofs MatchProofs.

Inductive rose := Rose (i : nat) (ts : list rose).

Definition rid (t : rose) : nat := let 'Rose i _ := t in i.
Definition rsub (t : rose) : list rose := let 'Rose _ ts := t in ts.

Lemma rose_ind' (P : rose -> Prop) :
  (forall i ts, (forall t, t ∈ ts -> P t) -> P (Rose i ts)) -> forall t, P t.
Proof.
  intros Hstep. fix IH 1. intros [i ts]. apply Hstep, Forall_forall.
  induction ts as [|t ts IHts]; constructor; [apply IH|exact IHts].
Qed.

(** Pre-order, post-order, height. *)
Fixpoint preorder (t : rose) : list nat :=
  let 'Rose i ts := t in i :: flat_map preorder ts.
Fixpoint postorder (t : rose) : list nat :=
  let 'Rose i ts := t in flat_map postorder ts ++ [i].
Fixpoint rheight (t : rose) : nat :=
  let 'Rose _ ts := t in
  match ts with [] => 0 | _ => S (fold_right (fun t m => Nat.max (rheight t) m) 0 ts) end.

(** [subt s t]: [s] is a subtree of [t]. *)
Inductive subt : rose -> rose -> Prop :=
| subt_refl t : subt t t
| subt_step s t u : subt s t -> t ∈ rsub u -> subt s u.

Lemma subt_trans s t u : subt s t -> subt t u -> subt s u.
Proof. intros H H'. induction H' as [|? ? ? ? IH Hin]; [done|]. eapply subt_step; [by apply IH|done]. Qed.

Lemma subt_child t u : t ∈ rsub u -> subt t u.
Proof. intros H. eapply subt_step; [constructor|done]. Qed.

Lemma elem_flat_map {A B} (f : A -> list B) l y :
  y ∈ flat_map f l <-> exists x, x ∈ l /\ y ∈ f x.
Proof.
  rewrite elem_of_list_In, in_flat_map. split; intros (x & Hx & Hy); exists x;
  rewrite ?elem_of_list_In in *; done.
Qed.

Lemma preorder_rid t : rid t ∈ preorder t.
Proof. destruct t; simpl. left. Qed.

Lemma preorder_eq t : preorder t = rid t :: flat_map preorder (rsub t).
Proof. by destruct t. Qed.

Lemma preorder_subt t x : x ∈ preorder t <-> exists s, subt s t /\ rid s = x.
Proof.
  split.
  - induction t as [i ts IH] using rose_ind'. simpl. intros Hx.
    apply elem_of_cons in Hx as [->|Hx].
    + exists (Rose i ts). split; [constructor|done].
    + apply elem_flat_map in Hx as (t & Ht & Hx).
      destruct (IH t Ht Hx) as (s & Hs & <-). exists s. split; [|done].
      eapply subt_step; eauto.
  - intros (s & Hs & <-). induction Hs as [t|s t u Hs IH Ht]; [apply preorder_rid|].
    rewrite preorder_eq. right. apply elem_flat_map. eauto.
Qed.

Lemma postorder_elem t x : x ∈ postorder t <-> x ∈ preorder t.
Proof.
  induction t as [i ts IH] using rose_ind'. simpl.
  rewrite elem_of_app, elem_of_list_singleton, elem_of_cons, !elem_flat_map.
  split.
  - intros [(t & Ht & Hx)| ->]; [right|by left]. exists t. split; [done|]. by apply IH.
  - intros [->|(t & Ht & Hx)]; [by right|left]. exists t. split; [done|]. by apply IH.
Qed.

Lemma preorder_subt_incl s t x : subt s t -> x ∈ preorder s -> x ∈ preorder t.
Proof.
  intros Hs Hx. apply preorder_subt in Hx as (u & Hu & <-).
  apply preorder_subt. exists u. split; [by eapply subt_trans|done].
Qed.

Lemma rheight_child t u : u ∈ rsub t -> rheight u < rheight t.
Proof.
  destruct t as [i ts]. simpl. intros Hu.
  destruct ts as [|t0 ts]; [inversion Hu|].
  assert (forall l, u ∈ l -> rheight u <= fold_right (fun t m => Nat.max (rheight t) m) 0 l) as H.
  { clear. induction l as [|v l IH]; intros Hu; [inversion Hu|]. simpl.
    apply elem_of_cons in Hu as [->|Hu]; [lia|]. specialize (IH Hu). lia. }
  apply H in Hu. lia.
Qed.

Lemma rheight_lt_size t : rheight t < length (preorder t).
Proof.
  induction t as [i ts IH] using rose_ind'. simpl.
  destruct ts as [|t0 ts]; [simpl; lia|].
  assert (forall l, (forall t, t ∈ l -> rheight t < length (preorder t)) -> l <> [] ->
    fold_right (fun t m => Nat.max (rheight t) m) 0 l < length (flat_map preorder l)) as H.
  { clear. induction l as [|v l IHl]; intros Hl Hne; [done|]. simpl. rewrite app_length.
    assert (rheight v < length (preorder v)) by (apply Hl; left).
    destruct l as [|w l]; [simpl in *; lia|].
    assert (forall t, t ∈ w :: l -> rheight t < length (preorder t)) as Hl'
      by (intros; apply Hl; by right).
    specialize (IHl Hl' ltac:(done)). lia. }
  specialize (H (t0 :: ts) IH ltac:(done)). lia.
Qed.

Lemma subt_nodup s t : NoDup (preorder t) -> subt s t -> NoDup (preorder s).
Proof.
  intros Hnd Hs. induction Hs as [|s t u Hs IH Ht]; [done|]. apply IH.
  rewrite preorder_eq in Hnd. inversion Hnd as [|? ? _ Hnd']; subst.
  clear -Hnd' Ht. induction (rsub u) as [|v l IHl]; [inversion Ht|].
  simpl in Hnd'. apply NoDup_app in Hnd' as (? & _ & ?).
  apply elem_of_cons in Ht as [->|Ht]; auto.
Qed.

Lemma flat_map_nodup_inj {A} (f : A -> list nat) l t u x :
  NoDup (flat_map f l) -> t ∈ l -> u ∈ l -> x ∈ f t -> x ∈ f u ->
  t = u.
Proof.
  induction l as [|v l IH]; simpl; intros Hnd Ht Hu Hxt Hxu; [inversion Ht|].
  apply NoDup_app in Hnd as (? & Hdis & ?).
  apply elem_of_cons in Ht as [->|Ht]; apply elem_of_cons in Hu as [->|Hu]; auto.
  - exfalso. eapply Hdis; [done|]. apply elem_flat_map. eauto.
  - exfalso. eapply Hdis; [done|]. apply elem_flat_map. eauto.
Qed.

(** In a tree without repeated ids a subtree is determined by its id. *)
Lemma subt_rid_inj t s s' :
  NoDup (preorder t) -> subt s t -> subt s' t -> rid s = rid s' -> s = s'.
Proof.
  induction t as [i ts IH] using rose_ind'. intros Hnd Hs Hs' E.
  simpl in Hnd. inversion Hnd as [|? ? Hi Hnd']; subst.
  assert (forall v u, subt v u -> u ∈ ts -> rid v <> i) as Hno.
  { intros v u Hv Hu Ev. apply Hi. apply elem_flat_map. exists u. split; [done|].
    apply preorder_subt. eauto. }
  inversion Hs as [|? t1 ? Hs1 Ht1]; subst; inversion Hs' as [|? t2 ? Hs2 Ht2]; subst.
  - done.
  - exfalso. by eapply (Hno s' t2).
  - exfalso. simpl in *. eapply (Hno s t1); eauto.
  - simpl in *. assert (t1 = t2) as <-.
    { eapply flat_map_nodup_inj; eauto.
      - apply preorder_subt. exists s. split; [done|reflexivity].
      - rewrite E. apply preorder_subt. eauto. }
    apply (IH t1 Ht1); auto.
    eapply subt_nodup; [|eapply (subt_child t1 (Rose i ts)); done].
    by constructor.
Qed.

Section Arena.
  Context {D : Type}.
  Implicit Types (a : arena D).

  (** [is_tree a t]: the subtree of [a] at [rid t] has the shape [t]. *)
  Fixpoint is_tree a (t : rose) : Prop :=
    let 'Rose i ts := t in
    children a i = map rid ts /\
    (fix all (l : list rose) : Prop :=
       match l with [] => True | u :: l' => is_tree a u /\ all l' end) ts.

  Lemma is_tree_eq a i ts :
    is_tree a (Rose i ts) <-> children a i = map rid ts /\ (forall t, t ∈ ts -> is_tree a t).
  Proof.
    simpl. apply and_iff_compat_l. induction ts as [|u ts IH].
    - split; [intros _ t Ht; inversion Ht|done].
    - rewrite IH. split.
      + intros [Hu H] t Ht. apply elem_of_cons in Ht as [->|Ht]; auto.
      + intros H. split; [apply H; left|]. intros; apply H; by right.
  Qed.

  Lemma is_tree_children a t : is_tree a t -> children a (rid t) = map rid (rsub t).
  Proof. destruct t. rewrite is_tree_eq. by intros [? _]. Qed.

  Lemma is_tree_sub a t u : is_tree a t -> u ∈ rsub t -> is_tree a u.
  Proof. destruct t. rewrite is_tree_eq. intros [_ H]. simpl. apply H. Qed.

  Lemma is_tree_subt a s t : subt s t -> is_tree a t -> is_tree a s.
  Proof. induction 1; [done|]. intros. apply IHsubt. by eapply is_tree_sub. Qed.

  Lemma list_tree_exists (l : list nat) (Q : rose -> Prop) :
    (forall i, i ∈ l -> exists t, rid t = i /\ Q t) ->
    exists ts, map rid ts = l /\ (forall t, t ∈ ts -> Q t).
  Proof.
    induction l as [|i l IH]; intros H.
    - exists []. split; [done|]. intros t Ht; inversion Ht.
    - destruct (H i) as (t & <- & Ht); [left|].
      destruct IH as (ts & <- & Hts); [intros; apply H; by right|].
      exists (t :: ts). split; [done|]. intros u Hu.
      apply elem_of_cons in Hu as [->|Hu]; auto.
  Qed.

  Lemma tree_exists a i : wf a -> exists t, rid t = i /\ is_tree a t.
  Proof.
    intros W.
    assert (forall n j l, chain a j l -> length a - length l < n ->
            exists t, rid t = j /\ is_tree a t) as H.
    { induction n as [|n IH]; intros j l Hl Hlt; [lia|].
      destruct (list_tree_exists (children a j) (is_tree a)) as (ts & Ets & Hts).
      - intros c Hc. assert (parent a c = Some j) as Hp by (by apply (wf_pc a W)).
        assert (chain a c (j :: l)) as Hcc by (eapply chain_up; eauto).
        eapply IH; [done|]. simpl.
        pose proof (chain_length_lt a c (j :: l) W (wf_child_lt _ _ _ W Hc) Hcc).
        simpl in *. lia.
      - exists (Rose j ts). split; [done|]. apply is_tree_eq. done. }
    destruct (wf_chain a W i) as [l Hl]. eapply H; [done|]. apply Nat.lt_succ_diag_r.
  Qed.

  (** Ids below [rid t] are the nodes having [rid t] among their ancestors. *)
  Lemma pre_chain a t x l :
    wf a -> is_tree a t -> x ∈ preorder t -> chain a (rid t) l ->
    exists l1 k, chain a x k /\ x :: k = l1 ++ rid t :: l.
  Proof.
    intros W. revert l. induction t as [i ts IH] using rose_ind'. intros l Ht Hx Hl.
    simpl in Hl. apply is_tree_eq in Ht as [Hc Hts].
    simpl in Hx. apply elem_of_cons in Hx as [->|Hx].
    - exists [], l. done.
    - apply elem_flat_map in Hx as (t & Hin & Hx).
      assert (parent a (rid t) = Some i) as Hp.
      { apply (wf_pc a W). rewrite Hc. apply elem_of_list_fmap. eauto. }
      destruct (IH t Hin (i :: l) (Hts _ Hin) Hx) as (l1 & k & Hk & E).
      { eapply chain_up; eauto. }
      exists (l1 ++ [rid t]), k. split; [done|]. simpl. rewrite E. by rewrite <- app_assoc.
  Qed.

  Lemma chain_pre a t x k :
    wf a -> is_tree a t -> chain a x k -> rid t ∈ x :: k -> x ∈ preorder t.
  Proof.
    intros W Ht Hk. induction Hk as [x E|x p k E Hk IH]; intros Hin.
    - apply elem_of_list_singleton in Hin as <-. apply preorder_rid.
    - apply elem_of_cons in Hin as [<-|Hin]; [apply preorder_rid|].
      specialize (IH Hin). apply preorder_subt in IH as (s & Hs & <-).
      assert (x ∈ children a (rid s)) as Hx by (by apply (wf_pc a W)).
      rewrite (is_tree_children a s) in Hx by (by eapply is_tree_subt).
      apply elem_of_list_fmap in Hx as (u & -> & Hu).
      apply preorder_subt. exists u. split; [|done].
      eapply subt_trans; [by apply subt_child|done].
  Qed.

  Lemma nodup_flat_map {A} (f : A -> list nat) (g : A -> nat) l :
    NoDup (map g l) -> (forall x, x ∈ l -> NoDup (f x)) ->
    (forall x y z, x ∈ l -> y ∈ l -> z ∈ f x -> z ∈ f y -> g x = g y) ->
    NoDup (flat_map f l).
  Proof.
    induction l as [|x l IH]; simpl; intros Hnd Hf Hd; [constructor|].
    inversion Hnd as [|? ? Hx Hnd']; subst.
    apply NoDup_app. split; [apply Hf; left|]. split.
    - intros z Hz Hz'. apply elem_flat_map in Hz' as (y & Hy & Hz').
      apply Hx. rewrite (Hd x y z); [|left|by right|done|done].
      apply elem_of_list_fmap. eauto.
    - apply IH; [done|intros; apply Hf; by right|]. intros u v z ? ?. apply Hd; by right.
  Qed.

  Lemma is_tree_nodup a t : wf a -> is_tree a t -> NoDup (preorder t).
  Proof.
    intros W. induction t as [i ts IH] using rose_ind'. intros Ht.
    pose proof Ht as Ht0. apply is_tree_eq in Ht as [Hc Hts].
    destruct (wf_chain a W i) as [l Hl].
    assert (forall t, t ∈ ts -> chain a (rid t) (i :: l)) as Hch.
    { intros t Hin. eapply chain_up; [|done]. apply (wf_pc a W). rewrite Hc.
      apply elem_of_list_fmap. eauto. }
    simpl. constructor.
    - intros Hin. apply elem_flat_map in Hin as (t & Hin & Hx).
      destruct (pre_chain a t i _ W (Hts _ Hin) Hx (Hch _ Hin)) as (l1 & k & Hk & E).
      rewrite (chain_det _ _ _ _ Hk Hl) in E.
      assert (length (i :: l) = length (l1 ++ rid t :: i :: l)) by congruence.
      rewrite app_length in H. simpl in H. lia.
    - apply (nodup_flat_map preorder rid).
      + rewrite <- Hc. apply W.
      + intros t Hin. apply IH; auto.
      + intros t u x Hin Hiu Hx Hx'.
        destruct (pre_chain a t x _ W (Hts _ Hin) Hx (Hch _ Hin)) as (l1 & k & Hk & E).
        destruct (pre_chain a u x _ W (Hts _ Hiu) Hx' (Hch _ Hiu)) as (l2 & k' & Hk' & E').
        rewrite (chain_det _ _ _ _ Hk' Hk) in E'. rewrite E in E'.
        replace (l1 ++ rid t :: i :: l) with ((l1 ++ [rid t]) ++ i :: l) in E'
          by (by rewrite <- app_assoc).
        replace (l2 ++ rid u :: i :: l) with ((l2 ++ [rid u]) ++ i :: l) in E'
          by (by rewrite <- app_assoc).
        apply app_inv_tail in E'. by apply app_inj_tail in E' as [_ ?].
  Qed.

  Lemma preorder_lt a t x :
    wf a -> is_tree a t -> rid t < length a -> x ∈ preorder t -> x < length a.
  Proof.
    intros W Ht Hi Hx. apply preorder_subt in Hx as (s & Hs & <-).
    induction Hs as [t|s t u Hs IH Hin]; [done|].
    apply IH; [by eapply is_tree_sub|].
    apply (wf_child_lt a (rid u)); [done|]. rewrite (is_tree_children a u) by done.
    apply elem_of_list_fmap. eauto.
  Qed.

  Lemma is_tree_size a t :
    wf a -> is_tree a t -> rid t < length a -> length (preorder t) <= length a.
  Proof.
    intros W Ht Hi. apply nodup_lt_length; [by eapply is_tree_nodup|].
    intros x Hx. by eapply preorder_lt.
  Qed.

  Lemma is_tree_height a t : wf a -> is_tree a t -> rheight t < tree_fuel a.
  Proof.
    intros W Ht. unfold tree_fuel. destruct (decide (rid t < length a)) as [Hi|Hi].
    - pose proof (is_tree_size a t W Ht Hi). pose proof (rheight_lt_size t). lia.
    - destruct t as [i ts]. apply is_tree_eq in Ht as [Hc _].
      rewrite children_ge in Hc by (simpl in Hi; lia).
      destruct ts; [simpl; lia|done].
  Qed.

  (** ** Traversals *)

  Lemma desc_f_spec a t f : is_tree a t -> rheight t < f -> desc_f f a (rid t) = Some (preorder t).
  Proof.
    revert t. induction f as [|f IH]; intros [i ts] Ht Hf; [lia|].
    pose proof Ht as Ht0. apply is_tree_eq in Ht as [Hc Hts]. simpl rid. simpl desc_f. rewrite Hc.
    assert (forall l, (forall t, t ∈ l -> is_tree a t /\ rheight t < f) ->
      (fix go (l : list nat) : option (list nat) :=
          match l with
          | [] => Some []
          | c :: l' => match desc_f f a c, go l' with
                       | Some x, Some y => Some (x ++ y)
                       | _, _ => None
                       end
          end) (map rid l) = Some (flat_map preorder l)) as H.
    { induction l as [|t l IHl]; intros Hl; simpl; [done|].
      destruct (Hl t) as [? ?]; [left|]. rewrite IH by done.
      rewrite IHl; [done|]. intros; apply Hl; by right. }
    rewrite H; [done|]. intros t Hin. split; [auto|].
    pose proof (rheight_child (Rose i ts) t Hin). lia.
  Qed.

  Lemma descendants_spec a t : wf a -> is_tree a t -> descendants a (rid t) = Some (preorder t).
  Proof. intros W Ht. apply desc_f_spec; [done|]. by apply is_tree_height. Qed.

  Lemma height_f_spec a t f : is_tree a t -> rheight t < f -> height_f f a (rid t) = Some (rheight t).
  Proof.
    revert t. induction f as [|f IH]; intros [i ts] Ht Hf; [lia|].
    pose proof Ht as Ht0. apply is_tree_eq in Ht as [Hc Hts]. simpl rid. simpl height_f. rewrite Hc.
    assert (forall l, (forall t, t ∈ l -> is_tree a t /\ rheight t < f) ->
      (fix go (l : list nat) : option nat :=
          match l with
          | [] => Some 0
          | c :: l' => match height_f f a c, go l' with
                       | Some x, Some y => Some (Nat.max x y)
                       | _, _ => None
                       end
          end) (map rid l) = Some (fold_right (fun t m => Nat.max (rheight t) m) 0 l)) as H.
    { induction l as [|t l IHl]; intros Hl; simpl; [done|].
      destruct (Hl t) as [? ?]; [left|]. rewrite IH by done.
      rewrite IHl; [done|]. intros; apply Hl; by right. }
    destruct ts as [|t0 ts]; [done|].
    cbn [map].
    assert (forall t, t ∈ t0 :: ts -> is_tree a t /\ rheight t < f) as Hall.
    { intros t Hin. split; [auto|].
      pose proof (rheight_child (Rose i (t0 :: ts)) t Hin). lia. }
    destruct (Hall t0) as [? ?]; [left|].
    rewrite H by (intros; apply Hall; by right). by rewrite IH.
  Qed.

  Lemma height_spec a t : wf a -> is_tree a t -> height a (rid t) = Some (rheight t).
  Proof. intros W Ht. apply height_f_spec; [done|]. by apply is_tree_height. Qed.

  Definition oapp (l : list nat) (o : option (list nat)) : option (list nat) :=
    match o with Some k => Some (l ++ k) | None => None end.

  Lemma oapp_app l k o : oapp (l ++ k) o = oapp l (oapp k o).
  Proof. destruct o; simpl; [by rewrite app_assoc|done]. Qed.

  Lemma post_loop_tree a t f st :
    is_tree a t ->
    post_loop (2 * length (preorder t) + f) a ((rid t, false) :: st)
    = oapp (postorder t) (post_loop f a st).
  Proof.
    revert f st. induction t as [i ts IH] using rose_ind'. intros f st Ht.
    pose proof Ht as Ht0. apply is_tree_eq in Ht as [Hc Hts].
    assert (forall l f st, (forall t, t ∈ l -> t ∈ ts) ->
      post_loop (2 * length (flat_map preorder l) + f) a
        (map (fun c => (c, false)) (map rid l) ++ st)
      = oapp (flat_map postorder l) (post_loop f a st)) as H.
    { induction l as [|t l IHl]; intros f0 st0 Hl.
      - simpl. by destruct (post_loop f0 a st0).
      - cbn [flat_map map app]. rewrite app_length.
        replace (2 * (length (preorder t) + length (flat_map preorder l)) + f0)
          with (2 * length (preorder t) + (2 * length (flat_map preorder l) + f0)) by lia.
        rewrite IH by (try apply Hts; apply Hl; left).
        rewrite IHl by (intros; apply Hl; by right).
        by rewrite oapp_app. }
    simpl rid. cbn [preorder length].
    replace (2 * S (length (flat_map preorder ts)) + f)
      with (S (2 * length (flat_map preorder ts) + S f)) by lia.
    cbn [post_loop]. rewrite Hc. rewrite H by done.
    cbn [post_loop postorder]. rewrite oapp_app. f_equal.
  Qed.

  Lemma post_order_spec a t :
    wf a -> is_tree a t -> rid t < length a -> post_order a (rid t) = Some (postorder t).
  Proof.
    intros W Ht Hi. pose proof (is_tree_size a t W Ht Hi).
    unfold post_order.
    replace (2 * length a) with (2 * length (preorder t) + 2 * (length a - length (preorder t))) by lia.
    rewrite post_loop_tree by done.
    assert (forall f, post_loop f a [] = Some []) as -> by (by intros []).
    simpl. by rewrite app_nil_r.
  Qed.

  Lemma position_spec a p i c :
    wf a -> children a p !! i = Some c -> position a c = i.
  Proof.
    intros W Hl. unfold position.
    assert (c ∈ children a p) as Hin by (by eapply elem_of_list_lookup_2).
    apply (wf_pc a W) in Hin. rewrite Hin.
    rewrite (index_of_nodup c _ i); [done|apply W|done].
  Qed.
End Arena.

(** ** What a [DiffTree] presents *)

(** The accessors of [t] describe the finite tree [r] (and the root's parent, if
    any, is outside). *)
Record presents {H K P T} (t : dtree H K P T) (r : rose) : Prop := {
  pr_root : t_root t = rid r;
  pr_nodup : NoDup (preorder r);
  pr_iter : t_iter t = preorder r;
  pr_post : t_post t = postorder r;
  pr_children : forall s, subt s r -> t_children t (rid s) = map rid (rsub s);
  pr_desc : forall s, subt s r -> t_desc t (rid s) = preorder s;
  pr_height : forall s, subt s r -> t_height t (rid s) = rheight s;
  pr_parent : forall s k c, subt s r -> rsub s !! k = Some c ->
      t_parent t (rid c) = Some (rid s) /\ t_position t (rid c) = k;
  pr_root_parent : forall p, t_parent t (rid r) = Some p -> p ∉ preorder r
}.

Section Presents.
  Context {H K P T : Type} (t : dtree H K P T) (r : rose).
  Hypothesis PR : presents t r.

  Lemma pr_iter_subt x : x ∈ t_iter t <-> exists s, subt s r /\ rid s = x.
  Proof. rewrite (pr_iter t r PR). apply preorder_subt. Qed.

  Lemma pr_root_iter : t_root t ∈ t_iter t.
  Proof. rewrite (pr_iter t r PR), (pr_root t r PR). apply preorder_rid. Qed.

  Lemma pr_iter_nodup : NoDup (t_iter t).
  Proof. rewrite (pr_iter t r PR). apply PR. Qed.

  Lemma pr_child x c : x ∈ t_iter t -> c ∈ t_children t x ->
    c ∈ t_iter t /\ t_parent t c = Some x.
  Proof.
    intros Hx Hc. apply pr_iter_subt in Hx as (s & Hs & <-).
    rewrite (pr_children t r PR s Hs) in Hc.
    apply elem_of_list_fmap in Hc as (u & -> & Hu). split.
    - apply pr_iter_subt. exists u. split; [|done]. eapply subt_trans; [by apply subt_child|done].
    - apply elem_of_list_lookup in Hu as [k Hk]. by eapply (pr_parent t r PR).
  Qed.

  Lemma pr_child_pos x k c : x ∈ t_iter t -> t_children t x !! k = Some c -> t_position t c = k.
  Proof.
    intros Hx Hc. apply pr_iter_subt in Hx as (s & Hs & <-).
    rewrite (pr_children t r PR s Hs) in Hc.
    rewrite list_lookup_fmap in Hc. destruct (rsub s !! k) as [u|] eqn:Hk; [|done].
    injection Hc as <-. by eapply (pr_parent t r PR).
  Qed.

  Lemma subt_parent s : subt s r -> s = r \/ exists u k, subt u r /\ rsub u !! k = Some s.
  Proof.
    clear PR. induction 1 as [u|s u v Hs IH Hu]; [by left|].
    destruct IH as [->|(w & k & Hw & Hk)].
    - right. apply elem_of_list_lookup in Hu as [k Hk]. exists v, k. split; [constructor|done].
    - right. exists w, k. split; [|done]. eapply subt_step; eauto.
  Qed.

  (** Every node but the root has its parent in the tree. *)
  Lemma pr_nonroot x : x ∈ t_iter t -> x <> t_root t ->
    exists p, t_parent t x = Some p /\ p ∈ t_iter t /\ t_children t p !! t_position t x = Some x.
  Proof.
    intros Hx Hne. apply pr_iter_subt in Hx as (s & Hs & <-).
    destruct (subt_parent s Hs) as [->|(u & k & Hu & Hk)].
    - rewrite (pr_root t r PR) in Hne. done.
    - destruct (pr_parent t r PR u k s Hu Hk) as [Hp Hpos].
      exists (rid u). split_and!; [done| |].
      + apply pr_iter_subt. eauto.
      + rewrite (pr_children t r PR u Hu), list_lookup_fmap, Hpos, Hk. done.
  Qed.

  Lemma pr_desc_iter x y : x ∈ t_iter t -> y ∈ t_desc t x -> y ∈ t_iter t.
  Proof.
    intros Hx Hy. apply pr_iter_subt in Hx as (s & Hs & <-).
    rewrite (pr_desc t r PR s Hs) in Hy. rewrite (pr_iter t r PR).
    by eapply preorder_subt_incl.
  Qed.

  Lemma pr_desc_self x : x ∈ t_iter t -> x ∈ t_desc t x.
  Proof.
    intros Hx. apply pr_iter_subt in Hx as (s & Hs & <-).
    rewrite (pr_desc t r PR s Hs). apply preorder_rid.
  Qed.

  (** A strict descendant's parent is a descendant. *)
  Lemma pr_desc_parent x y :
    x ∈ t_iter t -> y ∈ t_desc t x -> y <> x ->
    exists p, t_parent t y = Some p /\ p ∈ t_desc t x.
  Proof.
    intros Hx Hy Hne. apply pr_iter_subt in Hx as (s & Hs & <-).
    rewrite (pr_desc t r PR s Hs) in *.
    apply preorder_subt in Hy as (u & Hu & <-).
    assert (u = s \/ exists v, subt v s /\ u ∈ rsub v) as [->|(v & Hv & Huv)].
    { clear -Hu. induction Hu as [|u w v Hu IH Hw]; [by left|]. right.
      destruct IH as [->|(z & Hz & Hzu)]; [exists v; split; [constructor|done]|].
      exists z. split; [|done]. eapply subt_step; eauto. }
    - done.
    - exists (rid v). split.
      + apply elem_of_list_lookup in Huv as [k Hk].
        by eapply (pr_parent t r PR v k); [eapply subt_trans|].
      + apply preorder_subt. eauto.
  Qed.

  Lemma pr_desc_child x y c :
    x ∈ t_iter t -> y ∈ t_desc t x -> c ∈ t_children t y -> c ∈ t_desc t x.
  Proof.
    intros Hx Hy Hc. apply pr_iter_subt in Hx as (s & Hs & <-).
    rewrite (pr_desc t r PR s Hs) in *.
    apply preorder_subt in Hy as (u & Hu & <-).
    rewrite (pr_children t r PR u) in Hc by (by eapply subt_trans).
    apply elem_of_list_fmap in Hc as (v & -> & Hv).
    apply preorder_subt. exists v. split; [|done].
    eapply subt_trans; [by apply subt_child|done].
  Qed.

  Lemma pr_desc_nodup x : x ∈ t_iter t -> NoDup (t_desc t x).
  Proof.
    intros Hx. apply pr_iter_subt in Hx as (s & Hs & <-).
    rewrite (pr_desc t r PR s Hs). eapply subt_nodup; [apply PR|done].
  Qed.

  Lemma pr_post_iter x : x ∈ t_post t <-> x ∈ t_iter t.
  Proof. rewrite (pr_post t r PR), (pr_iter t r PR). apply postorder_elem. Qed.

  Lemma opaque_desc_elem x :
    x ∈ opaque_descendants t <->
    exists o, o ∈ t_iter t /\ t_opaque t o = true /\ x ∈ t_desc t o /\ x <> o.
  Proof.
    unfold opaque_descendants. rewrite elem_flat_map. split.
    - intros (o & Ho & Hx). destruct (t_opaque t o) eqn:E; [|inversion Hx].
      apply lfilter_elem in Hx as [? Hx]. apply negb_true_iff, Nat.eqb_neq in Hx. eauto 10.
    - intros (o & Ho & E & Hx & Hne). exists o. split; [done|]. rewrite E.
      apply lfilter_elem. split; [done|]. by apply negb_true_iff, Nat.eqb_neq.
  Qed.

  (** A child of a node that is neither opaque nor inside opaque content is not
      inside opaque content. *)
  Lemma not_opaque_child x c :
    x ∈ t_iter t -> x ∉ opaque_descendants t -> t_opaque t x = false ->
    c ∈ t_children t x -> c ∉ opaque_descendants t.
  Proof.
    intros Hx Hn Ho Hc Hin. apply opaque_desc_elem in Hin as (o & Hoi & Eo & Hd & Hne).
    destruct (pr_desc_parent o c Hoi Hd Hne) as (p & Hp & Hpd).
    destruct (pr_child x c Hx Hc) as [_ Hp']. rewrite Hp' in Hp. injection Hp as <-.
    apply Hn, opaque_desc_elem. exists o. split_and!; [done|done|done|]. congruence.
  Qed.

  Lemma root_not_opaque_desc : t_root t ∉ opaque_descendants t.
  Proof.
    intros Hin. apply opaque_desc_elem in Hin as (o & Hoi & Eo & Hd & Hne).
    destruct (pr_desc_parent o _ Hoi Hd Hne) as (p & Hp & Hpd).
    rewrite (pr_root t r PR) in Hp. apply (pr_root_parent t r PR) in Hp.
    apply Hp. rewrite <- (pr_iter t r PR). by eapply pr_desc_iter.
  Qed.
End Presents.
