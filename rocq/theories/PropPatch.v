(** Property theorems on single patches: C73 (each patch changes exactly what it names). *)
From Verif Require Import Base Arena Matching Dom HtmlDiff.
From Verif Require Import ArenaProofs ArenaOps AttrProofs TreeProofs DomTree ApplyProofs SinkProofs ParseProofs ApiProofs Instances InstanceProofs.
From Verif Require Import PropApply PropApi.
Local Open Scope string_scope.

(** ** What a path names *)

(** [below a x p n]: following the child positions [p] from [x] leads to [n]. *)
Inductive below (a : arena dnode) : nat -> path -> nat -> Prop :=
| below_here x : below a x [] x
| below_child x i c p n : children a x !! i = Some c -> below a c p n -> below a x (i :: p) n.

(** The first number of a path is a slot, the others are child positions. *)
Definition named (a : arena dnode) (sl : slots) (p : path) (n : nat) : Prop :=
  exists k q r, p = k :: q /\ slot_get sl k = Some r /\ below a r q n.

(** Why a path names nothing. *)
Definition bad_path (a : arena dnode) (sl : slots) (p : path) (e : diff_error) : Prop :=
  (p = [] /\ e = EmptyPath) \/
  (exists k q, p = k :: q /\ slot_get sl k = None /\ e = SlotNotFound k) \/
  (exists k q n i rest, p = (k :: q ++ i :: rest)%list /\ named a sl (k :: q) n /\ length (children a n) <= i /\ e = PathOutOfBounds i).

Lemma navigate_below a p : forall x n, navigate a x p = Val n <-> below a x p n.
Proof.
  induction p as [|i p IH]; intros x n; simpl.
  - split; [intros [= ->]; constructor|by inversion 1].
  - split.
    + destruct (children a x !! i) as [c|] eqn:E; [|done]. intros H. econstructor; [done|]. by apply IH.
    + inversion 1 as [|? ? c ? ? Hc Hb]; subst. rewrite Hc. by apply IH.
Qed.

Lemma navigate_fail a p : forall x e, navigate a x p = Fail e <->
  exists q n i rest, p = (q ++ i :: rest)%list /\ below a x q n /\ length (children a n) <= i /\ e = PathOutOfBounds i.
Proof.
  induction p as [|i p IH]; intros x e; simpl.
  - split; [done|]. by intros ([|? ?] & ? & ? & ? & ? & _).
  - destruct (children a x !! i) as [c|] eqn:E.
    + rewrite IH. split.
      * intros (q & n & j & rest & -> & Hb & Hl & ->). exists (i :: q), n, j, rest. split_and!; try done. by econstructor.
      * intros ([|i' q] & n & j & rest & Ep & Hb & Hl & ->).
        -- inversion Hb; subst. injection Ep as <- <-. apply lookup_lt_Some in E. lia.
        -- injection Ep as <- ->. inversion Hb as [|? ? c' ? ? Hc' Hb']; subst. rewrite E in Hc'. injection Hc' as <-.
           by exists q, n, j, rest.
    + split.
      * intros [= <-]. exists [], x, i, p. split_and!; try done; [constructor|by apply lookup_ge_None].
      * intros ([|i' q] & n & j & rest & Ep & Hb & Hl & ->).
        -- by injection Ep as -> ->.
        -- injection Ep as <- ->. inversion Hb as [|? ? c' ? ? Hc' Hb']; subst. congruence.
Qed.

(** C73: the navigation finds the node a path names, and the error says where
    the path leaves the document. *)
Theorem addressing_exact : forall a sl p,
  (forall n, navigate_slot_path a sl p = Val n <-> named a sl p n) /\
  (forall e, navigate_slot_path a sl p = Fail e <-> bad_path a sl p e) /\
  (forall n n', named a sl p n -> named a sl p n' -> n = n') /\
  ((exists n, named a sl p n) \/ exists e, bad_path a sl p e).
Proof.
  intros a sl p.
  assert (forall p n, navigate_slot_path a sl p = Val n <-> named a sl p n) as H1.
  { clear p. intros p n. unfold named. destruct p as [|k q]; simpl; [split; [done|by intros (? & ? & ? & ? & _)]|].
    destruct (slot_get sl k) as [r|] eqn:E.
    - rewrite navigate_below. split; [intros H; by exists k, q, r|]. intros (k' & q' & r' & [= <- <-] & Hr & H). congruence.
    - split; [done|]. intros (k' & q' & r' & [= <- <-] & Hr & H). congruence. }
  assert (forall e, navigate_slot_path a sl p = Fail e <-> bad_path a sl p e) as H2.
  { intros e. unfold bad_path. destruct p as [|k q]; simpl.
    - split; [intros [= <-]; by left|]. intros [[_ ->]|[(? & ? & ? & _)|(? & ? & ? & ? & ? & ? & _)]]; done.
    - destruct (slot_get sl k) as [r|] eqn:E.
      + rewrite navigate_fail. split.
        * intros (q' & n & i & rest & -> & Hb & Hl & ->). right; right. exists k, q', n, i, rest. split_and!; try done. by exists k, q', r.
        * intros [[? _]|[(k' & q' & [= <- <-] & Hk & _)|(k' & q' & n & i & rest & [= <- ->] & Hn & Hl & ->)]]; [done|congruence|].
          destruct Hn as (k' & q'' & r' & [= <- <-] & Hr & Hb). rewrite E in Hr. injection Hr as <-. by exists q', n, i, rest.
      + split.
        * intros [= <-]. right; left. by exists k, q.
        * intros [[? _]|[(k' & q' & [= <- <-] & Hk & ->)|(k' & q' & n & i & rest & [= <- ->] & Hn & Hl & ->)]]; [done|done|].
          destruct Hn as (k' & q'' & r' & [= <- <-] & Hr & Hb). congruence. }
  split; [apply H1|]. split; [done|]. split.
  - intros n n' Hn Hn'. apply H1 in Hn, Hn'. congruence.
  - destruct (navigate_slot_total a sl p) as [[n Hn]|[e He]]; [left; exists n; by apply H1|right; exists e; by apply H2].
Qed.
Print Assumptions addressing_exact.

(** Where an insertion goes: the last number is the position. *)
Definition bad_place (a : arena dnode) (sl : slots) (p : path) (e : diff_error) : Prop :=
  (length p < 2 /\ e = EmptyPath) \/ (exists q i, p = (q ++ [i])%list /\ q <> [] /\ bad_path a sl q e).

(** ** What an insertion does *)

(** [inserted a sl a' sl' p i slot n]: [n] is now child [i] of [p].  Missing
    positions are filled with empty texts.  Without a slot the later children
    move up.  With a slot the child that was at [i] leaves the document and can
    be named by the slot.  Nothing else changes. *)
Record inserted (a : arena dnode) (sl : slots) (a' : arena dnode) (sl' : slots)
    (p i : nat) (slot : option nat) (n : nat) : Prop := {
  in_wf : wf a';
  in_children : exists gap, length gap = i - length (children a p) /\
    (forall g, g ∈ gap -> length a <= g /\ data a' g = Some (mkD (NText "") NsHtml) /\ children a' g = []) /\
    children a' p = (take i (children a p) ++ gap ++ n ::
                     match slot with None => drop i (children a p) | Some _ => drop (S i) (children a p) end)%list;
  in_slot : match slot, children a p !! i with
    | Some k, Some x => parent a' x = None /\ slot_get sl' k = Some x /\ forall k', k' <> k -> slot_get sl' k' = slot_get sl k'
    | _, _ => sl' = sl
    end;
  in_data : forall j, j < length a -> data a' j = data a j;
  in_children_other : forall j, j < length a -> j <> p -> children a' j = children a j;
  in_parent : forall j, j < length a -> j <> n -> (slot = None \/ children a p !! i <> Some j) -> parent a' j = parent a j
}.

Record positioned (a a' : arena dnode) (p pos n : nat) : Prop := {
  po_wf : wf a';
  po_data : forall j, j < length a -> data a' j = data a j;
  po_gap : forall j, length a <= j < length a + (pos - length (children a p)) ->
     data a' j = Some (text_node "") /\ children a' j = [];
  po_children : children a' p = (take pos (children a p) ++ seq (length a) (pos - length (children a p)) ++ n :: drop pos (children a p))%list;
  po_other : forall j, j <> p -> children a' j = children a j;
  po_parent : forall j, j < length a -> j <> n -> parent a' j = parent a j
}.

Lemma insert_at_position_exact a p pos n :
  wf a -> p < length a -> n < length a -> parent a n = None -> ~ above a n p ->
  exists a', insert_at_position a p pos n = Val a' /\ positioned a a' p pos n.
Proof.
  intros W Hp Hn Ho Hna. unfold insert_at_position.
  set (g := pos - length (children a p)).
  destruct (fill_gaps_full (text_node "") g a p W Hp) as (a1 & E1 & [W1 L1 D1 N1 C1 P1]). rewrite E1. cbn [obind].
  assert (parent a1 n = None) as Ho1.
  { rewrite P1. destruct (Nat.leb_spec (length a) n); simpl; [lia|done]. }
  assert (~ above a1 n p) as Hna1.
  { intros (l & Hl & Hin). apply Hna. destruct (wf_chain a W p) as [k Hk].
    assert (chain a1 p k) as Hk1.
    { eapply chain_agree; [done|]. intros x Hx. rewrite P1.
      assert (x < length a) by (destruct Hx as [->|Hx]; [done|by eapply chain_lt]).
      destruct (Nat.leb_spec (length a) x); simpl; [lia|done]. }
    rewrite (chain_det _ _ _ _ Hl Hk1) in Hin. by exists k. }
  assert (forall j, length a <= j -> children a j = []) as Hout.
  { intros j Hj. unfold children. by rewrite lookup_ge_None_2. }
  pose proof (C1 p) as C1p. rewrite Nat.eqb_refl in C1p.
  assert (forall a2 cs, linked a1 a2 p n cs ->
    cs = (take pos (children a p) ++ seq (length a) g ++ n :: drop pos (children a p))%list -> positioned a a2 p pos n) as Hgen.
  { intros a2 cs [W2 L2 D2 C2 P2] ->. split; [done|..].
    - intros j Hj. rewrite D2. by apply D1.
    - intros j Hj. rewrite D2, C2, C1. split; [by apply N1|].
      destruct (Nat.eqb_spec j p); [lia|]. apply Hout. lia.
    - by rewrite C2, Nat.eqb_refl.
    - intros j Hj. rewrite C2, C1. by destruct (Nat.eqb_spec j p).
    - intros j Hj Hjn. rewrite P2, P1. destruct (Nat.eqb_spec j n); [done|]. destruct (Nat.leb_spec (length a) j); simpl; [lia|done]. }
  destruct (children a1 p !! pos) as [next|] eqn:En.
  - assert (next ∈ children a1 p) as Hin by (by eapply elem_of_list_lookup_2).
    destruct (insert_before_full a1 next n p) as (a2 & E2 & K); [done|lia|done|by apply (wf_pc a1 W1)|done|].
    exists a2. split; [done|]. eapply Hgen; [done|].
    rewrite (insert_before_list_lookup _ _ _ pos) by (done || apply W1).
    assert (pos < length (children a p)) as Hlt.
    { apply lookup_lt_Some in En. rewrite C1p, app_length, seq_length in En. subst g. lia. }
    assert (g = 0) as Hg by (subst g; lia). rewrite C1p, Hg. cbn [seq]. by rewrite app_nil_r.
  - destruct (append_full a1 p n) as (a2 & E2 & K); [done|lia|lia|done|done|].
    exists a2. split; [done|]. eapply Hgen; [done|].
    assert (length (children a p) <= pos) as Hge.
    { apply lookup_ge_None in En. rewrite C1p, app_length, seq_length in En. subst g. lia. }
    rewrite C1p, take_ge, drop_ge by lia. by rewrite <- app_assoc.
Qed.

Lemma inserted_extend a0 a sl a' sl' p i slot n :
  extends a0 a -> p < length a0 -> inserted a sl a' sl' p i slot n -> inserted a0 sl a' sl' p i slot n.
Proof.
  intros X Hp [W C S D O P]. pose proof (ex_len _ _ X) as Hl. pose proof (ex_children _ _ X p Hp) as Ep. rewrite Ep in *. split; try done.
  - destruct C as (gap & Hg1 & Hg2 & Hg3). exists gap. split_and!; try done. intros g Hg. destruct (Hg2 g Hg) as (? & ? & ?). split_and!; try done. lia.
  - intros j Hj. rewrite D by lia. by apply (ex_data _ _ X).
  - intros j Hj Hjp. rewrite O by (done || lia). by apply (ex_children _ _ X).
  - intros j Hj Hjn Hs. rewrite P by (done || lia). by apply (ex_parent _ _ X).
Qed.

Lemma insert_at_exact a sl q i n slot p :
  wf a -> named a sl q p -> p < length a -> n < length a -> parent a n = None -> ~ above a n p ->
  exists a' sl', insert_at a sl (q ++ [i])%list n slot = ((a', sl'), Val tt) /\ inserted a sl a' sl' p i slot n /\ parent a' n = Some p /\
    (forall j, j <> p -> children a' j = children a j).
Proof.
  intros W Hq Hp Hn Ho Hna. unfold insert_at, get_slot_parent.
  assert (q <> []) as Hq0 by (destruct Hq as (k & q' & r & -> & _); done).
  destruct (Nat.ltb_spec (length (q ++ [i])%list) 2) as [Hlt|_].
  { rewrite app_length in Hlt. cbn in Hlt. destruct q; [done|cbn in Hlt; lia]. }
  rewrite removelast_last, last_last. rewrite (proj2 (proj1 (addressing_exact a sl q) p) Hq). cbn [obind].
  assert (forall a1 sl1, positioned a a1 p i n -> slot = None \/ children a p !! i = None -> sl1 = sl -> inserted a sl a1 sl1 p i slot n) as Hplain.
  { intros a1 sl1 [W1 D1 G1 C1 O1 P1] Hcase ->. split; [done|..].
    - exists (seq (length a) (i - length (children a p))). split; [apply seq_length|]. split.
      + intros g Hg. apply elem_of_list_In, in_seq in Hg. destruct (G1 g Hg). split_and!; [lia|done..].
      + rewrite C1. destruct slot as [k|]; [|done]. destruct Hcase as [|Hc]; [done|].
        apply lookup_ge_None in Hc. by rewrite !drop_ge by lia.
    - destruct slot as [k|]; [|done]. destruct Hcase as [|Hc]; [done|]. by rewrite Hc.
    - done.
    - intros j _ Hj. by apply O1.
    - intros j Hj Hjn _. by apply P1. }
  assert (forall a1, positioned a a1 p i n -> parent a1 n = Some p) as Hpar.
  { intros a1 [W1 _ _ C1 _ _]. apply W1. rewrite C1. rewrite !elem_of_app, elem_of_cons. tauto. }
  destruct slot as [k|].
  2:{ destruct (insert_at_position_exact a p i n) as (a1 & E1 & K); [done..|]. rewrite E1. cbn. exists a1, sl.
      split; [done|]. split; [apply Hplain; [done|by left|done]|]. split; [by apply Hpar|apply K]. }
  destruct (children a p !! i) as [x|] eqn:Ex.
  2:{ destruct (insert_at_position_exact a p i n) as (a1 & E1 & K); [done..|]. rewrite E1. cbn. exists a1, sl.
      split; [done|]. split; [apply Hplain; [done|by right|done]|]. split; [by apply Hpar|apply K]. }
  destruct (detach_full a x W) as [W1 L1 D1 C1 P1].
  assert (x ∈ children a p) as Hx by (by eapply elem_of_list_lookup_2).
  assert (parent a x = Some p) as Hpx by (by apply W).
  assert (x <> n) as Hxn by congruence.
  assert (i < length (children a p)) as Hi by (by eapply lookup_lt_Some).
  destruct (insert_at_position_exact (detach a x) p i n) as (a2 & E2 & K); [done|lia|lia| | |].
  { rewrite P1. by destruct (Nat.eqb n x). }
  { intros (l & Hl & Hin). apply Hna.
    assert (forall q l, chain (detach a x) q l -> n = q \/ n ∈ l -> above a n q) as Hup.
    { intros q0 k0 Hk. induction Hk as [q0 E|q0 r k0 E Hk IH]; intros Hq'.
      - destruct Hq' as [->|Hq']; [by apply above_refl|inversion Hq'].
      - destruct Hq' as [->|Hq']; [by apply above_refl|].
        rewrite P1 in E. destruct (Nat.eqb_spec q0 x); [done|].
        eapply above_parent; [|done]. apply IH. by apply elem_of_cons in Hq'. }
    by eapply Hup. }
  rewrite E2. cbn. exists a2, (slot_set sl k x).
  assert (children (detach a x) p = take i (children a p) ++ drop (S i) (children a p))%list as Cp.
  { rewrite C1. apply remove_id_lookup; [apply W|done]. }
  assert (length (children (detach a x) p) = length (children a p) - 1) as Cl.
  { rewrite Cp, app_length, take_length, drop_length. lia. }
  destruct K as [W2 D2 G2 C2 O2 P2].
  assert (i - length (children (detach a x) p) = 0) as Hg by lia.
  rewrite Hg in C2. cbn [seq app] in C2.
  assert (parent a2 n = Some p) as Hnp.
  { apply W2. rewrite C2, elem_of_app, elem_of_cons. tauto. }
  assert (forall j, j <> p -> children a2 j = children a j) as Ho2.
  { intros j Hj. rewrite (O2 j Hj), C1. apply remove_id_notin. intros Hin. apply W in Hin. congruence. }
  split; [done|]. split; [|split; [done|done]]. split; [done|..].
  - exists []. split; [cbn; lia|]. split; [intros g Hg'; by apply elem_of_nil in Hg'|].
    rewrite C2, Cp. cbn [app].
    assert (length (take i (children a p)) = i) as Ht by (apply take_length_le; lia).
    rewrite <- Ht at 1. rewrite list.take_app. f_equal. f_equal. rewrite <- Ht at 1. by rewrite list.drop_app.
  - rewrite Ex. split; [|split].
    + rewrite P2; [|rewrite L1; by eapply parent_lt|done]. by rewrite P1, Nat.eqb_refl.
    + cbn. by rewrite Nat.eqb_refl.
    + intros k' Hk'. cbn. by destruct (Nat.eqb_spec k k').
  - intros j Hj. rewrite D2 by lia. apply D1.
  - intros j _ Hj. by apply Ho2.
  - intros j Hj Hjn [|Hne]; [done|]. rewrite P2 by (done || lia). rewrite P1. destruct (Nat.eqb_spec j x); [congruence|done].
Qed.

(** ** Refused patches *)

Lemma insert_at_bad a sl p n slot e :
  bad_place a sl p e -> insert_at a sl p n slot = ((a, sl), Fail e).
Proof.
  intros [[Hl ->]|(q & i & -> & Hq & Hb)]; unfold insert_at, get_slot_parent.
  - destruct (Nat.ltb_spec (length p) 2); [done|lia].
  - destruct (Nat.ltb_spec (length (q ++ [i])%list) 2) as [Hlt|_].
    { rewrite app_length in Hlt. cbn in Hlt. destruct q; [done|cbn in Hlt; lia]. }
    rewrite removelast_last. by rewrite (proj2 (proj1 (proj2 (addressing_exact a sl q)) e) Hb).
Qed.

Lemma below_agree a a' x q n :
  wf a -> (forall j, j < length a -> children a' j = children a j) -> x < length a -> below a x q n <-> below a' x q n.
Proof. intros W Hag Hx. by rewrite <- !navigate_below, (navigate_agree a a'). Qed.

Lemma named_agree a a' sl q n :
  wf a -> slots_ok a sl -> (forall j, j < length a -> children a' j = children a j) -> named a sl q n <-> named a' sl q n.
Proof.
  intros W S Hag. rewrite <- (proj1 (addressing_exact a sl q)), <- (proj1 (addressing_exact a' sl q)).
  by rewrite (navigate_slot_agree a a').
Qed.

Lemma bad_path_agree a a' sl q e :
  wf a -> slots_ok a sl -> (forall j, j < length a -> children a' j = children a j) -> bad_path a sl q e <-> bad_path a' sl q e.
Proof.
  intros W S Hag. rewrite <- (proj1 (proj2 (addressing_exact a sl q))), <- (proj1 (proj2 (addressing_exact a' sl q))).
  by rewrite (navigate_slot_agree a a').
Qed.

Lemma bad_place_agree a a' sl q e :
  wf a -> slots_ok a sl -> (forall j, j < length a -> children a' j = children a j) -> bad_place a sl q e <-> bad_place a' sl q e.
Proof.
  intros W S Hag. unfold bad_place. split; (intros [?|(r & i & ? & ? & ?)]; [by left|right; exists r, i; split_and!; try done]).
  - by apply (bad_path_agree a a').
  - by apply (bad_path_agree a a').
Qed.

(** The node an insertion makes, before it is put anywhere. *)
Lemma made_node a tag ats cs : wf a ->
  exists a2, create_contents (fst (new_node a (elem tag ats NsHtml))) (length a) cs = Val a2 /\
    extends a a2 /\ length a < length a2 /\ parent a2 (length a) = None /\
    holds a2 (HElem tag NsHtml ats (map htree_of_ic cs)) (length a).
Proof.
  intros W. destruct (new_node_full a (elem tag ats NsHtml) W) as (W1 & L1 & P1 & C1 & D1 & Cj & Pj & Dj).
  set (a1 := fst (new_node a (elem tag ats NsHtml))) in *.
  rewrite create_contents_clone.
  destruct (clone_under_all a1 (length a) (map htree_of_ic cs)) as (a2 & ids & E & [W2 L2 D2 C2 P2 I2 H2]); [done|lia|].
  exists a2. split; [done|]. split; [|split; [lia|split]].
  - split; [done|lia|..]; intros j Hj.
    + rewrite D2 by lia. apply Dj. lia.
    + rewrite C2 by lia. destruct (Nat.eqb_spec j (length a)); [lia|]. apply Cj.
    + rewrite P2 by lia. apply Pj.
  - rewrite P2 by lia. done.
  - pose proof (C2 (length a) ltac:(lia)) as C. rewrite Nat.eqb_refl, C1 in C. cbn in C.
    pose proof (D2 (length a) ltac:(lia)) as D. rewrite D1 in D.
    apply holds_elem. split; [exact D|]. by rewrite C.
Qed.

(** A leaf made by an insertion. *)
Lemma made_leaf (a : arena dnode) d : wf a -> let a1 := fst (new_node a d) in
  extends a a1 /\ length a < length a1 /\ parent a1 (length a) = None /\ data a1 (length a) = Some d /\ children a1 (length a) = [].
Proof.
  intros W. destruct (new_node_full a d W) as (W1 & L1 & P1 & C1 & D1 & _). intros a1.
  split_and!; try done; [by apply extends_new|]. unfold a1. rewrite L1. lia.
Qed.

Section Patch.
  Variable parse_inner : string -> list htree.
  Notation apply_patch := (apply_patch parse_inner).

  (** The path a patch works on, if it is not an insertion. *)
  Definition subject (p : patch) : option path :=
    match p with
    | PRemove q | PSetText q _ | PSetAttribute q _ _ | PRemoveAttribute q _ | PUpdateProps q _ | POpaqueChanged q _ => Some q
    | PMove from _ _ => Some from
    | PInsertElement _ _ _ _ _ | PInsertText _ _ _ | PInsertComment _ _ _ => None
    end.

  (** The place an insertion names. *)
  Definition destination (p : patch) : option path :=
    match p with
    | PInsertElement q _ _ _ _ | PInsertText q _ _ | PInsertComment q _ _ => Some q
    | _ => None
    end.

  (** The patch needs a text or comment, or an element. *)
  Definition misplaced (p : patch) (k : option nkind) : option diff_error :=
    match p with
    | PSetText _ _ => match k with Some (NText _) | Some (NComment _) => None | _ => Some NotATextNode end
    | PSetAttribute _ _ _ | PRemoveAttribute _ _ => match k with Some (NElem _ _) => None | _ => Some NotAnElement end
    | _ => None
    end.

  (** C73: a patch whose path names nothing, or names a node of the wrong kind,
      reports that and changes nothing; a refused insertion leaves at most
      detached new nodes. *)
  Theorem patch_refused : forall a sl p,
    wf a -> slots_ok a sl ->
    (forall q e, subject p = Some q -> bad_path a sl q e -> apply_patch (a, sl) p = ((a, sl), Fail e)) /\
    (forall q n e, subject p = Some q -> named a sl q n -> misplaced p (node_kind a n) = Some e ->
       apply_patch (a, sl) p = ((a, sl), Fail e)) /\
    (forall q e, destination p = Some q -> bad_place a sl q e ->
       exists a', apply_patch (a, sl) p = ((a', sl), Fail e) /\ wf a' /\ length a <= length a' /\
         forall j, j < length a -> data a' j = data a j /\ parent a' j = parent a j /\ children a' j = children a j).
  Proof using Type.
    intros a sl p W S. split; [|split].
    - intros q e Hq Hb. apply (proj1 (proj2 (addressing_exact a sl q))) in Hb.
      destruct p; cbn in Hq; try done; injection Hq as ->; cbn; unfold with_node; cbn; by rewrite Hb.
    - intros q n e Hq Hn Hm. apply (proj1 (addressing_exact a sl q)) in Hn.
      destruct p; cbn in Hq; try done; injection Hq as ->; cbn [misplaced] in Hm; try done; cbn [Dom.apply_patch]; unfold with_node; cbn [fst snd]; rewrite Hn;
        destruct (node_kind a n) as [[]|]; try done; by injection Hm as <-.
    - intros q e Hq Hb.
      assert (forall a1 n slot, extends a a1 -> exists a', insert_at a1 sl q n slot = ((a', sl), Fail e) /\ wf a' /\ length a <= length a' /\
         forall j, j < length a -> data a' j = data a j /\ parent a' j = parent a j /\ children a' j = children a j) as Hgen.
      { intros a1 n slot X. exists a1. split; [|split; [apply X|split; [apply X|]]].
        - apply insert_at_bad. apply (bad_place_agree a a1); [done|done| |done]. apply X.
        - intros j Hj. split_and!; by apply X. }
      destruct p as [q' tag ats cs slot|q' s slot|q' s slot| | | | | | |]; cbn in Hq; try done; injection Hq as ->.
      + destruct (made_node a tag ats cs W) as (a2 & E2 & X & _).
        cbn -[create_contents new_node]. destruct (new_node a (elem tag ats NsHtml)) as [a1 n] eqn:En.
        assert (n = length a) as -> by (unfold new_node in En; by injection En). cbn [fst] in E2. rewrite E2. by apply Hgen.
      + apply Hgen. by apply extends_new.
      + apply Hgen. by apply extends_new.
  Qed.

  (** ** Changes of content *)

  (** The attributes after an update: those named, in the order named, with the
      given value or else the old one. *)
  Inductive listed (old : attrs) : list prop_change -> attrs -> Prop :=
  | listed_nil : listed old [] []
  | listed_text c cs l : pc_name c = PText -> listed old cs l -> listed old (c :: cs) l
  | listed_new c cs l q v : pc_name c = PAttr q -> pc_value c = Some v -> listed old cs l -> listed old (c :: cs) ((q, v) :: l)
  | listed_same c cs l q v : pc_name c = PAttr q -> pc_value c = None -> attr_get q old = Some v -> listed old cs l ->
      listed old (c :: cs) ((q, v) :: l)
  | listed_unknown c cs l q : pc_name c = PAttr q -> pc_value c = None -> attr_get q old = None -> listed old cs l ->
      listed old (c :: cs) ((q, "") :: l).

  Lemma rebuild_listed old cs : listed old cs (rebuild_attrs old cs).
  Proof using Type.
    induction cs as [|c cs IH]; cbn; [constructor|]. destruct (pc_name c) as [|q] eqn:En; [by apply listed_text|].
    cbn. destruct (pc_value c) as [v|] eqn:Ev; [by apply listed_new|].
    destruct (attr_get q old) as [v|] eqn:Eo; [by apply listed_same|by apply listed_unknown].
  Qed.

  (** The first change of the text, if there is one, gives [v]. *)
  Definition text_given (cs : list prop_change) (v : option string) : Prop :=
    exists l c k, cs = (l ++ c :: k)%list /\ (forall x, x ∈ l -> pc_name x <> PText) /\ pc_name c = PText /\ pc_value c = v.

  Lemma find_text_given cs :
    match find (fun c => match pc_name c with PText => true | PAttr _ => false end) cs with
    | Some c => text_given cs (pc_value c)
    | None => forall v, ~ text_given cs v
    end.
  Proof using Type.
    induction cs as [|c cs IH]; cbn.
    - intros v ([|? ?] & ? & ? & ? & _); done.
    - destruct (pc_name c) as [|q] eqn:En.
      + exists [], c, cs. split_and!; try done. intros x Hx. by apply elem_of_nil in Hx.
      + destruct (find _ cs) as [c'|].
        * destruct IH as (l & c0 & k & -> & Hl & ? & ?). exists (c :: l), c0, k. split_and!; try done.
          intros x [->|Hx]%elem_of_cons; [by rewrite En|by apply Hl].
        * intros v ([|y l] & c0 & k & [= <- ->] & Hl & Hc & Hv); [by rewrite En in Hc|].
          apply (IH v). exists l, c0, k. split_and!; try done. intros x Hx. apply Hl. by right.
  Qed.

  Lemma text_given_unique cs v w : text_given cs v -> text_given cs w -> v = w.
  Proof using Type.
    intros (l & c & k & -> & Hl & Hc & <-). revert Hl. induction l as [|x l IH]; intros Hl (m & d & j & E & Hm & Hd & <-).
    - destruct m as [|y m]; [by injection E as -> ->|]. injection E as -> _. exfalso. by apply (Hm y); [left|].
    - destruct m as [|y m].
      + injection E as -> _. exfalso. by apply (Hl d); [left|].
      + injection E as -> E. apply IH; [intros z Hz; apply Hl; by right|]. exists m, d, j. split_and!; try done.
        intros z Hz. apply Hm. by right.
  Qed.

  (** C73: patches that change the content of one node. *)
  Theorem content_patches : forall a sl q n k ns,
    named a sl q n -> data a n = Some (mkD k ns) ->
    (forall s s0, k = NText s0 -> exists a', apply_patch (a, sl) (PSetText q s) = ((a', sl), Val tt) /\ only_content a a' n (mkD (NText s) ns)) /\
    (forall s s0, k = NComment s0 -> exists a', apply_patch (a, sl) (PSetText q s) = ((a', sl), Val tt) /\ only_content a a' n (mkD (NComment s) ns)) /\
    (forall name v t l, k = NElem t l -> exists a' l', apply_patch (a, sl) (PSetAttribute q name v) = ((a', sl), Val tt) /\
       only_content a a' n (mkD (NElem t l') ns) /\ attr_get name l' = Some v /\
       (forall name', name' <> name -> attr_get name' l' = attr_get name' l) /\
       map fst l' = if existsb (qname_eqb name) (map fst l) then map fst l else (map fst l ++ [name])%list) /\
    (forall name t l, k = NElem t l -> exists a' l', apply_patch (a, sl) (PRemoveAttribute q name) = ((a', sl), Val tt) /\
       only_content a a' n (mkD (NElem t l') ns) /\ l' = List.filter (fun kv => negb (qname_eqb (fst kv) name)) l) /\
    (forall cs t l, k = NElem t l -> exists a' l', apply_patch (a, sl) (PUpdateProps q cs) = ((a', sl), Val tt) /\
       only_content a a' n (mkD (NElem t l') ns) /\ listed l cs l') /\
    (forall cs v s0, k = NText s0 -> text_given cs (Some v) ->
       exists a', apply_patch (a, sl) (PUpdateProps q cs) = ((a', sl), Val tt) /\ only_content a a' n (mkD (NText v) ns)) /\
    (forall cs v s0, k = NComment s0 -> text_given cs (Some v) ->
       exists a', apply_patch (a, sl) (PUpdateProps q cs) = ((a', sl), Val tt) /\ only_content a a' n (mkD (NComment v) ns)) /\
    (forall cs, (forall t l, k <> NElem t l) -> (forall v, ~ text_given cs (Some v)) ->
       apply_patch (a, sl) (PUpdateProps q cs) = ((a, sl), Val tt)).
  Proof using Type.
    intros a sl q n k ns Hn Hd. apply (proj1 (addressing_exact a sl q)) in Hn.
    assert (node_kind a n = Some k) as Hk by (unfold node_kind; by rewrite Hd).
    assert (forall k', only_content a (set_kind a n k') n (mkD k' ns)) as Ho.
    { intros k'. split; [apply len_set_kind|]. split; [by rewrite (set_kind_data a n _ _ _ Hd), Nat.eqb_refl|].
      split; [|split; intros j; [apply parent_set_kind|apply children_set_kind]].
      intros j Hj. rewrite (set_kind_data a n _ _ _ Hd). by destruct (Nat.eqb_spec j n). }
    cbn. unfold with_node. cbn. rewrite Hn, Hk. split_and!.
    - intros s s0 ->. eauto.
    - intros s s0 ->. eauto.
    - intros name v t l ->. eexists _, _. split; [done|]. split; [apply Ho|]. split; [apply attr_get_set_same|]. split.
      + intros name' Hne. apply attr_get_set_other. congruence.
      + destruct (existsb (qname_eqb name) (map fst l)) eqn:Ex.
        * apply existsb_qname in Ex. by apply keys_attr_set_in.
        * rewrite attr_set_notin; [by rewrite map_app|]. intros Hin. apply existsb_qname in Hin. unfold keys in Hin. congruence.
    - intros name t l ->. eexists _, _. split; [done|]. split; [apply Ho|done].
    - intros cs t l ->. eexists _, _. split; [done|]. split; [apply Ho|apply rebuild_listed].
    - intros cs v s0 -> Hg. pose proof (find_text_given cs) as Hf. destruct (find _ cs) as [c|]; [|by apply Hf in Hg].
      rewrite (text_given_unique _ _ _ Hf Hg). eauto.
    - intros cs v s0 -> Hg. pose proof (find_text_given cs) as Hf. destruct (find _ cs) as [c|]; [|by apply Hf in Hg].
      rewrite (text_given_unique _ _ _ Hf Hg). eauto.
    - intros cs He Hg. pose proof (find_text_given cs) as Hf.
      assert (match find (fun c => match pc_name c with PText => true | PAttr _ => false end) cs with Some c => pc_value c | None => None end = None) as Hv.
      { destruct (find _ cs) as [c|]; [|done]. destruct (pc_value c) as [v|]; [|done]. by apply Hg in Hf. }
      destruct k as [|t l|s|s]; try done; [by edestruct He|..]; destruct (find _ cs) as [c|]; try done; by rewrite Hv.
  Qed.

  (** ** Changes of structure *)

  (** [n] is out of the document and a new empty text has taken its place. *)
  Record vacated (a a' : arena dnode) (n : nat) : Prop := {
    va_wf : wf a';
    va_out : parent a' n = None;
    va_place : exists e, length a <= e /\ data a' e = Some (mkD (NText "") NsHtml) /\ children a' e = [] /\
      parent a' e = parent a n /\
      forall q l k, children a q = (l ++ n :: k)%list -> children a' q = (l ++ e :: k)%list;
    va_data : forall j, j < length a -> data a' j = data a j;
    va_other : forall j, j < length a -> n ∉ children a j -> children a' j = children a j;
    va_parent : forall j, j < length a -> j <> n -> parent a' j = parent a j
  }.

  Lemma replace_vacated a n : wf a -> n < length a ->
    exists a', replace_by_empty a n = Val a' /\ vacated a a' n /\ length a' = S (length a).
  Proof using Type.
    intros W Hn. destruct (replace_leaf_full a n (text_node "") W Hn) as (a' & E & [W' L D Dn Cn Pn P C O]).
    exists a'. split; [done|]. split; [|done]. split; [done|..].
    - rewrite P by lia. by rewrite Nat.eqb_refl.
    - exists (length a). split_and!; try done. intros q l k Hq.
      assert (children a q !! length l = Some n) as Hl by (rewrite Hq, lookup_app_r, Nat.sub_diag by lia; done).
      assert (parent a n = Some q) as Hpq by (apply W; by eapply elem_of_list_lookup_2).
      rewrite (C q (length l) Hpq Hl), Hq, insert_app_r_alt, Nat.sub_diag by lia. done.
    - intros j Hj. apply D. lia.
    - intros j Hj Hin. apply O; [lia|]. intros Hp. apply Hin. by apply W.
    - intros j Hj Hjn. rewrite P by lia. by destruct (Nat.eqb_spec j n).
  Qed.

  (** C73: a removal. *)
  Theorem remove_patch : forall a sl q n,
    wf a -> slots_ok a sl -> named a sl q n ->
    exists a', apply_patch (a, sl) (PRemove q) = ((a', sl), Val tt) /\ vacated a a' n.
  Proof using Type.
    intros a sl q n W S Hn. apply (proj1 (addressing_exact a sl q)) in Hn.
    pose proof (navigate_slot_lt _ _ _ _ W S Hn) as Hl.
    destruct (replace_vacated a n W Hl) as (a' & E & V & _). exists a'. split; [|done].
    cbn [Dom.apply_patch]. unfold with_node. cbn [fst snd]. by rewrite Hn, E.
  Qed.

  (** What an insertion brings. *)
  Definition brought (p : patch) : option (path * option nat * htree) :=
    match p with
    | PInsertElement q tag ats cs slot => Some (q, slot, HElem tag NsHtml ats (map htree_of_ic cs))
    | PInsertText q s slot => Some (q, slot, HText s)
    | PInsertComment q s slot => Some (q, slot, HComment s)
    | _ => None
    end.

  (** C73: an insertion. *)
  Theorem insert_patch : forall a sl p q i slot t b,
    wf a -> slots_ok a sl -> brought p = Some ((q ++ [i])%list, slot, t) -> named a sl q b ->
    exists a' sl' n, apply_patch (a, sl) p = ((a', sl'), Val tt) /\ length a <= n /\
      inserted a sl a' sl' b i slot n /\ parent a' n = Some b /\ holds a' t n.
  Proof using Type.
    intros a sl p q i slot t b W S Hp Hq.
    assert (b < length a) as Hb.
    { apply (navigate_slot_lt a sl q); [done|done|]. by apply (proj1 (addressing_exact a sl q)). }
    assert (forall a2, extends a a2 -> length a < length a2 -> parent a2 (length a) = None -> holds a2 t (length a) ->
      exists a' sl' n, insert_at a2 sl (q ++ [i])%list (length a) slot = ((a', sl'), Val tt) /\ length a <= n /\
      inserted a sl a' sl' b i slot n /\ parent a' n = Some b /\ holds a' t n) as Hgen.
    { intros a2 X Hlt Hpar Hh. pose proof (ex_wf _ _ X) as W2.
      destruct (insert_at_exact a2 sl q i (length a) slot b) as (a' & sl' & E & I & P & O); [done| |lia|lia|done| |].
      { apply (named_agree a a2); [done|done|apply X|done]. }
      { by apply (extends_not_above a a2). }
      exists a', sl', (length a). split; [done|]. split; [done|]. split; [by eapply inserted_extend|]. split; [done|].
      apply (holds_agree (fun j => length a <= j < length a2) a2); [lia| | |done].
      - intros j c Hj Hc. split; [apply (extends_new_closed a a2 j c); [done|done|lia|done]|by eapply wf_child_lt].
      - intros j Hj. split; [apply (in_data _ _ _ _ _ _ _ _ I); lia|apply O; lia]. }
    destruct p as [q' tag ats cs sl0|q' s sl0|q' s sl0| | | | | | |]; cbn in Hp; try done; injection Hp as -> -> <-.
    - destruct (made_node a tag ats cs W) as (a2 & E2 & X & L2 & P2 & H2).
      cbn [Dom.apply_patch]. destruct (new_node a (elem tag ats NsHtml)) as [a1 n] eqn:En.
      assert (n = length a) as -> by (unfold new_node in En; by injection En). cbn [fst] in E2. rewrite E2. by apply Hgen.
    - destruct (made_leaf a (text_node s) W) as (X & L & P & D & C). apply (Hgen (fst (new_node a (text_node s)))); try done.
      cbn [holds]. split; [|done]. unfold node_kind. by rewrite D.
    - destruct (made_leaf a (comment_node s) W) as (X & L & P & D & C). apply (Hgen (fst (new_node a (comment_node s)))); try done.
      cbn [holds]. split; [|done]. unfold node_kind. by rewrite D.
  Qed.

  (** [n] is out of the document, its place is closed. *)
  Record taken (a a' : arena dnode) (n : nat) : Prop := {
    ta_wf : wf a';
    ta_out : parent a' n = None;
    ta_children : forall j, children a' j = List.filter (fun x => negb (Nat.eqb x n)) (children a j);
    ta_data : forall j, data a' j = data a j;
    ta_parent : forall j, j <> n -> parent a' j = parent a j
  }.

  (** C73: a move takes the node out first.  A node named by a path below a slot
      leaves an empty text; a node named by the slot alone leaves nothing.  The
      destination is looked up after that. *)
  Theorem move_patch : forall a sl from to slot n,
    wf a -> slots_ok a sl -> named a sl from n ->
    exists a1, (if Nat.eqb (length from) 1 then taken a a1 n else vacated a a1 n) /\
      (forall e, bad_place a1 sl to e -> apply_patch (a, sl) (PMove from to slot) = ((a1, sl), Fail e)) /\
      (forall q i b, to = (q ++ [i])%list -> named a1 sl q b -> ~ above a1 n b ->
         exists a' sl', apply_patch (a, sl) (PMove from to slot) = ((a', sl'), Val tt) /\
           inserted a1 sl a' sl' b i slot n /\ parent a' n = Some b).
  Proof using Type.
    intros a sl from to slot n W S Hn0. pose proof Hn0 as Hn. apply (proj1 (addressing_exact a sl from)) in Hn.
    pose proof (navigate_slot_lt _ _ _ _ W S Hn) as Hl.
    assert (exists a1, (if Nat.ltb 1 (length from) then replace_by_empty a n else Val (detach a n)) = Val a1 /\
      (if Nat.eqb (length from) 1 then taken a a1 n else vacated a a1 n) /\ length a <= length a1 /\ parent a1 n = None) as (a1 & E1 & V & L1 & P1).
    { destruct from as [|k [|i from]]; [by destruct Hn0 as (? & ? & ? & ? & _)|..]; cbn [length Nat.ltb Nat.leb Nat.eqb].
      - destruct (detach_full a n W) as [W1 L1 D1 C1 P1]. exists (detach a n). split; [done|].
        split; [split|split]; [done|by rewrite P1, Nat.eqb_refl| |done| |lia|by rewrite P1, Nat.eqb_refl].
        + intros j. rewrite C1. apply remove_id_filter.
        + intros j Hj. rewrite P1. by destruct (Nat.eqb_spec j n).
      - destruct (replace_vacated a n W Hl) as (a1 & E & V & L). exists a1. split; [done|]. split; [done|]. split; [lia|apply V]. }
    assert (wf a1) as W1 by (destruct (Nat.eqb (length from) 1); apply V).
    assert (slots_ok a1 sl) as S1 by (by eapply slots_ok_mono).
    exists a1. split; [done|].
    assert (apply_patch (a, sl) (PMove from to slot) = insert_at a1 sl to n slot) as Ea.
    { cbn [Dom.apply_patch]. unfold with_node. cbn [fst snd]. by rewrite Hn, E1. }
    rewrite Ea. split.
    - intros e He. by apply insert_at_bad.
    - intros q i b -> Hq Hab.
      assert (b < length a1) as Hb.
      { apply (navigate_slot_lt a1 sl q); [done|done|]. by apply (proj1 (addressing_exact a1 sl q)). }
      destruct (insert_at_exact a1 sl q i n slot b) as (a' & sl' & E & I & P & _); [done..|lia|lia|done|done|]. by exists a', sl'.
  Qed.
End Patch.
Print Assumptions patch_refused.
Print Assumptions content_patches.
Print Assumptions remove_patch.
Print Assumptions insert_patch.
Print Assumptions move_patch.

(** The hypotheses hold of the page
    [<p>one</p><div id="x"><b>two</b>three</div><i>gone</i>] with slot 0 at its body. *)
Lemma ex_named : wf (doc_arena ex_old) /\ slots_ok (doc_arena ex_old) [(0, 2)] /\
  named (doc_arena ex_old) [(0, 2)] [0] 2 /\ named (doc_arena ex_old) [(0, 2)] [0; 1] 7 /\
  named (doc_arena ex_old) [(0, 2)] [0; 1; 1] 10.
Proof.
  split; [apply mk_doc_ok|]. split.
  - intros [|k] v H; [|done]. injection H as <-. vm_compute. lia.
  - split_and!; apply (proj1 (addressing_exact _ _ _)); vm_compute; reflexivity.
Qed.

Definition html_after (p : patch) : option string :=
  match apply_patch no_parser (doc_arena ex_old, [(0, 2)]) p with
  | ((a, _), Val tt) => to_body_html (mkDoc a 0 None)
  | _ => None
  end.

Example patch_example :
  bad_path (doc_arena ex_old) [(0, 2)] [0; 1; 7; 3] (PathOutOfBounds 7) /\
  bad_path (doc_arena ex_old) [(0, 2)] [4; 1] (SlotNotFound 4) /\
  bad_place (doc_arena ex_old) [(0, 2)] [0] EmptyPath /\
  misplaced (PSetText [0; 1] "x") (node_kind (doc_arena ex_old) 7) = Some NotATextNode /\
  html_after (PSetText [0; 1; 1] "x") = Some "<p>one</p><div id=""x""><b>two</b>x</div><i>gone</i>" /\
  html_after (PRemove [0; 1]) = Some "<p>one</p><i>gone</i>" /\
  html_after (PInsertElement [0; 1] "u" [] [ICText "n"] None) = Some "<p>one</p><u>n</u><div id=""x""><b>two</b>three</div><i>gone</i>" /\
  html_after (PInsertText [0; 1] "n" (Some 1)) = Some "<p>one</p>n<i>gone</i>" /\
  html_after (PMove [0; 2] [0; 1; 0] None) = Some "<p>one</p><div id=""x""><i>gone</i><b>two</b>three</div>" /\
  text_given [mkPC PText (Some "v")] (Some "v").
Proof.
  split_and!; try (vm_compute; reflexivity).
  - apply (proj1 (proj2 (addressing_exact _ _ _))). vm_compute. reflexivity.
  - apply (proj1 (proj2 (addressing_exact _ _ _))). vm_compute. reflexivity.
  - left. split; [cbn; lia|done].
  - exists [], (mkPC PText (Some "v")), []. split_and!; try done. intros x Hx. by apply elem_of_nil in Hx.
Qed.

(** The move in the example satisfies the hypothesis on ancestors. *)
Example move_example : exists a1,
  vacated (doc_arena ex_old) a1 11 /\ named a1 [(0, 2)] [0; 1] 7 /\ ~ above a1 11 7.
Proof.
  assert (11 < length (doc_arena ex_old)) as Hl by (vm_compute; lia).
  destruct ex_named as (W & S & _).
  destruct (replace_vacated (doc_arena ex_old) 11 W Hl) as (a1 & E & V & _). exists a1. split; [done|].
  assert (a1 = match replace_by_empty (doc_arena ex_old) 11 with Val b => b | _ => [] end) as Ea by (by rewrite E).
  vm_compute in Ea. split.
  - apply (proj1 (addressing_exact _ _ _)). rewrite Ea. vm_compute. reflexivity.
  - assert (chain a1 7 [2; 0]) as Hc.
    { rewrite Ea. econstructor; [vm_compute; reflexivity|]. econstructor; [vm_compute; reflexivity|]. constructor. vm_compute. reflexivity. }
    intros (l & Hl' & Hin). rewrite (chain_det _ _ _ _ Hl' Hc) in Hin. rewrite !elem_of_cons, elem_of_nil in Hin. lia.
Qed.
