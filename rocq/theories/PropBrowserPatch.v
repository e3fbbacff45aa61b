(** Property theorems on single patches in the browser: C74. *)
From stdpp Require Import list_numbers.
From Verif Require Import Base Arena Matching Dom HtmlDiff Server ServerProofs Browser.
From Verif Require Import ArenaProofs ArenaOps AttrProofs TreeProofs DomTree ApplyProofs SinkProofs ParseProofs ApiProofs OpaqueProofs
  SimProofs BrowserProofs BrowserTotal Instances InstanceProofs.
From Verif Require Import PropApply PropApi PropFallback PropPatch.
Local Open Scope string_scope.

(** Slot 0 is the element the patches are applied to, whatever the slot table says. *)
Definition b_named (root : nat) (a : arena dnode) (sl : slots) (p : path) (n : nat) : Prop :=
  exists k q r, p = k :: q /\ (k = 0 /\ r = root \/ k <> 0 /\ slot_get sl k = Some r) /\ below a r q n.

Definition b_bad_path (root : nat) (a : arena dnode) (sl : slots) (p : path) (e : diff_error) : Prop :=
  (p = [] /\ e = EmptyPath) \/
  (exists k q, p = k :: q /\ k <> 0 /\ slot_get sl k = None /\ e = SlotNotFound k) \/
  (exists k q n i rest, p = (k :: q ++ i :: rest)%list /\ b_named root a sl (k :: q) n /\ length (children a n) <= i /\ e = PathOutOfBounds i).

Definition b_slots (root : nat) (sl : slots) : slots := (0, root) :: sl.

Lemma b_slots_get root sl k : slot_get (b_slots root sl) k = if Nat.eqb k 0 then Some root else slot_get sl k.
Proof. by destruct k. Qed.

Lemma find_is_navigate root a sl p : find_node root a sl p = navigate_slot_path a (b_slots root sl) p.
Proof.
  destruct p as [|k q]; [done|]. cbn [find_node navigate_slot_path]. unfold get_slot_root. rewrite b_slots_get.
  destruct (Nat.eqb k 0); [done|]. by destruct (slot_get sl k).
Qed.

Lemma b_named_slots root a sl p n : b_named root a sl p n <-> named a (b_slots root sl) p n.
Proof.
  unfold b_named, named. split; intros (k & q & r & -> & Hr & Hb); exists k, q, r; (split; [done|]; split; [|done]).
  - rewrite b_slots_get. destruct Hr as [[-> ->]|[Hk Hr]]; [done|]. by destruct (Nat.eqb_spec k 0).
  - rewrite b_slots_get in Hr. destruct (Nat.eqb_spec k 0) as [->|]; [left|right]; [|done]. by injection Hr as ->.
Qed.

Lemma b_bad_slots root a sl p e : b_bad_path root a sl p e <-> bad_path a (b_slots root sl) p e.
Proof.
  unfold b_bad_path, bad_path. split; (intros [H|[H|H]]; [by left|right; left|right; right]).
  - destruct H as (k & q & -> & Hk & Hs & ->). exists k, q. rewrite b_slots_get. by destruct (Nat.eqb_spec k 0).
  - destruct H as (k & q & n & i & rest & -> & Hn & Hl & ->). exists k, q, n, i, rest. split_and!; try done. by apply b_named_slots.
  - destruct H as (k & q & -> & Hs & ->). exists k, q. rewrite b_slots_get in Hs. by destruct (Nat.eqb_spec k 0).
  - destruct H as (k & q & n & i & rest & -> & Hn & Hl & ->). exists k, q, n, i, rest. split_and!; try done. by apply b_named_slots.
Qed.

(** C74: the browser client finds the node a path names, and its error says where
    the path leaves the page. *)
Theorem browser_addressing : forall root a sl p,
  (forall n, find_node root a sl p = Val n <-> b_named root a sl p n) /\
  (forall e, find_node root a sl p = Fail e <-> b_bad_path root a sl p e) /\
  (forall n n', b_named root a sl p n -> b_named root a sl p n' -> n = n') /\
  ((exists n, b_named root a sl p n) \/ exists e, b_bad_path root a sl p e).
Proof.
  intros root a sl p. rewrite find_is_navigate. destruct (addressing_exact a (b_slots root sl) p) as (H1 & H2 & H3 & H4).
  split; [intros n; by rewrite b_named_slots|]. split; [intros e; by rewrite b_bad_slots|].
  split; [intros n n'; rewrite !b_named_slots; apply H3|].
  destruct H4 as [[n H]|[e H]]; [left; exists n; by apply b_named_slots|right; exists e; by apply b_bad_slots].
Qed.
Print Assumptions browser_addressing.

(** [n] is child [i] of [p], in place of the child that was there; missing
    positions are filled with empty texts.  The child that was there is out of the
    page, and named by the slot if there is one. *)
Record b_inserted (a : arena dnode) (sl : slots) (a' : arena dnode) (sl' : slots)
    (p i : nat) (slot : option nat) (n : nat) : Prop := {
  bi_wf : wf a';
  bi_parent_n : parent a' n = Some p;
  bi_children : exists gap, length gap = i - length (children a p) /\
    (forall g, g ∈ gap -> length a <= g /\ data a' g = Some (mkD (NText "") NsHtml) /\ children a' g = []) /\
    children a' p = (take i (children a p) ++ gap ++ n :: drop (S i) (children a p))%list;
  bi_out : forall x, children a p !! i = Some x -> parent a' x = None;
  bi_slot : match slot, children a p !! i with
    | Some k, Some x => slot_get sl' k = Some x /\ forall k', k' <> k -> slot_get sl' k' = slot_get sl k'
    | _, _ => sl' = sl
    end;
  bi_data : forall j, j < length a -> data a' j = data a j;
  bi_children_other : forall j, j < length a -> j <> p -> children a' j = children a j;
  bi_parent : forall j, j < length a -> j <> n -> children a p !! i <> Some j -> parent a' j = parent a j
}.

Lemma b_put_exact a sl n p pos slot :
  wf a -> p < length a -> n < length a -> parent a n = None -> ~ above a n p ->
  exists a' sl', b_insert_at_position a sl p n pos slot = ((a', sl'), Val tt) /\ b_inserted a sl a' sl' p pos slot n /\
    (forall j, j <> p -> children a' j = children a j).
Proof.
  intros W Hp Hn Ho Hna. unfold b_insert_at_position. destruct (children a p !! pos) as [x|] eqn:Ex.
  - destruct (replace_child_took a p pos n x W Hn Ho Hna Ex) as (a' & E & [W' L D C P]). rewrite E.
    pose proof (lookup_lt_Some _ _ _ Ex) as Hlt.
    assert (parent a x = Some p) as Hpx by (apply W; by eapply elem_of_list_lookup_2).
    assert (forall j, j <> p -> children a' j = children a j) as Oj by (intros j Hj; rewrite C; by destruct (Nat.eqb_spec j p)).
    eexists _, _. split; [reflexivity|]. split; [|exact Oj]. split; [done|..].
    + rewrite P. destruct (Nat.eqb_spec n x); [congruence|]. by rewrite Nat.eqb_refl.
    + exists []. split; [cbn; lia|]. split; [intros g Hg; by apply elem_of_nil in Hg|].
      rewrite C, Nat.eqb_refl. cbn [app]. by apply insert_take_drop.
    + rewrite Ex. intros y [= <-]. by rewrite P, Nat.eqb_refl.
    + rewrite Ex. destruct slot as [k|]; [|done]. cbn. rewrite Nat.eqb_refl. split; [done|].
      intros k' Hk'. by destruct (Nat.eqb_spec k k').
    + intros j _. apply D.
    + intros j _ Hj. by apply Oj.
    + intros j Hj Hjn Hjx. rewrite Ex in Hjx. rewrite P. destruct (Nat.eqb_spec j x); [congruence|]. by destruct (Nat.eqb_spec j n).
  - destruct (insert_at_position_exact a p pos n W Hp Hn Ho Hna) as (a' & E & [W' D G C O P]).
    unfold insert_at_position in E.
    destruct (fill_gaps_full (text_node "") (pos - length (children a p)) a p W Hp) as (a1 & E1 & Fl). rewrite E1 in E |- *.
    cbn [obind] in E |- *. destruct Fl as [_ _ _ _ C1 _].
    pose proof (proj1 (lookup_ge_None _ _) Ex) as Hge.
    assert (children a1 p !! pos = None) as En.
    { apply lookup_ge_None. rewrite C1, Nat.eqb_refl, app_length, seq_length. lia. }
    rewrite En in E. unfold dom_append. rewrite E. cbn [plift snd]. exists a', sl. split; [done|]. split; [|exact O]. split; [done|..].
    + apply W'. rewrite C, !elem_of_app, elem_of_cons. tauto.
    + exists (seq (length a) (pos - length (children a p))). split; [apply seq_length|]. split.
      * intros g Hg. apply elem_of_list_In, in_seq in Hg. destruct (G g Hg). split_and!; [lia|done..].
      * rewrite C. by rewrite !drop_ge by lia.
    + rewrite Ex. done.
    + rewrite Ex. by destruct slot.
    + done.
    + intros j _ Hj. by apply O.
    + intros j Hj Hjn _. by apply P.
Qed.

Lemma b_inserted_extend a0 a sl a' sl' p i slot n :
  extends a0 a -> p < length a0 -> b_inserted a sl a' sl' p i slot n -> b_inserted a0 sl a' sl' p i slot n.
Proof.
  intros X Hp [W N C U S D O P]. pose proof (ex_len _ _ X) as Hl. pose proof (ex_children _ _ X p Hp) as Ep. rewrite Ep in *. split; try done.
  - destruct C as (gap & Hg1 & Hg2 & Hg3). exists gap. split_and!; try done. intros g Hg. destruct (Hg2 g Hg) as (? & ? & ?). split_and!; try done. lia.
  - intros j Hj. rewrite D by lia. by apply (ex_data _ _ X).
  - intros j Hj Hjp. rewrite O by (done || lia). by apply (ex_children _ _ X).
  - intros j Hj Hjn Hs. rewrite P by (done || lia). by apply (ex_parent _ _ X).
Qed.

(** Attributes of an element: [removeAttribute] takes one away. *)
Definition dropped (n : string) (l l' : attrs) : Prop :=
  (exists l1 v l2, l = (l1 ++ (flat n, v) :: l2)%list /\ flat n ∉ map fst l1 /\ l' = (l1 ++ l2)%list) \/
  (flat n ∉ map fst l /\ l' = l).

Lemma attr_drop_dropped n l : dropped n l (attr_drop (flat n) l).
Proof.
  induction l as [|[k v] l IH]; cbn; [right; split; [apply not_elem_of_nil|done]|].
  destruct (qname_eqb k (flat n)) eqn:E.
  - apply qname_eqb_eq in E as ->. left. exists [], v, l. split; [done|]. split; [apply not_elem_of_nil|done].
  - assert (k <> flat n) as Hk by (intros ->; by rewrite (proj2 (qname_eqb_eq _ _) eq_refl) in E).
    destruct IH as [(l1 & w & l2 & E1 & E2 & E3)|[E1 E2]].
    + left. exists ((k, v) :: l1), w, l2. split; [by rewrite E1|]. split; [cbn; rewrite elem_of_cons; intros [|]; [congruence|done]|].
      by rewrite E3.
    + right. split; [cbn; rewrite elem_of_cons; intros [|]; [congruence|done]|]. by rewrite E2.
Qed.

Section Browser.
  Variables valid_elem valid_attr : string -> bool.
  Variable parse_template : string -> list htree.
  Variable root : nat.
  Notation create := (b_create valid_elem valid_attr parse_template).
  Notation bap := (b_apply_patch valid_elem valid_attr parse_template root).

  (** Making content changes nothing that is there. *)
  Lemma create_fresh c : forall a a' n, wf a -> create a c = Val (a', n) ->
    extends a a' /\ n = length a /\ n < length a' /\ parent a' n = None.
  Proof using Type.
    induction c as [s|s|tag ats cs IH] using icontent_ind'; intros a a' n W E.
    - injection E as <- <-. destruct (made_leaf a (text_node s) W) as (X & L & P & _). done.
    - injection E as <- <-. destruct (made_leaf a (comment_node s) W) as (X & L & P & _). done.
    - cbn [b_create] in E. destruct (b_create_element valid_elem valid_attr tag ats) as [d|].
      2:{ unfold b_via_html in E. destruct (parse_template _) as [|t ts]; [done|].
          destruct (clone_tree_all t a W) as (a1 & E1 & X & L & P & _). rewrite E1 in E. by injection E as <- <-. }
      destruct (made_leaf a d W) as (X1 & L1 & P1 & _).
      destruct (new_node a d) as [a1 m] eqn:En. cbn [fst] in *.
      assert (m = length a) as -> by (unfold new_node in En; by injection En).
      match type of E with (obind (?f a1 cs) _) = _ => set (go := f) in E end.
      assert (forall l b b', (forall c, c ∈ l -> c ∈ cs) -> extends a b -> length a < length b -> parent b (length a) = None ->
        go b l = Val b' -> extends a b' /\ length a < length b' /\ parent b' (length a) = None) as HG.
      { induction l as [|c l IHl]; intros b b' Hl X L P Eg; [by injection Eg as <-|].
        change (go b (c :: l)) with (let! (b1, i) := create b c in let! b2 := dom_append b1 (length a) i in go b2 l) in Eg.
        destruct (create b c) as [[b1 i]| | |] eqn:Ec; try done. cbn [obind] in Eg.
        assert (c ∈ cs) as Hc by (apply Hl; left).
        destruct (IH c Hc b b1 i (ex_wf _ _ X) Ec) as (Xb & -> & Lb & Pb).
        pose proof (ex_len _ _ Xb) as Hlb.
        assert (length a <> length b) as Hne by lia.
        destruct (append_full b1 (length a) (length b)) as (b2 & E2 & [W2 L2 D2 C2 P2]); [apply Xb|lia|lia|done| |].
        { apply (extends_not_above b b1); [apply X|done|lia|lia]. }
        unfold dom_append in Eg. rewrite E2 in Eg. cbn [obind] in Eg.
        apply (IHl b2 b'); [intros c' Hc'; apply Hl; by right| |lia| |done].
        - pose proof (ex_len _ _ X). split; [done|lia|..]; intros j Hj.
          + rewrite D2, (ex_data _ _ Xb) by lia. by apply X.
          + rewrite C2. destruct (Nat.eqb_spec j (length a)); [lia|]. rewrite (ex_children _ _ Xb) by lia. by apply X.
          + rewrite P2. destruct (Nat.eqb_spec j (length b)); [lia|]. rewrite (ex_parent _ _ Xb) by lia. by apply X.
        - rewrite P2. destruct (Nat.eqb_spec (length a) (length b)); [lia|]. by rewrite (ex_parent _ _ Xb) by lia. }
      destruct (go a1 cs) as [a2| | |] eqn:Eg; try done. injection E as <- <-.
      by destruct (HG cs a1 a2 (fun _ H => H) X1 L1 P1 Eg) as (? & ? & ?).
  Qed.

  (** What an insertion brings, and where to. *)
  Definition b_brought (p : patch) : option (path * option nat * icontent) :=
    match p with
    | PInsertElement q tag ats cs slot => Some (q, slot, ICElem tag ats cs)
    | PInsertText q s slot => Some (q, slot, ICText s)
    | PInsertComment q s slot => Some (q, slot, ICComment s)
    | _ => None
    end.

  Lemma b_insert_eq st p q slot c : b_brought p = Some (q, slot, c) ->
    bap st p = b_insert root st q slot (fun a => create a c).
  Proof using Type. destruct st as [a sl]. destruct p; cbn; try done; by intros [= -> -> <-]. Qed.

  (** C74: an insertion in the browser. *)
  Theorem browser_insert : forall a sl p q i slot c b t l,
    wf a -> slots_ok a sl -> root < length a ->
    b_brought p = Some ((q ++ [i])%list, slot, c) -> b_named root a sl q b -> node_kind a b = Some (NElem t l) ->
    (forall e, create a c = Fail e -> bap (a, sl) p = ((a, sl), Fail e)) /\
    (forall a1 n, create a c = Val (a1, n) ->
       exists a' sl', bap (a, sl) p = ((a', sl'), Val tt) /\ length a <= n /\ b_inserted a sl a' sl' b i slot n /\
         forall h, holds a1 h n -> holds a' h n).
  Proof using Type.
    intros a sl p q i slot c b t l W S Hr Hp Hq Hk. rewrite (b_insert_eq _ _ _ _ _ Hp). unfold b_insert.
    assert (q <> []) as Hq0 by (destruct Hq as (k & q' & r & -> & _); done).
    destruct (Nat.ltb_spec (length (q ++ [i])%list) 2) as [Hlt|_].
    { rewrite app_length in Hlt. cbn in Hlt. destruct q; [done|cbn in Hlt; lia]. }
    rewrite removelast_last, last_last. unfold with_found. cbn [fst snd].
    apply (proj1 (browser_addressing root a sl q)) in Hq. rewrite Hq, Hk.
    assert (b < length a) as Hb by (by eapply (find_any root a sl q)).
    split; [intros e He; by rewrite He|]. intros a1 n E. rewrite E.
    destruct (create_fresh c a a1 n W E) as (X & -> & L & P).
    destruct (b_put_exact a1 sl (length a) b i slot) as (a' & sl' & Ea & I & O); [apply X|lia|lia|done|by apply (extends_not_above a a1)|].
    rewrite Ea. exists a', sl'. split; [done|]. split; [done|]. split; [by eapply b_inserted_extend|].
    intros h Hh. apply (holds_agree (fun j => length a <= j < length a1) a1); [lia| | |done].
    - intros j x Hj Hx. split; [apply (extends_new_closed a a1 j x); [done|done|lia|done]|]. eapply wf_child_lt; [apply X|done].
    - intros j Hj. split; [apply (bi_data _ _ _ _ _ _ _ _ I); lia|apply O; lia].
  Qed.

  (** The content shown at that place, for names in lower case (C71). *)
  Theorem browser_insert_shown : forall a sl p q i slot c b t l,
    wf a -> slots_ok a sl -> root < length a ->
    b_brought p = Some ((q ++ [i])%list, slot, c) -> b_named root a sl q b -> node_kind a b = Some (NElem t l) ->
    (forall s, s ∈ parts c -> tidy s) ->
    (forall s, s ∈ parts c -> rejected valid_elem valid_attr s ->
       (forall p, p ∈ parts s -> markable p) /\ parse_template (ser_t false (shown s)) = [shown s]) ->
    exists a' sl' n, bap (a, sl) p = ((a', sl'), Val tt) /\ length a <= n /\ b_inserted a sl a' sl' b i slot n /\
      holds a' (shown c) n.
  Proof using Type.
    intros a sl p q i slot c b t l W S Hr Hp Hq Hk HT HR.
    destruct (inserted_content_shown valid_elem valid_attr parse_template a c W HT HR) as (a1 & E & Hh & _).
    destruct (browser_insert a sl p q i slot c b t l W S Hr Hp Hq Hk) as [_ H].
    destruct (H a1 (length a) E) as (a' & sl' & Ea & L & I & Hs). exists a', sl', (length a). split_and!; try done. by apply Hs.
  Qed.

  (** C74: a removal in the browser.  A path that is only a slot other than 0
      empties the slot; a node without a parent stays as it is. *)
  Theorem browser_remove : forall a sl q n,
    wf a -> slots_ok a sl -> root < length a ->
    (forall k, k <> 0 -> bap (a, sl) (PRemove [k]) = ((a, List.filter (fun e => negb (Nat.eqb (fst e) k)) sl), Val tt)) /\
    (b_named root a sl q n -> (forall k, q = [k] -> k = 0) ->
       exists a', bap (a, sl) (PRemove q) = ((a', sl), Val tt) /\
         ((exists p, parent a n = Some p) /\ vacated a a' n \/ parent a n = None /\ a' = a)).
  Proof using Type.
    intros a sl q n W S Hr. split.
    - intros k Hk. cbn. by destruct (Nat.eqb_spec k 0).
    - intros Hq Hk. assert (q <> []) as Hq0 by (destruct Hq as (k & q' & r & -> & _); done).
      apply (proj1 (browser_addressing root a sl q)) in Hq.
      assert (n < length a) as Hn by (by eapply (find_any root a sl q)).
      destruct q as [|k rel]; [done|]. cbn [b_apply_patch].
      assert (negb (Nat.eqb k 0) && Nat.eqb (length rel) 0 = false) as ->.
      { destruct rel as [|? ?]; [|cbn; apply andb_false_r]. by rewrite (Hk k eq_refl). }
      unfold with_found. cbn [fst snd]. rewrite Hq. unfold vacate.
      destruct (parent a n) as [p|] eqn:Ep; [|exists a; split; [done|by right]].
      destruct (replace_vacated a n W Hn) as (a' & E & V & _). rewrite E. exists a'. split; [done|]. left. eauto.
  Qed.

  (** C74: a move in the browser.  The node is taken from a slot, which is then
      empty, or from the page, leaving an empty text. *)
  Theorem browser_move : forall a sl from to slot n,
    wf a -> slots_ok a sl -> root < length a ->
    (match from with [k] => slot_get sl k = Some n | _ => b_named root a sl from n end) ->
    exists a1 sl1,
      (match from with
       | [k] => a1 = a /\ slot_get sl1 k = None /\ forall k', k' <> k -> slot_get sl1 k' = slot_get sl k'
       | _ => sl1 = sl /\ ((exists p, parent a n = Some p) /\ vacated a a1 n \/ parent a n = None /\ a1 = a)
       end) /\
      (length to < 2 -> bap (a, sl) (PMove from to slot) = ((a1, sl1), Fail EmptyPath)) /\
      (forall q i e, to = (q ++ [i])%list -> q <> [] -> b_bad_path root a1 sl1 q e ->
         bap (a, sl) (PMove from to slot) = ((a1, sl1), Fail e)) /\
      (forall q i b, to = (q ++ [i])%list -> b_named root a1 sl1 q b -> (forall t l, node_kind a1 b <> Some (NElem t l)) ->
         bap (a, sl) (PMove from to slot) = ((a1, sl1), Fail NotAnElement)) /\
      (forall q i b t l, to = (q ++ [i])%list -> b_named root a1 sl1 q b -> node_kind a1 b = Some (NElem t l) ->
         parent a1 n = None -> ~ above a1 n b ->
         exists a' sl', bap (a, sl) (PMove from to slot) = ((a', sl'), Val tt) /\ b_inserted a1 sl1 a' sl' b i slot n).
  Proof using Type.
    intros a sl from to slot n W S Hr Hn.
    assert (exists a1 sl1,
      (match from with
       | [k] => a1 = a /\ slot_get sl1 k = None /\ forall k', k' <> k -> slot_get sl1 k' = slot_get sl k'
       | _ => sl1 = sl /\ ((exists p, parent a n = Some p) /\ vacated a a1 n \/ parent a n = None /\ a1 = a)
       end) /\
      wf a1 /\ slots_ok a1 sl1 /\ length a <= length a1 /\ n < length a1 /\
      (match from with
       | [k] => match slot_get sl k with Some n => Val (a, slot_take sl k, n) | None => Fail (SlotNotFound k) end
       | _ => let! n := find_node root a sl from in let! a1 := vacate a n in Val (a1, sl, n)
       end) = Val (a1, sl1, n)) as (a1 & sl1 & Hd & W1 & S1 & L1 & Hn1 & E1).
    { assert (b_named root a sl from n -> exists a1, (let! n := find_node root a sl from in let! a1 := vacate a n in Val (a1, sl, n)) = Val (a1, sl, n) /\
        ((exists p, parent a n = Some p) /\ vacated a a1 n \/ parent a n = None /\ a1 = a) /\ wf a1 /\ length a <= length a1 /\ n < length a) as Hpath.
      { intros Hq. apply (proj1 (browser_addressing root a sl from)) in Hq.
        assert (n < length a) as Hl by (by eapply (find_any root a sl from)).
        rewrite Hq. cbn [obind]. unfold vacate. destruct (parent a n) as [p|] eqn:Ep.
        - destruct (replace_vacated a n W Hl) as (a1 & E & V & L). rewrite E. exists a1. cbn [obind]. split_and!; try done; [left; eauto|apply V|lia].
        - exists a. cbn [obind]. split_and!; try done. by right. }
      destruct from as [|k [|i from]].
      - destruct Hn as (? & ? & ? & ? & _). done.
      - exists a, (slot_take sl k). rewrite Hn. split_and!; try done.
        + apply slot_take_same.
        + intros k' Hk'. by apply slot_take_other.
        + intros j v Hv. apply take_get in Hv. by eapply S.
        + by eapply S.
      - destruct (Hpath Hn) as (a1 & E & V & W1 & L1 & Hl). exists a1, sl. split_and!; try done; [by eapply slots_ok_mono|lia]. }
    exists a1, sl1. split; [done|].
    assert (bap (a, sl) (PMove from to slot) =
      if Nat.ltb (length to) 2 then ((a1, sl1), Fail EmptyPath)
      else with_found root (a1, sl1) (removelast to) (fun p =>
             match node_kind a1 p with
             | Some (NElem _ _) => b_insert_at_position a1 sl1 p n (List.last to 0) slot
             | _ => ((a1, sl1), Fail NotAnElement)
             end)) as ->.
    { cbn [b_apply_patch]. rewrite E1. done. }
    assert (forall (q : path) i, q <> [] -> Nat.ltb (length (q ++ [i])%list) 2 = false) as Hlen.
    { intros q i Hq0. apply Nat.ltb_ge. rewrite app_length. cbn. destruct q; [done|cbn; lia]. }
    assert (forall q b, b_named root a1 sl1 q b -> q <> []) as Hne by (intros q b (k & q' & r & -> & _); done).
    split_and!.
    - intros Hl. by apply Nat.ltb_lt in Hl as ->.
    - intros q i e -> Hq0 Hb. rewrite (Hlen q i Hq0), removelast_last. unfold with_found. cbn [fst snd].
      apply (proj1 (proj2 (browser_addressing root a1 sl1 q))) in Hb. by rewrite Hb.
    - intros q i b -> Hb Hk. rewrite (Hlen q i (Hne _ _ Hb)), removelast_last. unfold with_found. cbn [fst snd].
      apply (proj1 (browser_addressing root a1 sl1 q)) in Hb. rewrite Hb. destruct (node_kind a1 b) as [[|t l|s|s]|]; try done. by edestruct Hk.
    - intros q i b t l -> Hb Hk Hpn Hab. rewrite (Hlen q i (Hne _ _ Hb)), removelast_last, last_last. unfold with_found. cbn [fst snd].
      apply (proj1 (browser_addressing root a1 sl1 q)) in Hb. rewrite Hb, Hk.
      assert (b < length a1) as Hbl by (eapply (find_any root a1 sl1 q); try done; lia).
      destruct (b_put_exact a1 sl1 n b i slot) as (a' & sl' & Ea & I & _); [done..|]. by exists a', sl'.
  Qed.

  (** C74: a node is not moved below itself; only the empty texts that fill missing
      positions are left. *)
  Theorem browser_move_below : forall a sl k q i b t l slot n,
    wf a -> slots_ok a sl -> root < length a ->
    slot_get sl k = Some n -> b_named root a (List.filter (fun e => negb (Nat.eqb (fst e) k)) sl) q b ->
    node_kind a b = Some (NElem t l) -> above a n b ->
    exists a', bap (a, sl) (PMove [k] (q ++ [i])%list slot) = ((a', List.filter (fun e => negb (Nat.eqb (fst e) k)) sl), Fail DomException) /\
      wf a' /\ (forall j, j < length a -> data a' j = data a j /\ parent a' j = parent a j /\ (j <> b -> children a' j = children a j)) /\
      exists gap, length gap = i - length (children a b) /\ children a' b = (children a b ++ gap)%list /\
        forall g, g ∈ gap -> length a <= g /\ data a' g = Some (mkD (NText "") NsHtml).
  Proof using Type.
    intros a sl k q i b t l slot n W S Hr Hk Hb Hkind Hab.
    assert (q <> []) as Hq0 by (destruct Hb as (k' & q' & r & -> & _); done).
    apply (proj1 (browser_addressing root a _ q)) in Hb. fold (slot_take sl k) in Hb |- *.
    assert (slots_ok a (slot_take sl k)) as S1 by (intros j v Hv; apply take_get in Hv; by eapply S).
    assert (b < length a) as Hbl by (by eapply (find_any root a (slot_take sl k) q)).
    cbn [b_apply_patch]. rewrite Hk.
    assert (Nat.ltb (length (q ++ [i])%list) 2 = false) as ->.
    { apply Nat.ltb_ge. rewrite app_length. cbn. destruct q; [done|cbn; lia]. }
    rewrite removelast_last, last_last. unfold with_found. cbn [fst snd]. rewrite Hb, Hkind.
    assert (forall a0 : arena dnode, wf a0 -> above a0 n b -> n = b \/ is_ancestor a0 n b = Some true) as Hanc.
    { intros a0 W0 (lc & Hc & [->|Hin]); [by left|]. right. rewrite (is_ancestor_spec _ _ _ _ W0 Hc). f_equal.
      apply existsb_exists. exists n. split; [by apply elem_of_list_In|apply Nat.eqb_refl]. }
    unfold b_insert_at_position. destruct (children a b !! i) as [x|] eqn:Ex.
    - exists a. pose proof (lookup_lt_Some _ _ _ Ex).
      assert (replace_child a b n x = Fail DomException) as ->.
      { unfold replace_child. destruct (Hanc a W Hab) as [->|Ha]; [by rewrite Nat.eqb_refl|]. rewrite Ha. by destruct (Nat.eqb n b). }
      split; [done|]. split; [done|]. split; [done|]. exists []. rewrite app_nil_r. split; [cbn; lia|]. split; [done|].
      intros g Hg. by apply elem_of_nil in Hg.
    - destruct (fill_gaps_full (text_node "") (i - length (children a b)) a b W Hbl) as (a1 & E1 & [W1 L1 D1 N1 C1 P1]). rewrite E1.
      assert (forall j, j < length a -> parent a1 j = parent a j) as P1'.
      { intros j Hj. rewrite P1. destruct (Nat.leb_spec (length a) j); simpl; [lia|done]. }
      assert (above a1 n b) as Hab1.
      { destruct Hab as (lc & Hc & Hin). exists lc. split; [|done]. eapply chain_agree; [done|]. intros y Hy. apply P1'.
        destruct Hy as [->|Hy]; [done|by eapply chain_lt]. }
      assert (dom_append a1 b n = Fail DomException) as ->.
      { unfold dom_append, append. destruct (Hanc a1 W1 Hab1) as [->|Ha]; [by rewrite Nat.eqb_refl|]. rewrite Ha. by destruct (Nat.eqb b n). }
      exists a1. split; [done|]. split; [done|]. split.
      { intros j Hj. split; [by apply D1|]. split; [by apply P1'|]. intros Hjb. rewrite C1. by destruct (Nat.eqb_spec j b). }
      exists (seq (length a) (i - length (children a b))). split; [apply seq_length|]. split; [by rewrite C1, Nat.eqb_refl|].
      intros g Hg. apply elem_of_list_In, in_seq in Hg. split; [lia|]. by apply N1.
  Qed.

  (** The path a patch looks up before it changes anything.  Removing a slot's
      content and moving it do not look up a path; [Remove] panics on an empty one. *)
  Definition b_subject (p : patch) : option path :=
    match p with
    | PSetText q _ | PSetAttribute q _ _ | PRemoveAttribute q _ | PUpdateProps q _ | POpaqueChanged q _ => Some q
    | PRemove (k :: rel) => if negb (Nat.eqb k 0) && Nat.eqb (length rel) 0 then None else Some (k :: rel)
    | PMove from _ _ => if Nat.eqb (length from) 1 then None else Some from
    | _ => None
    end.

  (** C74: refused patches change nothing. *)
  Theorem browser_refused : forall a sl p,
    (forall q e, b_subject p = Some q -> b_bad_path root a sl q e -> bap (a, sl) p = ((a, sl), Fail e)) /\
    (forall q n, b_subject p = Some q -> b_named root a sl q n -> (forall t l, node_kind a n <> Some (NElem t l)) ->
       match p with PSetAttribute _ _ _ | PRemoveAttribute _ _ | POpaqueChanged _ _ => True | _ => False end ->
       bap (a, sl) p = ((a, sl), Fail NotAnElement)) /\
    (forall q name v n, p = PSetAttribute q name v -> b_named root a sl q n -> (exists t l, node_kind a n = Some (NElem t l)) ->
       valid_attr (bname name) = false -> bap (a, sl) p = ((a, sl), Fail DomException)) /\
    (forall k to slot, p = PMove [k] to slot -> slot_get sl k = None -> bap (a, sl) p = ((a, sl), Fail (SlotNotFound k))) /\
    (forall at_ slot c, b_brought p = Some (at_, slot, c) ->
       (length at_ < 2 -> bap (a, sl) p = ((a, sl), Fail EmptyPath)) /\
       (forall q i e, at_ = (q ++ [i])%list -> q <> [] -> b_bad_path root a sl q e -> bap (a, sl) p = ((a, sl), Fail e)) /\
       (forall q i b, at_ = (q ++ [i])%list -> b_named root a sl q b -> (forall t l, node_kind a b <> Some (NElem t l)) ->
          bap (a, sl) p = ((a, sl), Fail NotAnElement))).
  Proof using Type.
    intros a sl p. split_and!.
    - intros q e Hq Hb. apply (proj1 (proj2 (browser_addressing root a sl q))) in Hb.
      destruct p as [| | |q'| | | |from to slot| |]; cbn [b_subject] in Hq; try done; try (injection Hq as ->; cbn [b_apply_patch]; unfold with_found; cbn [fst snd]; by rewrite Hb).
      + destruct q' as [|k rel]; [done|]. cbn [b_apply_patch].
        destruct (negb (Nat.eqb k 0) && Nat.eqb (length rel) 0); [done|]. injection Hq as <-. unfold with_found. cbn [fst snd]. by rewrite Hb.
      + destruct from as [|k [|i from]]; cbn in Hq; try done; injection Hq as <-; cbn [b_apply_patch]; by rewrite Hb.
    - intros q n Hq Hn Hk Hp. apply (proj1 (browser_addressing root a sl q)) in Hn.
      destruct p; try done; injection Hq as ->; cbn [b_apply_patch]; unfold with_found; cbn [fst snd]; rewrite Hn; unfold node_kind in *;
        destruct (data a n) as [[[|t l|s|s] ns]|]; try done; by edestruct Hk.
    - intros q name v n -> Hn (t & l & Hk) Hv. apply (proj1 (browser_addressing root a sl q)) in Hn.
      cbn [b_apply_patch]. unfold with_found. cbn [fst snd]. rewrite Hn. unfold node_kind in Hk.
      destruct (data a n) as [[[|t' l'|s|s] ns]|]; try done. unfold b_set_attr. by rewrite Hv.
    - intros k to slot -> Hs. cbn [b_apply_patch]. by rewrite Hs.
    - intros at_ slot c Hp. rewrite (b_insert_eq _ _ _ _ _ Hp). unfold b_insert.
      assert (forall (q : path) i, q <> [] -> Nat.ltb (length (q ++ [i])%list) 2 = false) as Hlen.
      { intros q i Hq0. apply Nat.ltb_ge. rewrite app_length. cbn. destruct q; [done|cbn; lia]. }
      split_and!.
      + intros Hl. by apply Nat.ltb_lt in Hl as ->.
      + intros q i e -> Hq0 Hb. rewrite (Hlen q i Hq0), removelast_last. unfold with_found. cbn [fst snd].
        apply (proj1 (proj2 (browser_addressing root a sl q))) in Hb. by rewrite Hb.
      + intros q i b -> Hb Hk. assert (q <> []) as Hq0 by (destruct Hb as (k & q' & r & -> & _); done).
        rewrite (Hlen q i Hq0), removelast_last. unfold with_found. cbn [fst snd].
        apply (proj1 (browser_addressing root a sl q)) in Hb. rewrite Hb. destruct (node_kind a b) as [[|t l|s|s]|]; try done. by edestruct Hk.
  Qed.

  (** ** Changes of content *)

  (** The text of an element: its children leave, one text takes their place, none
      if it is empty. *)
  Record retexted (a a' : arena dnode) (n : nat) (s : string) : Prop := {
    re_wf : wf a';
    re_children : s = "" /\ children a' n = [] \/
      s <> "" /\ exists x, children a' n = [x] /\ length a <= x /\ data a' x = Some (mkD (NText s) NsHtml) /\ children a' x = [];
    re_out : forall x, x ∈ children a n -> parent a' x = None;
    re_data : forall j, j < length a -> data a' j = data a j;
    re_other : forall j, j < length a -> j <> n -> children a' j = children a j;
    re_parent : forall j, j < length a -> j ∉ children a n -> parent a' j = parent a j
  }.

  Lemma detach_all_parent l : forall (a : arena dnode) j, wf a ->
    parent (detach_all a l) j = if bool_decide (j ∈ l) then None else parent a j.
  Proof using Type.
    unfold detach_all. induction l as [|x l IH]; intros a j W; cbn [fold_left].
    - by rewrite bool_decide_eq_false_2 by apply not_elem_of_nil.
    - destruct (detach_full a x W) as [W1 _ _ _ P1]. rewrite (IH (detach a x) j W1), P1.
      destruct (Nat.eqb_spec j x) as [->|Hj].
      + rewrite (bool_decide_eq_true_2 (x ∈ x :: l)) by left. by destruct (bool_decide _).
      + destruct (decide (j ∈ l)); [rewrite !bool_decide_eq_true_2; try done; by right|].
        rewrite !bool_decide_eq_false_2; try done. rewrite elem_of_cons. tauto.
  Qed.

  Lemma set_text_element a n s t l ns : wf a -> data a n = Some (mkD (NElem t l) ns) ->
    exists a', set_text_content a n s = Val a' /\ retexted a a' n s.
  Proof using Type.
    intros W Hd. assert (n < length a) as Hn.
    { destruct (Nat.lt_ge_cases n (length a)) as [|Hge]; [done|]. unfold data in Hd. by rewrite lookup_ge_None_2 in Hd. }
    unfold set_text_content, node_kind. rewrite Hd. cbn [d_kind].
    destruct (detach_all_full (children a n) a W) as (W1 & L1 & D1 & C1 & S1).
    pose proof (fun j => detach_all_parent (children a n) a j W) as P1.
    set (a1 := detach_all a (children a n)) in *.
    assert (children a1 n = []) as E1.
    { destruct (children a1 n) as [|x k] eqn:E; [done|]. exfalso.
      assert (x ∈ children a1 n) as Hx by (rewrite E; left). apply C1 in Hx. naive_solver. }
    assert (forall j, j <> n -> children a1 j = children a j) as S2.
    { intros j Hj. apply S1. intros x Hx Hx'. apply Hj. apply (wf_pc a W) in Hx, Hx'. congruence. }
    destruct (String.eqb_spec s "") as [->|Hs].
    - exists a1. split; [done|]. split; [done|by left|..].
      + intros x Hx. rewrite P1. by rewrite bool_decide_eq_true_2.
      + intros j _. apply D1.
      + intros j _. apply S2.
      + intros j _ Hj. rewrite P1. by rewrite bool_decide_eq_false_2.
    - destruct (new_node_full a1 (text_node s) W1) as (W2 & L2 & P2 & C2 & D2 & Cj & Pj & Dj).
      pose proof (extends_new a1 (text_node s) W1) as X.
      destruct (new_node a1 (text_node s)) as [a2 i] eqn:En. cbn [fst] in *.
      assert (i = length a1) as -> by (unfold new_node in En; by injection En).
      destruct (append_full a2 n (length a1)) as (a3 & E3 & [W3 L3 D3 C3 P3]); [done|lia|lia|done| |].
      { apply (extends_not_above a1 a2); [done|done|lia|lia]. }
      unfold dom_append. rewrite E3. exists a3. split; [done|]. split; [done|..].
      + right. split; [done|]. exists (length a1). split; [by rewrite C3, Nat.eqb_refl, Cj, E1|]. split; [lia|].
        split; [by rewrite D3|]. rewrite C3. destruct (Nat.eqb_spec (length a1) n); [lia|]. done.
      + intros x Hx. assert (x < length a) by (by eapply wf_child_lt). rewrite P3. destruct (Nat.eqb_spec x (length a1)); [lia|].
        rewrite Pj, P1. by rewrite bool_decide_eq_true_2.
      + intros j Hj. rewrite D3, Dj by lia. apply D1.
      + intros j Hj Hjn. rewrite C3. destruct (Nat.eqb_spec j n); [done|]. rewrite Cj. by apply S2.
      + intros j Hj Hjn. rewrite P3. destruct (Nat.eqb_spec j (length a1)); [lia|]. rewrite Pj, P1. by rewrite bool_decide_eq_false_2.
  Qed.

  (** The value that an update gives to a name. *)
  Definition b_value (old : attrs) (c : prop_change) (q : qname) : string :=
    match pc_value c with
    | Some v => v
    | None => match last_value (bname_up q) old with Some v => v | None => "" end
    end.

  Lemma set_changes_ok ns ex cs : forall l, (exists l', b_set_changes valid_attr ns ex l cs = (l', true)) <->
    (forall c q, c ∈ cs -> pc_name c = PAttr q -> valid_attr (bname_up q) = true).
  Proof using Type.
    induction cs as [|c cs IH]; intros l; cbn [b_set_changes].
    - split; [intros _ c q Hc; by apply elem_of_nil in Hc|]. intros _. eauto.
    - destruct (pc_name c) as [|q] eqn:En.
      + rewrite IH. split; intros H c' q' Hc' Hq'; [apply elem_of_cons in Hc' as [->|Hc']; [congruence|by eapply H]|eapply H; [by right|done]].
      + unfold b_set_attr. destruct (valid_attr (bname_up q)) eqn:Ev.
        * rewrite IH. split; intros H c' q' Hc' Hq'; [apply elem_of_cons in Hc' as [->|Hc']; [congruence|by eapply H]|eapply H; [by right|done]].
        * split; [by intros (? & ?)|]. intros H. exfalso. rewrite (H c q) in Ev; [done|left|done].
  Qed.

  Lemma set_changes_keep ns ex cs k v : forall l l', b_set_changes valid_attr ns ex l cs = (l', true) ->
    (forall c q, c ∈ cs -> pc_name c = PAttr q -> flat (in_case ns (bname_up q)) <> k) -> attr_get k l = Some v -> attr_get k l' = Some v.
  Proof using Type.
    induction cs as [|c cs IH]; intros l l' E Hne Hk; cbn [b_set_changes] in E.
    - by injection E as <-.
    - destruct (pc_name c) as [|q] eqn:En.
      + eapply IH; [done| |done]. intros c' q' Hc'. apply Hne. by right.
      + unfold b_set_attr in E. destruct (valid_attr (bname_up q)); [|done].
        eapply IH; [done|intros c' q' Hc'; apply Hne; by right|]. rewrite attr_get_set_other; [done|].
        intros Hq. by apply (Hne c q); [left|done|].
  Qed.

  Lemma set_changes_get ns ex cs : forall l l', b_set_changes valid_attr ns ex l cs = (l', true) ->
    forall pre c post q, cs = (pre ++ c :: post)%list -> pc_name c = PAttr q ->
    (forall d r, d ∈ post -> pc_name d = PAttr r -> in_case ns (bname_up r) <> in_case ns (bname_up q)) ->
    attr_get (flat (in_case ns (bname_up q))) l' = Some (b_value ex c q).
  Proof using Type.
    induction cs as [|c0 cs IH]; intros l l' E pre c post q Hcs Hc Hlast; [by destruct pre|].
    destruct pre as [|x pre]; injection Hcs as -> ->.
    - cbn [b_set_changes] in E. rewrite Hc in E. unfold b_set_attr in E. destruct (valid_attr (bname_up q)); [|done].
      eapply set_changes_keep; [done| |apply attr_get_set_same]. intros d r Hd Hr Heq. injection Heq as Heq. by eapply Hlast.
    - cbn [b_set_changes] in E. destruct (pc_name x) as [|q'] eqn:En; [by eapply IH|].
      unfold b_set_attr in E. destruct (valid_attr (bname_up q')); [|done]. by eapply IH.
  Qed.

  Lemma set_changes_keys ns ex cs : forall l l', b_set_changes valid_attr ns ex l cs = (l', true) ->
    forall k, k ∈ keys l' -> k ∈ keys l \/ exists c q, c ∈ cs /\ pc_name c = PAttr q /\ k = flat (in_case ns (bname_up q)).
  Proof using Type.
    induction cs as [|c cs IH]; intros l l' E k Hk; cbn [b_set_changes] in E; [injection E as <-; by left|].
    destruct (pc_name c) as [|q] eqn:En.
    - destruct (IH _ _ E k Hk) as [|(c' & q & Hc & ?)]; [by left|]. right. exists c', q. split; [by right|done].
    - unfold b_set_attr in E. destruct (valid_attr (bname_up q)); [|done].
      destruct (IH _ _ E k Hk) as [Hl|(c' & q' & Hc & ?)].
      + apply keys_attr_set in Hl as [Hl| ->]; [by left|]. right. exists c, q. split; [left|done].
      + right. exists c', q'. split; [by right|done].
  Qed.

  Lemma find_text cs : (forall v, ~ text_given cs (Some v)) ->
    match find (fun c => match pc_name c with PText => true | PAttr _ => false end) cs with Some c => pc_value c | None => None end = None.
  Proof using Type.
    intros Hg. pose proof (find_text_given cs) as Hf. destruct (find _ cs) as [c|]; [|done].
    destruct (pc_value c) as [v|]; [|done]. by apply Hg in Hf.
  Qed.

  Lemma find_text_some cs v : text_given cs (Some v) ->
    exists c, find (fun c => match pc_name c with PText => true | PAttr _ => false end) cs = Some c /\ pc_value c = Some v.
  Proof using Type.
    intros Hg. pose proof (find_text_given cs) as Hf. destruct (find _ cs) as [c|]; [|by apply Hf in Hg].
    exists c. split; [done|]. by eapply text_given_unique.
  Qed.

  (** C74: patches that change the content of one node. *)
  Theorem browser_content : forall a sl q n k ns,
    wf a -> b_named root a sl q n -> data a n = Some (mkD k ns) ->
    (forall s s0, k = NText s0 -> exists a', bap (a, sl) (PSetText q s) = ((a', sl), Val tt) /\ only_content a a' n (mkD (NText s) ns)) /\
    (forall s s0, k = NComment s0 -> exists a', bap (a, sl) (PSetText q s) = ((a', sl), Val tt) /\ only_content a a' n (mkD (NComment s) ns)) /\
    (forall s t l, k = NElem t l -> exists a', bap (a, sl) (PSetText q s) = ((a', sl), Val tt) /\ retexted a a' n s) /\
    (forall name v t l, k = NElem t l -> valid_attr (bname name) = true ->
       exists a' l', bap (a, sl) (PSetAttribute q name v) = ((a', sl), Val tt) /\ only_content a a' n (mkD (NElem t l') ns) /\
         attr_get (flat (in_case ns (bname name))) l' = Some v /\
         (forall q', q' <> flat (in_case ns (bname name)) -> attr_get q' l' = attr_get q' l) /\
         map fst l' = if existsb (qname_eqb (flat (in_case ns (bname name)))) (map fst l) then map fst l
                      else (map fst l ++ [flat (in_case ns (bname name))])%list) /\
    (forall name t l, k = NElem t l -> exists a' l', bap (a, sl) (PRemoveAttribute q name) = ((a', sl), Val tt) /\
       only_content a a' n (mkD (NElem t l') ns) /\ dropped (in_case ns (bname name)) l l') /\
    (forall s t l, k = NElem t l -> bap (a, sl) (POpaqueChanged q s) = ((a, sl), Val tt)) /\
    (forall cs v s0, k = NText s0 -> text_given cs (Some v) ->
       exists a', bap (a, sl) (PUpdateProps q cs) = ((a', sl), Val tt) /\ only_content a a' n (mkD (NText v) ns)) /\
    (forall cs v s0, k = NComment s0 -> text_given cs (Some v) ->
       exists a', bap (a, sl) (PUpdateProps q cs) = ((a', sl), Val tt) /\ only_content a a' n (mkD (NComment v) ns)) /\
    (forall cs, (forall t l, k <> NElem t l) -> (forall v, ~ text_given cs (Some v)) ->
       bap (a, sl) (PUpdateProps q cs) = ((a, sl), Val tt)).
  Proof using Type.
    intros a sl q n k ns W Hn Hd. apply (proj1 (browser_addressing root a sl q)) in Hn.
    assert (node_kind a n = Some k) as Hk by (unfold node_kind; by rewrite Hd).
    assert (forall k', only_content a (set_kind a n k') n (mkD k' ns)) as Ho.
    { intros k'. split; [apply len_set_kind|]. split; [by rewrite (set_kind_data a n _ _ _ Hd), Nat.eqb_refl|].
      split; [|split; intros j; [apply parent_set_kind|apply children_set_kind]].
      intros j Hj. rewrite (set_kind_data a n _ _ _ Hd). by destruct (Nat.eqb_spec j n). }
    cbn [b_apply_patch]. unfold with_found. cbn [fst snd]. rewrite Hn. split_and!.
    - intros s s0 ->. unfold set_text_content. rewrite Hk. cbn. eauto.
    - intros s s0 ->. unfold set_text_content. rewrite Hk. cbn. eauto.
    - intros s t l ->. destruct (set_text_element a n s t l ns W Hd) as (a' & E & R). rewrite E. exists a'. done.
    - intros name v t l -> Hv. rewrite Hd. unfold b_set_attr. rewrite Hv. eexists _, _. split; [done|]. split; [apply Ho|].
      split; [apply attr_get_set_same|]. split.
      + intros q' Hne. apply attr_get_set_other. congruence.
      + destruct (existsb _ (map fst l)) eqn:Ex.
        * apply existsb_qname in Ex. by apply keys_attr_set_in.
        * rewrite AttrProofs.attr_set_notin; [by rewrite map_app|]. intros Hin. apply existsb_qname in Hin. unfold keys in Hin. congruence.
    - intros name t l ->. rewrite Hd. eexists _, _. split; [done|]. split; [apply Ho|]. apply attr_drop_dropped.
    - intros s t l ->. by rewrite Hk.
    - intros cs v s0 -> Hg. destruct (find_text_some cs v Hg) as (c & Ef & Ev). rewrite Ef, Ev. unfold set_text_content. rewrite Hk.
      pose proof (Ho (NText v)) as (_ & Hdn & _). rewrite Hdn. eauto.
    - intros cs v s0 -> Hg. destruct (find_text_some cs v Hg) as (c & Ef & Ev). rewrite Ef, Ev. unfold set_text_content. rewrite Hk.
      pose proof (Ho (NComment v)) as (_ & Hdn & _). rewrite Hdn. eauto.
    - intros cs He Hg. pose proof (find_text cs Hg) as Hf.
      assert (match data a n with Some (mkD (NElem _ _) _) => False | _ => True end) as Hne.
      { rewrite Hd. destruct k; try done. by edestruct He. }
      destruct (find _ cs) as [c|]; [rewrite Hf|]; destruct (data a n) as [[[] ?]|]; done.
  Qed.

  (** C74: an update of an element's attributes succeeds when the DOM takes the
      names.  Each name has the value of its last change: the given one, or else the
      last old one of that name.  Attributes that were stored in the element's case,
      no name twice, and are not named are gone. *)
  Theorem browser_update : forall a sl q n t l ns cs,
    b_named root a sl q n -> data a n = Some (mkD (NElem t l) ns) -> (forall v, ~ text_given cs (Some v)) ->
    exists a' l' r, bap (a, sl) (PUpdateProps q cs) = ((a', sl), r) /\ only_content a a' n (mkD (NElem t l') ns) /\
      (r = Val tt \/ r = Fail DomException) /\
      (r = Val tt <-> forall c p, c ∈ cs -> pc_name c = PAttr p -> valid_attr (bname_up p) = true) /\
      (r = Val tt -> forall pre c post p, cs = (pre ++ c :: post)%list -> pc_name c = PAttr p ->
         (forall d p', d ∈ post -> pc_name d = PAttr p' -> in_case ns (bname_up p') <> in_case ns (bname_up p)) ->
         attr_get (flat (in_case ns (bname_up p))) l' = Some (b_value l c p)) /\
      (r = Val tt -> NoDup (map fst l) -> (forall x, x ∈ map fst l -> x = flat (in_case ns (q_local x))) ->
         forall x, x ∈ map fst l' -> exists c p, c ∈ cs /\ pc_name c = PAttr p /\ x = flat (in_case ns (bname_up p))).
  Proof using Type.
    intros a sl q n t l ns cs Hn Hd Hg. apply (proj1 (browser_addressing root a sl q)) in Hn.
    assert (forall k', only_content a (set_kind a n k') n (mkD k' ns)) as Ho.
    { intros k'. split; [apply len_set_kind|]. split; [by rewrite (set_kind_data a n _ _ _ Hd), Nat.eqb_refl|].
      split; [|split; intros j; [apply parent_set_kind|apply children_set_kind]].
      intros j Hj. rewrite (set_kind_data a n _ _ _ Hd). by destruct (Nat.eqb_spec j n). }
    assert (bap (a, sl) (PUpdateProps q cs) =
      let '(l', ok) := b_set_changes valid_attr ns l (b_clear ns l) cs in
      ((set_kind a n (NElem t l'), sl), if ok then Val tt else Fail DomException)) as ->.
    { cbn [b_apply_patch]. unfold with_found. cbn [fst snd]. rewrite Hn. pose proof (find_text cs Hg) as Hf.
      destruct (find _ cs) as [c|]; [rewrite Hf|]; by rewrite Hd. }
    destruct (b_set_changes valid_attr ns l (b_clear ns l) cs) as [l' ok] eqn:E.
    pose proof (set_changes_ok ns l cs (b_clear ns l)) as Hok. rewrite E in Hok.
    exists (set_kind a n (NElem t l')), l', (if ok then Val tt else Fail DomException). split; [done|]. split; [apply Ho|].
    split; [destruct ok; tauto|]. split; [|split].
    - rewrite <- Hok. destruct ok; [split; [eauto|done]|]. split; [done|]. intros (? & ?). congruence.
    - intros Hr. destruct ok; [|done]. intros pre c post p Hcs Hc Hlast. by eapply set_changes_get.
    - intros Hr Hnd Hst x Hx. destruct ok; [|done].
      assert (b_clear ns l = []) as Hcl.
      { unfold b_clear. assert (nodup string_dec (map (fun kv => q_local (fst kv)) l) = map (fun kv => q_local (fst kv)) l) as ->.
        { apply nodup_fixed_point. apply NoDup_ListNoDup.
          clear - Hnd Hst. induction l as [|[k v] l IH]; cbn; [constructor|]. cbn in Hnd, Hst. apply NoDup_cons in Hnd as [Hk Hnd].
          constructor; [|apply IH; [done|]; intros x Hx; apply Hst; by right].
          intros Hin. apply Hk. apply elem_of_list_fmap in Hin as ([k' v'] & Ek & Hin). cbn in Ek.
          apply elem_of_list_fmap. exists (k', v'). split; [|done]. cbn.
          rewrite (Hst k) by left. rewrite (Hst k'); [by rewrite Ek|]. right. apply elem_of_list_fmap. by exists (k', v'). }
        clear - Hst. induction l as [|[k v] l IH]; [done|].
        change (fold_left (b_remove_attr ns) (map (fun kv => q_local (fst kv)) l) (b_remove_attr ns ((k, v) :: l) (q_local k)) = []).
        assert (b_remove_attr ns ((k, v) :: l) (q_local k) = l) as ->.
        { unfold b_remove_attr. rewrite <- (Hst k) by (cbn; left). cbn. by rewrite (proj2 (qname_eqb_eq k k) eq_refl). }
        apply IH. intros x Hx. apply Hst. by right. }
      destruct (set_changes_keys _ _ _ _ _ E x Hx) as [Hin|]; [|done]. rewrite Hcl in Hin. by apply elem_of_nil in Hin.
  Qed.
End Browser.
Print Assumptions browser_refused.
Print Assumptions browser_insert.
Print Assumptions browser_insert_shown.
Print Assumptions browser_remove.
Print Assumptions browser_move.
Print Assumptions browser_move_below.
Print Assumptions browser_content.
Print Assumptions browser_update.

(** The page of [PropPatch.ex_named] in a browser whose DOM rejects names with an at sign. *)
Definition bex (sl : slots) (p : patch) : option string * slots * outcome unit :=
  let '((a, sl'), r) := b_apply_patch no_at no_at no_parser 2 (doc_arena ex_old, sl) p in
  (to_body_html (mkDoc a 0 None), sl', r).

Example browser_patch_example :
  wf (doc_arena ex_old) /\ slots_ok (doc_arena ex_old) [(1, 11)] /\
  b_named 2 (doc_arena ex_old) [(1, 11)] [0; 1] 7 /\ b_named 2 (doc_arena ex_old) [(1, 11)] [1; 0] 12 /\
  b_bad_path 2 (doc_arena ex_old) [(1, 11)] [0; 1; 7; 3] (PathOutOfBounds 7) /\
  b_bad_path 2 (doc_arena ex_old) [(1, 11)] [4; 1] (SlotNotFound 4) /\
  bex [] (PSetText [0; 1] "x") = (Some "<p>one</p><div id=""x"">x</div><i>gone</i>", [], Val tt) /\
  bex [] (PRemove [0; 1]) = (Some "<p>one</p><i>gone</i>", [], Val tt) /\
  bex [] (PInsertElement [0; 1] "u" [] [ICText "n"] (Some 3)) = (Some "<p>one</p><u>n</u><i>gone</i>", [(3, 7)], Val tt) /\
  bex [] (PMove [0; 2] [0; 1; 0] None) = (Some "<p>one</p><div id=""x""><i>gone</i>three</div>", [], Val tt) /\
  bex [] (PSetAttribute [0; 1] (mkQ None "" "@a") "v") = (Some "<p>one</p><div id=""x""><b>two</b>three</div><i>gone</i>", [], Fail DomException) /\
  bex [] (PUpdateProps [0; 1] [mkPC (PAttr (mkQ None "" "Class")) (Some "k"); mkPC (PAttr (mkQ None "" "id")) None]) =
    (Some "<p>one</p><div class=""k"" id=""x""><b>two</b>three</div><i>gone</i>", [], Val tt) /\
  bex [] (PRemove [9; 1]) = (Some "<p>one</p><div id=""x""><b>two</b>three</div><i>gone</i>", [], Fail (SlotNotFound 9)).
Proof.
  split_and!; try (vm_compute; reflexivity).
  - apply mk_doc_ok.
  - intros k v H. cbn [slot_get] in H. destruct (Nat.eqb 1 k); [|done]. injection H as <-. vm_compute. lia.
  - apply (proj1 (browser_addressing _ _ _ _)). vm_compute. reflexivity.
  - apply (proj1 (browser_addressing _ _ _ _)). vm_compute. reflexivity.
  - apply (proj1 (proj2 (browser_addressing _ _ _ _))). vm_compute. reflexivity.
  - apply (proj1 (proj2 (browser_addressing _ _ _ _))). vm_compute. reflexivity.
Qed.

(** A move out of slot 1 into slot 1's own node, named through slot 2. *)
Example browser_move_below_example :
  let a := doc_arena ex_old in
  b_named 2 a (List.filter (fun e => negb (Nat.eqb (fst e) 1)) [(1, 7); (2, 7)]) [2; 0] 8 /\
  node_kind a 8 = Some (NElem "b" []) /\ above a 7 8 /\
  snd (bex [(1, 7); (2, 7)] (PMove [1] [2; 0; 0] None)) = Fail DomException.
Proof.
  cbv zeta. split_and!; try (vm_compute; reflexivity).
  - apply (proj1 (browser_addressing _ _ _ _)). vm_compute. reflexivity.
  - exists [7; 2; 0]. split; [|right; left]. do 3 (econstructor; [vm_compute; reflexivity|]). constructor. vm_compute. reflexivity.
Qed.

(** F46: on a patch that the diff never makes, the two appliers differ also in
    whether they refuse: [SetText] of an element is an error natively, the browser
    replaces the element's children. *)
Theorem set_text_element_refuted : exists a sl root q s a1 a2,
  wf a /\ slots_ok a sl /\ slot_get sl 0 = Some root /\
  apply_patch no_parser (a, sl) (PSetText q s) = ((a1, sl), Fail NotATextNode) /\
  b_apply_patch no_at no_at no_parser root (a, sl) (PSetText q s) = ((a2, sl), Val tt) /\
  serialize_inner_html a1 root <> serialize_inner_html a2 root.
Proof.
  exists (doc_arena ex_old), [(0, 2)], 2, [0; 1], "x". eexists _, _. destruct ex_named as (W & S & _).
  split; [exact W|]. split; [exact S|]. split; [done|]. split; [vm_compute; reflexivity|]. split; [vm_compute; reflexivity|].
  vm_compute. discriminate.
Qed.
Print Assumptions set_text_element_refuted.
