(** What the simulation needs of a program that applies patches: enough for the
    patches that [diff_body_nodes] makes, and true both of the native applier
    (dom.rs:493-700) and of the browser's (hotmeal-wasm/src/lib.rs:358-640). *)
From stdpp Require Import list_numbers.
From Verif Require Import Base Arena Matching Chawathe Dom HtmlDiff
  AttrProofs ArenaProofs ArenaOps TreeProofs DomTree ApplyProofs ShadowProofs SimProofs.

(** How a program stores the attributes of an element ([va]). *)
Definition vkind (va : attrs -> attrs) (k : nkind) : nkind :=
  match k with NElem tag ats => NElem tag (va ats) | _ => k end.

Definition okk (okn : string -> attrs -> Prop) (k : nkind) : Prop :=
  match k with NElem tag ats => okn tag ats | NDocument => False | _ => True end.

Lemma elemk_vkind va k : elemk (vkind va k) <-> elemk k.
Proof. by destruct k. Qed.

Lemma contk_tag {OQ : opaques} tag tag' l : contk (NElem tag l) -> contk (NElem tag' l).
Proof. done. Qed.

Lemma vkind_id k : vkind (fun l => l) k = k.
Proof. by destruct k. Qed.

(** The patch that inserts a node without children. *)
Definition mk_insert (k : nkind) (at_ : path) (slot : option nat) : patch :=
  match k with
  | NElem tag ats => PInsertElement at_ tag ats [] slot
  | NText s => PInsertText at_ s slot
  | NComment s => PInsertComment at_ s slot
  | NDocument => PInsertText at_ "" slot
  end.

Definition slot_fits {OQ : opaques} (a : arena dnode) (p pos : nat) (slot : option nat) : Prop :=
  match slot with
  | Some k => k <> 0 /\ pos < length (children a p)
  | None => tight = true -> length (children a p) <= pos
  end.

(** [n] was put at position [pos] of [p]. *)
Definition places (a : arena dnode) (sl : slots) (n p pos : nat) (slot : option nat)
    (a' : arena dnode) (sl' : slots) : Prop :=
  match slot with
  | Some k => exists d, children a p !! pos = Some d /\ dtook a a' p pos n d /\ sl' = slot_set sl k d
  | None => (exists k, dgrew k a a' p pos n) /\ sl' = sl
  end.

Definition is_cont {OQ : opaques} (a : arena dnode) (i : nat) : Prop :=
  exists k, node_kind a i = Some k /\ contk k.

Lemma is_cont_kind {OQ : opaques} a i : is_cont a i -> exists tag l, node_kind a i = Some (NElem tag l).
Proof. intros ([] & Hk & He); try done. eauto. Qed.

Definition can_put {OQ : opaques} (a : arena dnode) (sl : slots) (n : nat) (at_ : path) (slot : option nat)
    (p pos : nat) : Prop :=
  get_slot_parent a sl at_ = Val (p, pos) /\ p < length a /\ is_cont a p /\
  n < length a /\ parent a n = None /\ ~ above a n p /\ slot_fits a p pos slot.

(** The same slots, except that slot [k] may be gone. *)
Definition slots_less (k : nat) (sl1 sl : slots) : Prop :=
  (forall j, j <> k -> slot_get sl1 j = slot_get sl j) /\
  (forall j r, slot_get sl1 j = Some r -> slot_get sl j = Some r).

(** [shw st (a, sl)]: the state [st] of the program shows the document [a]
    and the slots [sl] (for programs without opaque elements, it is that state).  *)
Record applier {OQ : opaques} (va : attrs -> attrs) (okn : string -> attrs -> Prop)
    (shw : pstate -> pstate -> Prop) (ap : pstate -> patch -> presult) : Prop := {
  ap_insert : forall st a sl k, shw st (a, sl) -> wf a -> okk okn k ->
    exists d, d_kind d = vkind va k /\ forall at_ slot p pos,
      can_put (fst (new_node a d)) sl (length a) at_ slot p pos ->
      exists st' a' sl', ap st (mk_insert k at_ slot) = (st', Val tt) /\ shw st' (a', sl') /\
        places (fst (new_node a d)) sl (length a) p pos slot a' sl';
  ap_move_inner : forall st a sl from n q, shw st (a, sl) -> wf a -> 1 < length from ->
    navigate_slot_path a sl from = Val n -> parent a n = Some q -> is_cont a q ->
    exists a1, replaced a a1 n (text_node "") /\ forall to slot p pos,
      can_put a1 sl n to slot p pos ->
      exists st' a' sl', ap st (PMove from to slot) = (st', Val tt) /\ shw st' (a', sl') /\
        places a1 sl n p pos slot a' sl';
  ap_move_slot : forall st a sl k n, shw st (a, sl) -> wf a -> k <> 0 -> slot_get sl k = Some n ->
    parent a n = None ->
    exists sl1, slots_less k sl1 sl /\ forall to slot p pos,
      can_put a sl1 n to slot p pos ->
      exists st' a' sl', ap st (PMove [k] to slot) = (st', Val tt) /\ shw st' (a', sl') /\
        places a sl1 n p pos slot a' sl';
  ap_remove_inner : forall st a sl q n p, shw st (a, sl) -> wf a -> 1 < length q ->
    navigate_slot_path a sl q = Val n -> parent a n = Some p -> is_cont a p ->
    exists st' a1, replaced a a1 n (text_node "") /\ ap st (PRemove q) = (st', Val tt) /\ shw st' (a1, sl);
  ap_remove_slot : forall st a sl k n, shw st (a, sl) -> wf a -> k <> 0 -> slot_get sl k = Some n ->
    n < length a -> parent a n = None ->
    exists st' a1 sl1, kept a a1 /\ slots_less k sl1 sl /\
      ap st (PRemove [k]) = (st', Val tt) /\ shw st' (a1, sl1);
  ap_update : forall st a sl q n tag l0 l l', shw st (a, sl) -> wf a -> navigate_slot_path a sl q = Val n ->
    node_kind a n = Some (NElem tag l0) -> (exists tag', okn tag' l) -> (exists tag', okn tag' l') ->
    NoDup (keys l) -> NoDup (keys l') ->
    opq l0 = opq (va l') -> (l0 = va l \/ opq l0 = false) ->
    (tight = true -> l0 = va l \/ l = [] /\ q = [0]) ->
    exists st' L, ap st (PUpdateProps q (props_diff l l')) = (st', Val tt) /\
      shw st' (set_kind a n (NElem tag L), sl) /\ (l0 = va l -> L = va l') /\ opq L = opq l0 /\
      (forall k, k ∈ keys L -> k ∈ keys l0 \/ k ∈ keys (va l'));
  ap_text : forall st a sl q n s s', shw st (a, sl) -> wf a -> navigate_slot_path a sl q = Val n ->
    node_kind a n = Some (NText s') ->
    exists st', ap st (PSetText q s) = (st', Val tt) /\ shw st' (set_kind a n (NText s), sl);
  ap_comment : forall st a sl q n s s', shw st (a, sl) -> wf a -> navigate_slot_path a sl q = Val n ->
    node_kind a n = Some (NComment s') ->
    exists st', ap st (PSetText q s) = (st', Val tt) /\ shw st' (set_kind a n (NComment s), sl)
}.

(** Applying patches one after another, stopping at the first error. *)
Fixpoint run_all (ap : pstate -> patch -> presult) (st : pstate) (ps : list patch) : presult :=
  match ps with
  | [] => (st, Val tt)
  | p :: ps' =>
      match ap st p with
      | (st', Val tt) => run_all ap st' ps'
      | r => r
      end
  end.

Lemma run_all_native parse ps : forall st, run_all (apply_patch parse) st ps = apply_all parse st ps.
Proof.
  induction ps as [|p ps IH]; intros st; simpl; [done|].
  destruct (apply_patch parse st p) as [st' [[]| | |]]; [apply IH|done|done|done].
Qed.

Lemma run_all_app ap ps qs : forall st,
  run_all ap st (ps ++ qs) =
  match run_all ap st ps with (st', Val tt) => run_all ap st' qs | r => r end.
Proof.
  induction ps as [|p ps IH]; intros st; simpl; [done|].
  destruct (ap st p) as [st' [[]| | |]]; [apply IH|done|done|done].
Qed.

(** ** The native applier *)

Lemma native_put {OQ : opaques} a sl n at_ slot p pos :
  wf a -> can_put a sl n at_ slot p pos ->
  exists a' sl', insert_at a sl at_ n slot = ((a', sl'), Val tt) /\ places a sl n p pos slot a' sl'.
Proof.
  intros W (Hg & Hp & _ & Hn & Ho & Hna & Hs). destruct slot as [k|].
  - destruct Hs as [_ Hlt]. destruct (lookup_lt_is_Some_2 _ _ Hlt) as [d Hd].
    destruct (insert_at_some a sl at_ n k p pos d Hg Hd W Hn Ho Hna) as (a' & E & T).
    exists a', (slot_set sl k d). split; [done|]. by exists d.
  - destruct (insert_at_none a sl at_ n p pos Hg W Hp Hn Ho Hna) as (a' & E & T).
    exists a', sl. split; [done|]. split; [by exists 0|done].
Qed.

Theorem native_applier parse : applier (OQ := no_opaques) (fun l => l) (fun _ _ => True) (=) (apply_patch parse).
Proof.
  split.
  - intros st a sl k -> W Hk. exists (mkD k NsHtml). split; [by rewrite vkind_id|].
    intros at_ slot p pos Hc. destruct (new_node_full a (mkD k NsHtml) W) as (W1 & _).
    destruct (native_put _ _ _ _ _ _ _ W1 Hc) as (a' & sl' & E & P). exists (a', sl'), a', sl'. split; [|done].
    by destruct k.
  - intros st a sl from n q -> W Hl Hn Hq _.
    destruct (replace_leaf_full a n (text_node "") W) as (a1 & E1 & R).
    { by eapply parent_lt. }
    exists a1. split; [done|]. intros to slot p pos Hc.
    destruct (native_put _ _ _ _ _ _ _ (rp_wf _ _ _ _ R) Hc) as (a' & sl' & E & P). exists (a', sl'), a', sl'.
    split; [|done]. unfold apply_patch, with_node. cbn [fst snd]. rewrite Hn.
    destruct (Nat.ltb_spec 1 (length from)); [|lia].
    change (replace_by_empty a n) with (replace_leaf a n (text_node "")). by rewrite E1.
  - intros st a sl k n -> W Hk Hg Ho. exists sl. split; [done|]. intros to slot p pos Hc.
    destruct (native_put _ _ _ _ _ _ _ W Hc) as (a' & sl' & E & P). exists (a', sl'), a', sl'. split; [|done].
    unfold apply_patch, with_node. cbn [fst snd navigate_slot_path]. rewrite Hg. cbn [navigate].
    cbn [length Nat.ltb Nat.leb]. by rewrite detach_orphan.
  - intros st a sl q n p -> W Hl Hn Hq _.
    destruct (replace_leaf_full a n (text_node "") W) as (a1 & E1 & R).
    { by eapply parent_lt. }
    exists (a1, sl), a1. split; [done|]. split; [|done]. unfold apply_patch, with_node. cbn [fst snd]. rewrite Hn.
    change (replace_by_empty a n) with (replace_leaf a n (text_node "")). by rewrite E1.
  - intros st a sl k n -> W Hk Hg Hlt Ho.
    destruct (replace_leaf_full a n (text_node "") W Hlt) as (a1 & E1 & R).
    exists (a1, sl), a1, sl. split; [by eapply kept_replaced|]. split; [done|]. split; [|done].
    unfold apply_patch, with_node. cbn [fst snd navigate_slot_path]. rewrite Hg. cbn [navigate].
    change (replace_by_empty a n) with (replace_leaf a n (text_node "")). by rewrite E1.
  - intros st a sl q n tag l0 l l' -> W Hn Hk _ _ N1 N2 _ _ _. eexists _, _. split; [|split; [reflexivity|]].
    + unfold apply_patch, with_node. cbn [fst snd]. rewrite Hn, Hk. reflexivity.
    + split; [intros ->; by apply rebuild_props_diff|]. split; [done|]. intros k Hk'. right.
      unfold props_diff in Hk'. revert Hk'. generalize false at 1. generalize (order_differs l l'). clear.
      induction l' as [|[q v] l' IH]; intros od forced; [done|]. unfold rebuild_attrs, keys in *.
      cbn [props_diff_loop flat_map pc_name app map fst]. intros Hin. apply elem_of_cons in Hin as [->|Hin]; [left|].
      right. by apply IH in Hin.
  - intros st a sl q n s s' -> _ Hn Hk. eexists. split; [|reflexivity].
    unfold apply_patch, with_node. cbn [fst snd]. by rewrite Hn, Hk.
  - intros st a sl q n s s' -> _ Hn Hk. eexists. split; [|reflexivity].
    unfold apply_patch, with_node. cbn [fst snd]. by rewrite Hn, Hk.
Qed.
