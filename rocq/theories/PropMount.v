(** Property theorems on the browser client: C52 (slot table), C53 (mount point),
    C54 (lost connections), C55 (reconnection). *)
From stdpp Require Import list_numbers.
From Verif Require Import Base Arena Matching Chawathe Dom HtmlDiff Server ServerProofs
  ArenaProofs ArenaOps TreeProofs DtreeProofs MatchProofs DomTree FrameProofs ConvProofs RoundProofs AssembleProofs
  NestProofs Instances InstanceProofs HashProofs PropMatch PropFrame PropRoundtrip PropServer
  Browser BrowserProofs BrowserFrame PropBrowser PropClient Wire WireProofs PropWire PayloadProofs PropPayload
  LiveClient MountProofs.
Local Open Scope string_scope.

(** ** C52: the slot table *)

Inductive slot_op := SStore (k n : nat) | STake (k : nat).
Definition vs_do (v : vslots) (o : slot_op) : vslots :=
  match o with SStore k n => vs_store v k n | STake k => fst (vs_take v k) end.
(** What slot [k] has after the operations, latest first: what was stored last,
    unless it was taken since. *)
Fixpoint last_stored (k : nat) (rev_ops : list slot_op) : option nat :=
  match rev_ops with
  | [] => None
  | SStore j n :: l => if Nat.eqb j k then Some n else last_stored k l
  | STake j :: l => if Nat.eqb j k then None else last_stored k l
  end.

Lemma vs_get_store v k n j : vs_get (vs_store v k n) j = if Nat.eqb k j then Some n else vs_get v j.
Proof.
  unfold vs_get, vs_store, vslots in *. set (v1 := if Nat.leb (length v) k then (v ++ repeat None (k + 1 - length v))%list else v).
  assert (k < length v1) as Hk.
  { unfold v1. destruct (Nat.leb_spec (length v) k); [|lia]. rewrite app_length, repeat_length. lia. }
  destruct (Nat.eqb_spec k j) as [->|Hne]; [by rewrite list_lookup_insert|].
  rewrite list_lookup_insert_ne by done. unfold v1. destruct (Nat.leb_spec (length v) k); [|done].
  destruct (decide (j < length v)) as [Hj|Hj]; [by rewrite lookup_app_l|].
  rewrite lookup_app_r by lia. rewrite (lookup_ge_None_2 v) by lia.
  destruct (repeat (@None nat) (k + 1 - length v) !! (j - length v)) as [o|] eqn:E; [|done].
  apply elem_of_list_lookup_2, elem_of_list_In, repeat_spec in E. by subst.
Qed.
Lemma vs_get_take v k j : vs_get (fst (vs_take v k)) j = (if Nat.eqb k j then None else vs_get v j) /\
  snd (vs_take v k) = vs_get v k.
Proof.
  unfold vs_get, vs_take, vslots in *. destruct (Nat.ltb_spec k (length v)) as [Hk|Hk]; cbn [fst snd].
  - split; [|done]. destruct (Nat.eqb_spec k j) as [->|Hne]; [by rewrite list_lookup_insert|].
    by rewrite list_lookup_insert_ne.
  - rewrite (lookup_ge_None_2 v k) by lia. split; [|done]. destruct (Nat.eqb_spec k j) as [->|]; [|done].
    by rewrite lookup_ge_None_2 by lia.
Qed.

(** Whatever was stored and taken before: [get] and [take] give what was stored
    last in that slot and not taken since, and other slots are left alone. *)
Theorem slot_table : forall (ops : list slot_op) (k : nat),
  let v := fold_left vs_do ops vs_new in
  vs_get v k = last_stored k (rev ops) /\ snd (vs_take v k) = last_stored k (rev ops).
Proof.
  intros ops k. cbv zeta.
  assert (forall ops k, vs_get (fold_left vs_do ops vs_new) k = last_stored k (rev ops)) as HG.
  { clear. intros ops. induction ops as [|o ops IH] using rev_ind; intros k; [done|].
    rewrite fold_left_app, rev_app_distr. cbn. destruct o as [j n|j]; cbn [vs_do].
    - by rewrite vs_get_store, IH.
    - by rewrite (proj1 (vs_get_take _ _ _)), IH. }
  split; [apply HG|]. rewrite (proj2 (vs_get_take _ _ 0)). apply HG.
Qed.
Print Assumptions slot_table.

(** The map from slots to nodes used in the model of the browser is this table. *)
Corollary slot_table_model : forall (ops : list slot_op) (k : nat),
  slot_get (fold_left (fun sl o => match o with SStore j n => slot_set sl j n | STake j => slot_take sl j end) ops []) k =
  vs_get (fold_left vs_do ops vs_new) k.
Proof.
  intros ops k. rewrite (proj1 (slot_table ops k)). revert k.
  induction ops as [|o ops IH] using rev_ind; intros k; [done|].
  rewrite fold_left_app, rev_app_distr. cbn. destruct o as [j n|j].
  - cbn. destruct (Nat.eqb j k); [done|apply IH].
  - destruct (Nat.eqb_spec j k) as [->|Hne]; [apply slot_take_same|]. rewrite slot_take_other by done. apply IH.
Qed.
Print Assumptions slot_table_model.

(** The table is not longer than the largest slot used (see C51 for slots in
    patches). *)
Theorem slot_table_size : forall (ops : list slot_op) (n : nat),
  (forall k m, SStore k m ∈ ops -> k < n) -> length (fold_left vs_do ops vs_new) <= n.
Proof.
  intros ops n. induction ops as [|o ops IH] using rev_ind; intros Hn; [cbn; lia|].
  rewrite fold_left_app. cbn.
  assert (length (fold_left vs_do ops vs_new) <= n) as HL.
  { apply IH. intros k m Hk. apply (Hn k m), elem_of_app. by left. }
  destruct o as [k m|k]; cbn [vs_do].
  - assert (k < n) as Hk by (apply (Hn k m), elem_of_app; right; left).
    revert HL. generalize (fold_left vs_do ops vs_new) as v. unfold vs_store, vslots. intros v HL. rewrite insert_length.
    destruct (Nat.leb_spec (length v) k); [|lia]. rewrite app_length, repeat_length. lia.
  - revert HL. generalize (fold_left vs_do ops vs_new) as v. unfold vs_take, vslots. intros v HL.
    destruct (Nat.ltb _ _); cbn [fst]; [by rewrite insert_length|done].
Qed.
Print Assumptions slot_table_size.

Example slot_table_example :
  let ops := [SStore 3 7; SStore 1 8; STake 3; SStore 1 9; STake 6] in
  fold_left vs_do ops vs_new = [None; Some 9; None; None] /\ last_stored 1 (rev ops) = Some 9 /\
  (forall k m, SStore k m ∈ ops -> k < 4).
Proof.
  split; [reflexivity|]. split; [reflexivity|]. intros k m Hin.
  repeat (apply elem_of_cons in Hin as [Hin|Hin]; [first [done|injection Hin as -> ->; lia]|]). by apply elem_of_nil in Hin.
Qed.

(** ** C55: the times between connections *)

(** Number of failed sessions at the end of the history. *)
Fixpoint failed_since (rev_sessions : list bool) : nat :=
  match rev_sessions with false :: l => S (failed_since l) | _ => 0 end.

Lemma sleeps_app l : forall b l', sleeps b (l ++ l')%list =
  (sleeps b l ++ sleeps (fold_left (fun b ok => snd (backoff_turn b ok)) l b) l')%list.
Proof.
  induction l as [|ok l IH]; intros b l'; [done|]. cbn [app sleeps fold_left].
  destruct (backoff_turn b ok) as [t b1]. cbn [snd app]. by rewrite IH.
Qed.
Lemma backoff_value l :
  fold_left (fun b ok => snd (backoff_turn b ok)) l first_backoff =
  match l with
  | [] => 100%N
  | _ => N.min (100 * 2 ^ N.of_nat (if existsb id l then S (failed_since (rev l)) else length l)) 5000
  end.
Proof.
  induction l as [|ok l IH] using rev_ind; [done|].
  rewrite fold_left_app. cbn [fold_left]. rewrite IH, rev_app_distr, existsb_app. clear IH.
  destruct (l ++ [ok])%list as [|x k] eqn:Ek; [by destruct l|]. rewrite <- Ek. clear x k Ek.
  destruct ok; cbn [existsb id rev app failed_since orb].
  - rewrite orb_true_r. done.
  - rewrite orb_false_r, app_length. unfold backoff_turn, max_backoff. cbn [snd length].
    destruct l as [|x l']; [done|].
    destruct (existsb id (x :: l')).
    + rewrite (Nat2N.inj_succ (S _)), N.pow_succ_r'. lia.
    + replace (N.of_nat (length (x :: l') + 1)) with (N.succ (N.of_nat (length (x :: l')))) by lia.
      rewrite N.pow_succ_r'. lia.
Qed.

(** The time slept after a session.  After a good session it is 100 ms; after
    [n] failed ones in a row it doubles up to 5 s (a good session before them
    counts as one doubling). *)
Theorem backoff_times : forall (sessions : list bool) (ok : bool),
  last (live_reload_loop (sessions ++ [ok])%list) =
  Some (if ok then 100%N else
          N.min 5000 (100 * 2 ^ N.of_nat (if existsb id sessions then S (failed_since (rev sessions)) else length sessions))).
Proof.
  intros l ok. unfold live_reload_loop. rewrite sleeps_app. cbn [sleeps]. rewrite backoff_value.
  destruct (backoff_turn _ ok) as [t b] eqn:E. rewrite last_snoc. f_equal.
  injection E as <- _. destruct ok; [done|]. destruct l as [|x l']; [done|]. apply N.min_comm.
Qed.
Print Assumptions backoff_times.

(** Always between 100 ms and 5 s; the doubling fits a [u32]. *)
Theorem backoff_bounds : forall (sessions : list bool) (t : N),
  t ∈ live_reload_loop sessions -> (100 <= t <= 5000 /\ t * 2 < 2 ^ 32)%N.
Proof.
  assert (forall l b t, (100 <= b <= 5000)%N -> t ∈ sleeps b l -> (100 <= t <= 5000)%N) as HB.
  { induction l as [|ok l IH]; intros b t Hb Ht; [by apply elem_of_nil in Ht|].
    cbn [sleeps backoff_turn] in Ht. apply elem_of_cons in Ht as [->|Ht].
    - unfold first_backoff. destruct ok; lia.
    - eapply IH; [|exact Ht]. unfold first_backoff, max_backoff. destruct ok; lia. }
  intros l t Ht. apply HB in Ht; [|unfold first_backoff; lia]. split; [done|]. change (2 ^ 32)%N with 4294967296%N. lia.
Qed.
Print Assumptions backoff_bounds.

Example backoff_example :
  live_reload_loop [false; false; true; false; false; false; false; false; false; false; true] =
    [100; 200; 100; 200; 400; 800; 1600; 3200; 5000; 5000; 100]%N.
Proof. reflexivity. Qed.

(** ** C53: the mount point *)

(** The document changed below [m] only (and perhaps in the attributes of [m]). *)
Record kept (d d' : document) (m : nat) : Prop := {
  kp_root : doc_root d' = doc_root d;
  kp_tag : kind_tag (node_kind (doc_arena d') m) = kind_tag (node_kind (doc_arena d) m);
  kp_parent : parent (doc_arena d') m = parent (doc_arena d) m;
  kp_out : forall j, j < length (doc_arena d) -> ~ above (doc_arena d) m j ->
    data (doc_arena d') j = data (doc_arena d) j /\ children (doc_arena d') j = children (doc_arena d) j /\
    parent (doc_arena d') j = parent (doc_arena d) j
}.

(** A selector that finds elements only, and still finds the same one when the
    document changes only below it.  This holds for selectors that look at an
    element, its ancestors and preceding siblings, such as [#app] (proved below for
    [by_id]) or [main > .content]; not for [:has(p)] or [:empty]. *)
Definition local_selector (qs : document -> string -> option (option nat)) (sel : string) : Prop :=
  (forall d m, wf (doc_arena d) -> qs d sel = Some (Some m) -> exists tag l, node_kind (doc_arena d) m = Some (NElem tag l)) /\
  (forall d d' m, wf (doc_arena d) -> wf (doc_arena d') -> qs d sel = Some (Some m) ->
     kept d d' m -> data (doc_arena d') m = data (doc_arena d) m -> qs d' sel = Some (Some m)).
(** Selectors for which a new body with attributes [nats] is unproblematic. *)
Definition mountable (qs : document -> string -> option (option nat)) (sel : string) (nats : attrs) : Prop :=
  sel = "body" \/ (nats = [] /\ local_selector qs sel).

Lemma resolve_elem qs d sel m nats : mountable qs sel nats -> wf (doc_arena d) ->
  resolve_mount_point qs d sel = Val m -> exists tag l, node_kind (doc_arena d) m = Some (NElem tag l).
Proof.
  unfold resolve_mount_point. intros HM W. destruct (String.eqb_spec sel "body") as [->|Hne].
  - destruct (body d) as [b|] eqn:Eb; [|done]. intros [= <-]. by apply body_is_elem.
  - destruct HM as [?|[_ [L1 _]]]; [done|]. destruct (qs d sel) as [[n|]|] eqn:E; try done. intros [= <-]. by eapply L1.
Qed.

Lemma kept_body d d' b : wf (doc_arena d) -> kept d d' b -> body d = Some b -> body d' = Some b.
Proof.
  intros W K. unfold body, body_in. rewrite (kp_root _ _ _ K). set (rt := doc_root d). intros Hb.
  pose proof Hb as Hb'. apply find_some in Hb' as [Hbc _]. apply elem_of_list_In in Hbc.
  assert (Hr : rt < length (doc_arena d) /\ ~ above (doc_arena d) b rt).
  { split; [by eapply children_lt|]. apply above_not_parent; [done|]. by apply (wf_pc _ W). }
  rewrite (proj1 (proj2 (kp_out _ _ _ K rt (proj1 Hr) (proj2 Hr)))), <- Hb.
  assert (Htags : forall c, c ∈ children (doc_arena d) rt ->
    has_tag (doc_arena d') "body" c = has_tag (doc_arena d) "body" c).
  { intros c Hc. destruct (decide (c = b)) as [->|Hne].
    - pose proof (kp_tag _ _ _ K) as Ht. unfold has_tag in *. unfold kind_tag in Ht.
      destruct (node_kind (doc_arena d) b) as [[| | |]|], (node_kind (doc_arena d') b) as [[| | |]|]; congruence.
    - unfold has_tag, node_kind. destruct (kp_out _ _ _ K c) as [-> _]; [by eapply wf_child_lt| |done].
      intros Hab. apply (wf_pc _ W) in Hc. apply above_inv in Hab as [Hab|(q & Hq & Hab)]; [done|].
      assert (q = rt) as -> by congruence. by apply Hr. }
  revert Htags. generalize (children (doc_arena d) rt). intros l Ht.
  induction l as [|x l IH]; cbn [find]; [done|]. rewrite Ht by by left.
  destruct (has_tag _ _ x); [done|]. apply IH. intros c Hc. apply Ht. by right.
Qed.

Lemma resolve_kept qs d d' sel m nats : mountable qs sel nats -> wf (doc_arena d) -> wf (doc_arena d') ->
  resolve_mount_point qs d sel = Val m -> kept d d' m ->
  (nats = [] -> data (doc_arena d') m = data (doc_arena d) m) ->
  resolve_mount_point qs d' sel = Val m.
Proof.
  intros HM W W' E K D. unfold resolve_mount_point in *. destruct (String.eqb_spec sel "body") as [->|Hne].
  - destruct (body d) as [b|] eqn:Eb; [|done]. injection E as ->. by rewrite (kept_body d d' m W K Eb).
  - destruct HM as [?|[Hn [_ L2]]]; [done|]. destruct (qs d sel) as [[n|]|] eqn:E1; try done. injection E as ->.
    by rewrite (L2 d d' m W W' E1 K (D Hn)).
Qed.

Section MountPoint.
  Context {H : Type}.
  Variables (heqb : H -> H -> bool) (hcomb : hkind -> option string -> list H -> H) (h0 : H).
  Variables valid_elem valid_attr : string -> bool.
  Variable parse_template : string -> list htree.
  Variable query_selector : document -> string -> option (option nat).
  Notation resolve := (resolve_mount_point query_selector).
  Notation apply_on := (apply_patches_on valid_elem valid_attr parse_template query_selector).

  (** The element found by the selector shows the old body.  Then the patches
      apply to it without error, all of them are counted, it shows the new body
      afterwards, nothing outside of it changes, and the selector still finds it. *)
  Theorem mount_patched : forall sel old new ob nb oats nats ts us c m,
    mountable query_selector sel nats ->
    plain_doc old ob oats ts -> plain_doc new nb nats us -> comparable heqb hcomb h0 old new ->
    (forall h, h ∈ ts -> names_ok valid_elem valid_attr h) ->
    (forall h, h ∈ us -> names_ok valid_elem valid_attr h) -> b_okn valid_elem valid_attr "body" nats ->
    wf (doc_arena c) -> resolve c sel = Val m ->
    shows_list (doc_arena c) (map btree ts) (children (doc_arena c) m) ->
    exists ps c',
      diff heqb hcomb h0 old new = Val ps /\ apply_on c ps sel = (c', Val (length ps)) /\
      wf (doc_arena c') /\ resolve c' sel = Val m /\
      shows_list (doc_arena c') (map btree us) (children (doc_arena c') m) /\
      serialize_inner_html (doc_arena c') m = to_body_html new /\ kept c c' m.
  Proof.
    intros sel old new ob nb oats nats ts us c m HM PO PN HC OKO OKN OKB W ER CS.
    destruct (resolve_elem _ _ _ _ _ HM W ER) as (tag & l & Ek).
    destruct (browser_step heqb hcomb h0 valid_elem valid_attr parse_template _ _ _ _ _ _ _ _ (doc_arena c) m tag l PO PN HC
      OKO OKN OKB W Ek CS) as (ps & C' & sl & Ed & Ea & W' & CS' & Hb).
    exists ps, (mkDoc C' (doc_root c) (doc_doctype c)). split; [done|].
    assert (m < length (doc_arena c)) as Hm.
    { unfold node_kind in Ek. destruct (data (doc_arena c) m) eqn:E; [|done]. by eapply data_lt. }
    assert (forall p, p ∈ ps -> p <> PRemove [0]) as Hr. { intros p Hp ->. by specialize (Hb _ Hp). }
    destruct (browser_outside_untouched valid_elem valid_attr parse_template (doc_arena c) m ps W Hm Hr) as (O1 & O2 & O3).
    rewrite Ea in O1, O2, O3. cbn [fst] in O1, O2, O3.
    assert (kept c (mkDoc C' (doc_root c) (doc_doctype c)) m) as K by by split.
    split; [unfold apply_patches_on; rewrite ER, Ea; done|]. split; [done|].
    assert (serialize_inner_html C' m = to_body_html new) as ES.
    { unfold to_body_html. rewrite (pd_body _ _ _ _ PN), (shows_body_html _ _ m W' CS').
      rewrite (ser_ts_btree _ _ us OKN).
      by rewrite (serialize_inner_holds _ us nb (pd_wf _ _ _ _ PN) (pd_holds _ _ _ _ PN)). }
    split; [|done]. eapply resolve_kept; [exact HM|exact W|exact W'|exact ER|exact K|]. intros ->. cbn [doc_arena].
    destruct (compared_total heqb hcomb h0 old new ob nb oats [] ts us PO PN) as (t & ta & tb & mm & CM).
    destruct (HC t ta tb mm CM) as [NC _].
    pose proof (diff_spares_root heqb hcomb h0 old new ob nb oats ts us t ta tb mm ps (plain_mild _ _ _ _ PO)
      (plain_mild _ _ _ _ PN) CM NC Ed) as HS.
    pose proof (apply_all_same valid_elem valid_attr parse_template (doc_arena c)
      (fun j => j < length (doc_arena c) /\ ~ above (doc_arena c) m j) m) as HA.
    specialize (HA (fun j Hj => proj1 Hj)).
    assert (same m (doc_arena c) (b_apply_all valid_elem valid_attr parse_template m (doc_arena c, []) ps)) as HD.
    { apply HA; [|done| |done|].
      - intros [_ Hn]. apply Hn. by apply above_refl.
      - by apply framed_start.
      - intros p Hp. split; [by apply Hr|by apply HS]. }
    unfold same in HD. by rewrite Ea in HD.
  Qed.

  (** With the bytes of an event in between. *)
  Corollary mount_event : forall sel old new ob nb oats nats ts us c m fresh r ps,
    mountable query_selector sel nats ->
    plain_doc old ob oats ts -> plain_doc new nb nats us -> comparable heqb hcomb h0 old new ->
    (forall h, h ∈ ts -> names_ok valid_elem valid_attr h) ->
    (forall h, h ∈ us -> names_ok valid_elem valid_attr h) -> b_okn valid_elem valid_attr "body" nats ->
    wf (doc_arena c) -> resolve c sel = Val m ->
    shows_list (doc_arena c) (map btree ts) (children (doc_arena c) m) ->
    diff heqb hcomb h0 old new = Val ps -> short r -> short (to_blob ps) -> from_blob (to_blob ps) = Some ps ->
    exists e c',
      from_postcard (to_postcard (to_wire (EvPatches r ps))) = Some e /\
      handle_event valid_elem valid_attr parse_template query_selector sel fresh c e = (c', Val tt) /\
      wf (doc_arena c') /\ resolve c' sel = Val m /\
      shows_list (doc_arena c') (map btree us) (children (doc_arena c') m) /\
      serialize_inner_html (doc_arena c') m = to_body_html new /\ kept c c' m.
  Proof.
    intros sel old new ob nb oats nats ts us c m fresh r ps HM PO PN HC OKO OKN OKB W ER CS Ed Hr Hb Hf.
    destruct (mount_patched sel old new ob nb oats nats ts us c m HM PO PN HC OKO OKN OKB W ER CS)
      as (ps' & c' & Ed' & Ea & REST). rewrite Ed in Ed'. injection Ed' as <-.
    exists (to_wire (EvPatches r ps)), c'. split; [by apply event_roundtrip|]. split; [|done].
    cbn [to_wire handle_event]. unfold apply_patches_postcard_on. rewrite Hf, Ea. done.
  Qed.
End MountPoint.
Print Assumptions mount_patched.
Print Assumptions mount_event.

(** [document.querySelector("#x")]: the first element in document order whose
    [id] is [x]. *)
Definition has_id (a : arena dnode) (x : string) (i : nat) : bool :=
  match node_kind a i with
  | Some (NElem _ l) => existsb (fun kv => String.eqb (q_local (fst kv)) "id" && String.eqb (snd kv) x) l
  | _ => false
  end.
Definition by_id (d : document) (sel : string) : option (option nat) :=
  match sel with
  | String c x =>
      if Ascii.eqb c "#"%char then
        match descendants (doc_arena d) (doc_root d) with
        | Some l => Some (find (has_id (doc_arena d) x) l)
        | None => Some None
        end
      else None
  | EmptyString => None
  end.

Lemma is_tree_inj (a : arena dnode) t : forall u, is_tree a t -> is_tree a u -> rid t = rid u -> t = u.
Proof.
  induction t as [i ts IH] using rose_ind'. intros [j us] H1 H2 E. cbn in E. subst j.
  apply is_tree_eq in H1 as [C1 S1]. apply is_tree_eq in H2 as [C2 S2]. f_equal.
  assert (map rid ts = map rid us) as E by congruence. clear C1 C2.
  revert us E S2. induction ts as [|t ts IHts]; intros [|u us] E S2; try done.
  cbn in E. injection E as E1 E2. f_equal.
  - apply IH; [by left|apply S1; by left|apply S2; by left|done].
  - apply IHts; [intros z Hz; apply IH; by right|intros z Hz; apply S1; by right|done|intros z Hz; apply S2; by right].
Qed.
Lemma is_tree_same (a a' : arena dnode) t : is_tree a t -> (forall i, i ∈ preorder t -> children a' i = children a i) ->
  is_tree a' t.
Proof.
  induction t as [i ts IH] using rose_ind'. intros H1 HC. apply is_tree_eq in H1 as [C1 S1]. apply is_tree_eq.
  split; [rewrite HC by (cbn; left); done|]. intros t Ht. apply IH; [done|by apply S1|].
  intros j Hj. apply HC. cbn. right. apply elem_flat_map. eauto.
Qed.
Lemma find_app {A} (P : A -> bool) l k :
  find P (l ++ k)%list = match find P l with Some x => Some x | None => find P k end.
Proof. induction l as [|x l IH]; [done|]. cbn. by destruct (P x). Qed.
Lemma pre_above (a : arena dnode) t x : wf a -> is_tree a t -> x ∈ preorder t -> above a (rid t) x.
Proof.
  intros W HT Hx. destruct (wf_chain a W (rid t)) as [l Hl].
  destruct (pre_chain a t x l W HT Hx Hl) as (l1 & k & Hk & E). exists k. split; [done|].
  assert (rid t ∈ x :: k) as Hin by (rewrite E; apply elem_of_app; right; left). apply elem_of_cons in Hin as [->|?]; [by left|by right].
Qed.

(** The first match of a test below a node: unchanged if only the part below the
    match changes. *)
Lemma find_kept (a a' : arena dnode) (P P' : nat -> bool) m : wf a -> wf a' ->
  P' m = P m -> parent a' m = parent a m ->
  (forall j, j < length a -> ~ above a m j -> P' j = P j /\ children a' j = children a j) ->
  forall t t', is_tree a t -> is_tree a' t' -> rid t' = rid t -> rid t < length a ->
  rid t = m \/ ~ above a m (rid t) ->
  find P (preorder t) = Some m -> find P' (preorder t') = Some m.
Proof.
  intros W W' PM _ HO t. induction t as [i ts IH] using rose_ind'. intros [i' ts'] HT HT' E Hl Hi HF. cbn in E. subst i'.
  cbn [rid] in *. cbn [preorder find] in *. destruct (decide (i = m)) as [->|Him].
  { destruct (P m) eqn:Em; [by rewrite PM|].
    apply find_some in HF as [_ HF]. congruence. }
  destruct Hi as [?|Hn]; [done|]. destruct (HO i Hl Hn) as [-> HC].
  destruct (P i) eqn:Epi; [congruence|].
  apply is_tree_eq in HT as [C1 S1]. apply is_tree_eq in HT' as [C2 S2]. rewrite HC, C1 in C2.
  assert (forall t, t ∈ ts -> rid t < length a /\ (rid t = m \/ ~ above a m (rid t))) as HS.
  { intros t Ht. assert (rid t ∈ children a i) as Hc by (rewrite C1; by apply elem_of_list_fmap_1).
    split; [by eapply wf_child_lt|]. destruct (decide (rid t = m)) as [|Hne]; [by left|right]. intros Hab.
    apply (wf_pc a W) in Hc. apply above_inv in Hab as [Hab|(q & Hq & Hab)]; [done|].
    assert (q = i) as -> by congruence. done. }
  clear C1 HC. revert ts' C2 S2 HF. induction ts as [|t ts IHts]; intros [|t' ts'] C2 S2 HF; try done.
  cbn in C2. injection C2 as C3 C4. cbn [flat_map] in *. rewrite find_app in HF. rewrite find_app.
  destruct (HS t ltac:(left)) as [Htl Hto].
  destruct (find P (preorder t)) as [z|] eqn:Ez.
  - injection HF as ->. rewrite (IH t ltac:(left) t'); [done|apply S1; left|apply S2; left|done|done|done|done].
  - assert (m ∉ preorder t) as Hmt.
    { intros Hin. assert (P m = true) as Hpm by by apply find_some in HF as [_ HF].
      apply elem_of_list_In in Hin. by rewrite (find_none _ _ Ez m Hin) in Hpm. }
    assert (forall j, j ∈ preorder t -> j < length a /\ ~ above a m j) as Hout.
    { intros j Hj. split; [apply (preorder_lt a t j W ltac:(apply S1; left) Htl Hj)|]. intros Hab.
      assert (above a (rid t) j) as Hat by (apply pre_above; [done|apply S1; left|done]).
      destruct (above_comparable _ _ _ _ Hab Hat) as [Hc|Hc].
      - destruct Hto as [Hto|Hto]; [|done]. apply Hmt. rewrite <- Hto. apply preorder_rid.
      - apply Hmt. destruct Hc as (k & Hk & Hin). assert (is_tree a t) as HTa by (apply S1; left).
        apply (chain_pre a t m k W HTa Hk). apply elem_of_cons. destruct Hin as [->|?]; [by left|by right]. }
    assert (t' = t) as ->.
    { apply (is_tree_inj a' t' t); [apply (S2 t'); left| |done].
      assert (is_tree a t) as HTa by (apply S1; left). apply (is_tree_same a a' t HTa).
      intros j Hj. destruct (Hout j Hj) as [H1 H2]. by apply HO. }
    assert (find P' (preorder t) = None) as ->.
    { rewrite <- Ez. revert Hout. clear - HO. generalize (preorder t) as l. induction l as [|x l IHl]; intros Hout; [done|].
      cbn [find]. destruct (Hout x ltac:(left)) as [H1 H2]. destruct (HO x H1 H2) as [-> _].
      destruct (P x); [done|]. apply IHl. intros j Hj. apply Hout. by right. }
    apply IHts; try done.
    + intros u Hu. apply IH. by right.
    + intros u Hu. apply S1. by right.
    + intros u Hu. apply HS. by right.
    + intros u Hu. apply S2. by right.
Qed.

Theorem by_id_local : forall x, local_selector by_id (String "#" x).
Proof.
  intros x. split.
  - intros d m W E. unfold by_id in E. cbn -[descendants] in E. destruct (descendants _ _); [|done]. injection E as E.
    apply find_some in E as [_ E]. unfold has_id in E. destruct (node_kind _ m) as [[]|]; eauto; done.
  - intros d d' m W W' E K D. unfold by_id in *. cbn -[descendants] in *.
    destruct (tree_exists (doc_arena d) (doc_root d) W) as (t & Et & HT).
    destruct (tree_exists (doc_arena d') (doc_root d') W') as (t' & Et' & HT').
    rewrite <- Et, (descendants_spec _ _ W HT) in E. rewrite <- Et', (descendants_spec _ _ W' HT').
    injection E as E. f_equal.
    assert (forall j, data (doc_arena d') j = data (doc_arena d) j -> has_id (doc_arena d') x j = has_id (doc_arena d) x j) as HI.
    { intros j Hj. unfold has_id, node_kind. by rewrite Hj. }
    pose proof E as E'. apply find_some in E' as [Hin Hid]. apply elem_of_list_In in Hin.
    assert (m < length (doc_arena d)) as Hm.
    { unfold has_id, node_kind in Hid. destruct (data (doc_arena d) m) eqn:Em; [|done]. by eapply data_lt. }
    assert (above (doc_arena d) (rid t) m) as Ha by by apply pre_above.
    eapply (find_kept (doc_arena d) (doc_arena d') (has_id (doc_arena d) x) (has_id (doc_arena d') x) m W W'
      (HI m D) (kp_parent _ _ _ K)); [|exact HT|exact HT'|rewrite Et, Et'; apply K| | |exact E].
    + intros j Hj Hn. destruct (kp_out _ _ _ K j Hj Hn) as (K1 & K2 & _). split; [by apply HI|done].
    + by eapply above_lt.
    + destruct (decide (rid t = m)) as [|Hne]; [by left|right]. intros Hb. apply Hne. exact (above_antisym _ _ _ W Ha Hb).
Qed.
Print Assumptions by_id_local.

(** ** C54: sessions *)

(** What can happen to a browser that has route [r] open: a call on the server; the
    user loads the page (and gets the one the server has for the route); the
    connection is made; the connection is lost. *)
Inductive happening := HCall (k : call) | HLoad | HConnect | HDrop.

Record session := mkSession {
  ss_server : server;
  ss_doc : document;
  ss_conn : bool;
  (** results of handling events, latest first; the browser only logs them
      (hotmeal-wasm/src/lib.rs:203-210) *)
  ss_log : list (outcome unit)
}.

Section Session.
  Variable diff_pages : string -> string -> option (list patch).
  Variables valid_elem valid_attr : string -> bool.
  Variable parse_template : string -> list htree.
  Variable query_selector : document -> string -> option (option nat).
  Variable load : string -> document.
  Variables sel r : string.

  (** The event of a call, with its page; calls for other routes and calls that
      send nothing have none. *)
  Definition event_of (s : server) (k : call) : option (string * event) :=
    match k with
    | CDiff r' h => if String.eqb r' r then option_map (pair h) (snd (diff_route diff_pages s r' h)) else None
    | CDiffHead r' h i => if String.eqb r' r then option_map (pair h) (snd (diff_route_with_head diff_pages s r' h i)) else None
    | _ => None
    end.

  (** An event arrives as bytes.  A page that is loaded again starts without a
      connection. *)
  Definition receive (st : session) (h : string) (e : event) : session :=
    match from_postcard (to_postcard (to_wire e)) with
    | Some we =>
        let '(d, res) := handle_event valid_elem valid_attr parse_template query_selector sel (load h) (ss_doc st) we in
        mkSession (ss_server st) d (match we with WPatches _ _ => true | _ => false end) (res :: ss_log st)
    | None => mkSession (ss_server st) (ss_doc st) true (Fail DomException :: ss_log st)
    end.

  Definition happens (st : session) (a : happening) : session :=
    match a with
    | HCall k =>
        let st' := mkSession (step diff_pages (ss_server st) k) (ss_doc st) (ss_conn st) (ss_log st) in
        match event_of (ss_server st) k with
        | Some (h, e) => if ss_conn st then receive st' h e else st'
        | None => st'
        end
    | HLoad =>
        mkSession (ss_server st)
          (match hm_get (html_cache (ss_server st)) r with Some h => load h | None => ss_doc st end) false (ss_log st)
    | HConnect => mkSession (ss_server st) (ss_doc st) true (ss_log st)
    | HDrop => mkSession (ss_server st) (ss_doc st) false (ss_log st)
    end.
  Definition happen (st : session) (hist : list happening) : session := fold_left happens hist st.

  (** The document is loaded again: by the user, or by an event that says so. *)
  Definition reloads (st : session) (a : happening) : Prop :=
    match a with
    | HLoad => True
    | HCall k => ss_conn st = true /\ exists h e, event_of (ss_server st) k = Some (h, e) /\
                 (e = EvReload \/ exists r', e = EvHeadChanged r')
    | _ => False
    end.
  (** Every page given for the route is given while the browser is connected. *)
  Definition in_touch (st : session) (hist : list happening) : Prop :=
    forall h1 k h2 h, hist = (h1 ++ HCall k :: h2)%list -> page_of r k = Some h -> ss_conn (happen st h1) = true.
  (** Calls give good pages and do not replace the page of the route silently. *)
  Definition orderly (page : string -> Prop) (hist : list happening) : Prop :=
    forall k, HCall k ∈ hist -> overwrites r k = false /\ forall h, page_of r k = Some h -> page h.
End Session.

Section Sessions.
  Context {H : Type}.
  Variables (heqb : H -> H -> bool) (hcomb : hkind -> option string -> list H -> H) (h0 : H).
  Variable parse_page : string -> document.
  Variable page : string -> Prop.
  Hypothesis PP : forall h, page h -> exists b ats ts, plain_doc (parse_page h) b ats ts.
  Hypothesis PC : forall h h', page h -> page h' -> comparable heqb hcomb h0 (parse_page h) (parse_page h').
  Hypothesis PS : forall h, page h -> postable (parse_page h) /\ (N.of_nat (length (doc_arena (parse_page h))) < 2 ^ 26)%N.
  Hypothesis PB : forall o h ps, page o -> page h -> diff_pages heqb hcomb h0 parse_page o h = Some ps -> short (to_blob ps).

  Variables valid_elem valid_attr : string -> bool.
  Variable parse_template : string -> list htree.
  Variable query_selector : document -> string -> option (option nat).
  Variable load : string -> document.
  Variables sel r : string.
  Notation resolve := (resolve_mount_point query_selector).
  Notation dp := (diff_pages heqb hcomb h0 parse_page).
  Notation happens := (happens dp valid_elem valid_attr parse_template query_selector load sel r).
  Notation happen := (happen dp valid_elem valid_attr parse_template query_selector load sel r).
  Notation in_touch := (in_touch dp valid_elem valid_attr parse_template query_selector load sel r).
  (** The browser's parser, the mount point in a loaded page, and names, as in C40 and C53. *)
  Hypothesis HL : forall h b ats ts, page h -> plain_doc (parse_page h) b ats ts ->
    (exists m, wf (doc_arena (load h)) /\ resolve (load h) sel = Val m /\
       holds_list (doc_arena (load h)) (map btree ts) (children (doc_arena (load h)) m)) /\
    (forall t, t ∈ ts -> names_ok valid_elem valid_attr t) /\ b_okn valid_elem valid_attr "body" ats /\
    mountable query_selector sel ats.
  Hypothesis SR : short r.

  Definition shows_page (d : document) (h : string) : Prop :=
    exists b ats ts m, page h /\ plain_doc (parse_page h) b ats ts /\ wf (doc_arena d) /\ resolve d sel = Val m /\
      shows_list (doc_arena d) (map btree ts) (children (doc_arena d) m).
  Definition fresh_session (st : session) : Prop :=
    forall h, hm_get (html_cache (ss_server st)) r = Some h -> page h /\ shows_page (ss_doc st) h.

  Lemma load_shows h : page h -> shows_page (load h) h.
  Proof.
    intros Hp. destruct (PP h Hp) as (b & ats & ts & P). destruct (HL h b ats ts Hp P) as ((m & W & E & Hh) & _).
    exists b, ats, ts, m. split_and!; try done. by apply holds_shows_list.
  Qed.

  Lemma patches_shown s o h ps : page h -> page o -> shows_page (ss_doc s) o -> dp o h = Some ps ->
    exists d', receive valid_elem valid_attr parse_template query_selector load sel s h (EvPatches r ps) =
      mkSession (ss_server s) d' true (Val tt :: ss_log s) /\ shows_page d' h.
  Proof.
    intros Hh Ho (ob & oats & ts & m & _ & PO & W & ER & CS) Ed. destruct (PP h Hh) as (nb & nats & us & PN).
    destruct (pages_survive_wire heqb hcomb h0 parse_page page PP PC PS PB o h ps Ho Hh Ed) as [Hsb Hfb].
    destruct (HL o ob oats ts Ho PO) as (_ & OKO & _ & _). destruct (HL h nb nats us Hh PN) as (_ & OKN & OKB & HM).
    assert (diff heqb hcomb h0 (parse_page o) (parse_page h) = Val ps) as Ed'.
    { unfold diff_pages in Ed. destruct (diff _ _ _ _ _); congruence. }
    destruct (mount_event heqb hcomb h0 valid_elem valid_attr parse_template query_selector sel _ _ ob nb oats nats ts us (ss_doc s) m
      (load h) r ps HM PO PN (PC o h Ho Hh) OKO OKN OKB W ER CS Ed' SR Hsb Hfb)
      as (e & c' & Ee & Eh & W' & ER' & CS' & _).
    exists c'. unfold receive. rewrite event_roundtrip in Ee by done. injection Ee as <-.
    rewrite event_roundtrip by done. cbn [to_wire] in *. rewrite Eh. split; [done|]. by exists nb, nats, us, m.
  Qed.

  Lemma reload_received s h e : (e = EvReload \/ exists r', e = EvHeadChanged r' /\ short r') ->
    receive valid_elem valid_attr parse_template query_selector load sel s h e =
    mkSession (ss_server s) (load h) false (Val tt :: ss_log s).
  Proof.
    intros He. unfold receive. rewrite event_roundtrip by (destruct He as [->|(r' & -> & Hr)]; done).
    by destruct He as [->|(r' & -> & Hr)].
  Qed.

  Lemma nothing_shown d o h : page h -> page o -> shows_page d o -> dp o h = Some [] -> shows_page d h.
  Proof.
    intros Hh Ho (ob & oats & ts & m & _ & PO & W & ER & CS) Ed. destruct (PP h Hh) as (nb & nats & us & PN).
    destruct (HL o ob oats ts Ho PO) as (_ & OKO & _ & _). destruct (HL h nb nats us Hh PN) as (_ & OKN & OKB & HM).
    destruct (mount_patched heqb hcomb h0 valid_elem valid_attr parse_template query_selector sel _ _ ob nb oats nats ts us d m
      HM PO PN (PC o h Ho Hh) OKO OKN OKB W ER CS) as (ps & c' & Ed' & Ea & W' & ER' & CS' & _).
    unfold diff_pages in Ed. rewrite Ed' in Ed. injection Ed as ->.
    unfold apply_patches_on in Ea. rewrite ER in Ea. cbn [b_apply_all] in Ea. injection Ea as <-.
    exists nb, nats, us, m. split_and!; done.
  Qed.

  Lemma page_given s h s1 :
    page h -> (forall o, hm_get (html_cache s1) r = Some o -> page o /\ shows_page (ss_doc s) o) ->
    match snd (diff_route dp s1 r h) with
    | None => shows_page (ss_doc s) h
    | Some e => exists d' cn, receive valid_elem valid_attr parse_template query_selector load sel s h e =
        mkSession (ss_server s) d' cn (Val tt :: ss_log s) /\ shows_page d' h
    end.
  Proof.
    intros Hp Hs. unfold diff_route. destruct (hm_get (html_cache s1) r) as [o|] eqn:Eo.
    2:{ cbn [snd]. eexists _, _. split; [apply reload_received; by left|by apply load_shows]. }
    destruct (Hs o eq_refl) as [Ho Hc]. destruct (String.eqb_spec o h) as [->|Hne]; [done|].
    destruct (dp o h) as [[|p ps]|] eqn:Ed; cbn [snd].
    - by eapply nothing_shown.
    - destruct (patches_shown s o h (p :: ps) Hp Ho Hc Ed) as (d' & E & Hd). eauto.
    - eexists _, _. split; [apply reload_received; by left|by apply load_shows].
  Qed.

  (** The results logged since: no error. *)
  Definition logged (st st' : session) : Prop :=
    exists l, ss_log st' = (l ++ ss_log st)%list /\ forall x, x ∈ l -> x = Val tt.

  Lemma logged_refl st st' : ss_log st' = ss_log st -> logged st st'.
  Proof. intros E. exists []. split; [done|]. intros x Hx. by apply elem_of_nil in Hx. Qed.
  Lemma logged_one st st' : ss_log st' = Val tt :: ss_log st -> logged st st'.
  Proof. intros E. exists [Val tt]. split; [done|]. intros x Hx. by apply elem_of_list_singleton in Hx. Qed.
  Lemma logged_trans a b c : logged a b -> logged b c -> logged a c.
  Proof.
    intros (l & E & Hl) (k & E' & Hk). exists (k ++ l)%list. rewrite E', E, app_assoc. split; [done|].
    intros x Hx. apply elem_of_app in Hx as [?|?]; auto.
  Qed.

  Lemma happens_server st a : ss_server (happens st a) = match a with HCall k => step dp (ss_server st) k | _ => ss_server st end.
  Proof.
    destruct a as [k| | |]; try done. cbn [PropMount.happens].
    destruct (event_of dp r (ss_server st) k) as [[h e]|]; [|done]. destruct (ss_conn st); [|done].
    unfold receive. destruct (from_postcard _); [|done].
    by destruct (handle_event _ _ _ _ _ _ _ _).
  Qed.

  Lemma call_fresh st k : fresh_session st -> overwrites r k = false ->
    (forall h, page_of r k = Some h -> page h /\ ss_conn st = true) ->
    fresh_session (happens st (HCall k)) /\ logged st (happens st (HCall k)).
  Proof.
    intros F Ho Hp. pose proof (happens_server st (HCall k)) as ESV.
    assert (forall h, page_of r k = Some h ->
      shows_page (ss_doc (happens st (HCall k))) h /\ logged st (happens st (HCall k))) as HG.
    { intros h Eh. destruct (Hp h Eh) as [Hh Hcn]. clear ESV.
      set (st' := mkSession (step dp (ss_server st) k) (ss_doc st) (ss_conn st) (ss_log st)).
      assert (match event_of dp r (ss_server st) k with
              | None => shows_page (ss_doc st') h
              | Some (h', e) => exists d' cn, receive valid_elem valid_attr parse_template query_selector load sel st' h' e =
                  mkSession (ss_server st') d' cn (Val tt :: ss_log st') /\ shows_page d' h
              end) as HE.
      { destruct k as [r' x|r' x|r' x|r' x i|r'|]; cbn [page_of event_of] in *; try done.
        - destruct (String.eqb_spec r' r) as [->|]; [|done]. injection Eh as ->.
          pose proof (page_given st' h (ss_server st) Hh F) as HX.
          by destruct (diff_route dp (ss_server st) r h) as [s' [e|]].
        - destruct (String.eqb_spec r' r) as [->|]; [|done]. injection Eh as ->.
          unfold diff_route_with_head, cache_head. match goal with |- context [if ?c then _ else _] => destruct c end.
          + cbn [snd option_map]. eexists _, _. split; [apply reload_received; right; eauto|by apply load_shows].
          + pose proof (page_given st' h (mkServer (html_cache (ss_server st)) (hm_insert (head_cache (ss_server st)) r i))
              Hh F) as HX.
            by destruct (diff_route dp _ r h) as [s' [e|]]. }
      cbn [PropMount.happens]. fold st'. destruct (event_of dp r (ss_server st) k) as [[h' e]|].
      - rewrite Hcn. destruct HE as (d' & cn & -> & Hd). split; [done|]. by apply logged_one.
      - split; [done|]. by apply logged_refl. }
    destruct (page_of r k) as [h|] eqn:Eh.
    - destruct (HG h eq_refl) as [Hs Hl]. split; [|done]. intros o Eo. rewrite ESV in Eo.
      rewrite (proj1 (step_spec dp (ss_server st) k r)) in Eo.
      assert (o = h) as ->.
      { destruct k as [r' x|r' x|r' x|r' x i|r'|]; cbn [page_of] in Eh; try done;
          destruct (String.eqb r' r); congruence. }
      split; [by apply Hp|done].
    - assert (happens st (HCall k) = mkSession (step dp (ss_server st) k) (ss_doc st) (ss_conn st) (ss_log st)) as ->.
      { cbn [PropMount.happens].
        assert (event_of dp r (ss_server st) k = None) as ->; [|done].
        destruct k as [r' x|r' x|r' x|r' x i|r'|]; cbn [page_of event_of] in *; try done; by destruct (String.eqb r' r). }
      split; [|by apply logged_refl]. intros o Eo. cbn [ss_server ss_doc] in *.
      rewrite (proj1 (step_spec dp (ss_server st) k r)) in Eo.
      destruct k as [r' x|r' x|r' x|r' x i|r'|]; cbn [overwrites page_of] in *.
      + rewrite Ho in Eo. by apply F.
      + by apply F.
      + destruct (String.eqb r' r); [done|by apply F].
      + destruct (String.eqb r' r); [done|by apply F].
      + destruct (String.eqb r' r); [done|by apply F].
      + done.
  Qed.

  Lemma happen_fresh hist : forall st, fresh_session st -> orderly r page hist -> in_touch st hist ->
    fresh_session (happen st hist) /\ logged st (happen st hist).
  Proof.
    induction hist as [|a hist IH]; intros st F HO HT; [split; [done|by apply logged_refl]|].
    assert (fresh_session (happens st a) /\ logged st (happens st a)) as [F1 L1].
    { destruct a as [k| | |].
      - destruct (HO k ltac:(left)) as [O1 O2]. apply call_fresh; [done|done|]. intros h Eh. split; [by apply O2|].
        by apply (HT [] k hist h).
      - split; [|by apply logged_refl]. intros h Eh. cbn [PropMount.happens ss_server ss_doc] in *. rewrite Eh.
        split; [by apply F|]. apply load_shows. by apply F.
      - split; [done|by apply logged_refl].
      - split; [done|by apply logged_refl]. }
    destruct (IH (happens st a) F1) as [F2 L2].
    - intros k Hk. apply HO. by right.
    - intros h1 k h2 h E Eh. by apply (HT (a :: h1)%list k h2 h); [rewrite E|].
    - split; [done|]. by eapply logged_trans.
  Qed.

  (** Whatever the browser shows at first: after the document was loaded again, by
      the user or because of an event, and as long as every new page of the
      route is given while the browser is connected, every event is handled
      without error and the mount point shows the page the server has for the
      route. *)
  Theorem mounted_session_converges : forall (st : session) (a : happening) (hist : list happening),
    (forall h, hm_get (html_cache (ss_server st)) r = Some h -> page h) ->
    reloads dp r st a -> orderly r page (a :: hist) -> in_touch (happens st a) hist ->
    let st' := happen st (a :: hist) in
    (forall h, hm_get (html_cache (ss_server st')) r = Some h ->
       exists m, resolve (ss_doc st') sel = Val m /\
         serialize_inner_html (doc_arena (ss_doc st')) m = to_body_html (parse_page h)) /\
    logged st st'.
  Proof.
    intros st a hist HP HR HO HT st'.
    assert (fresh_session (happens st a) /\ logged st (happens st a)) as [F1 L1].
    { destruct a as [k| | |]; try done.
      - destruct HR as (Hcn & h & e & Ee & He). destruct (HO k ltac:(left)) as [O1 O2].
        assert (page_of r k = Some h) as Eh.
        { destruct k as [r' x|r' x|r' x|r' x i|r'|]; cbn [page_of event_of] in *; try done;
            destruct (String.eqb r' r); try done; destruct (snd _); try done; cbn in Ee; congruence. }
        assert (e = EvReload \/ exists r', e = EvHeadChanged r' /\ short r') as He'.
        { destruct He as [->|[r' ->]]; [by left|right]. exists r'. split; [done|].
          destruct k as [r0 x|r0 x|r0 x|r0 x i|r0|]; cbn [event_of] in Ee; try done;
            (destruct (String.eqb_spec r0 r) as [->|]; [|done]).
          - destruct (diff_route dp (ss_server st) r x) as [s' [e|]] eqn:Ed; [|done]. cbn in Ee. injection Ee as -> ->.
            unfold diff_route in Ed. destruct (hm_get _ _); [|done]. destruct (String.eqb _ _); [done|].
            by destruct (dp _ _) as [[]|].
          - unfold diff_route_with_head, cache_head in Ee. match type of Ee with context [if ?c then _ else _] => destruct c end.
            + cbn in Ee. by injection Ee as -> <-.
            + match type of Ee with option_map _ (snd ?x) = _ => destruct x as [s' [e|]] eqn:Ed end; [|done].
              cbn in Ee. injection Ee as -> ->.
              unfold diff_route in Ed. destruct (hm_get _ _); [|done]. destruct (String.eqb _ _); [done|].
              by destruct (dp _ _) as [[]|]. }
        pose proof (happens_server st (HCall k)) as ESV. cbn [PropMount.happens] in *. rewrite Ee, Hcn in *.
        rewrite reload_received by done. split; [|by apply logged_one]. intros o Eo. cbn [ss_server ss_doc] in *.
        rewrite (proj1 (step_spec dp (ss_server st) k r)) in Eo.
        assert (o = h) as ->.
        { destruct k as [r' x|r' x|r' x|r' x i|r'|]; cbn [page_of] in Eh; try done;
            destruct (String.eqb r' r); congruence. }
        split; [by apply O2|]. by apply load_shows, O2.
      - split; [|by apply logged_refl]. intros h Eh. cbn [PropMount.happens ss_server ss_doc] in *. rewrite Eh.
        split; [by apply HP|]. by apply load_shows, HP. }
    destruct (happen_fresh hist (happens st a) F1) as [F2 L2]; [intros k Hk; apply HO; by right|done|].
    split; [|by eapply logged_trans].
    intros h Eh. destruct (F2 h Eh) as (Hp & b & ats & ts & m & _ & P & W & ER & CS). exists m. split; [done|].
    destruct (HL h b ats ts Hp P) as (_ & OK & _). unfold to_body_html. rewrite (pd_body _ _ _ _ P).
    unfold st'. change (happen st (a :: hist)) with (happen (happens st a) hist).
    rewrite (shows_body_html _ _ m W CS), (ser_ts_btree _ _ ts OK).
    by rewrite (serialize_inner_holds _ ts b (pd_wf _ _ _ _ P) (pd_holds _ _ _ _ P)).
  Qed.
End Sessions.
Print Assumptions mounted_session_converges.

(** ** Examples *)

(** The pages of [PropClient.v] inside [<div id="app">]. *)
Definition ex_shell (s : string) : document :=
  mk_doc [el "title" [tx "T"]]
    [el "header" [tx "h"]; el_a "div" [ex_attr "id" "app"] (map btree (ex_content s)); el "footer" [tx "f"]].
Definition ex_session (pp load : string -> document) (sel : string) :=
  happen (diff_pages phash_eqb PH PH0 pp) ex_name ex_name no_parser by_id load sel "/".
Definition ex_start (pp load : string -> document) : session :=
  mkSession (run (diff_pages phash_eqb PH PH0 pp) [CCacheHtml "/" "1"]) (load "1") true [].

Definition ex_happenings : list happening :=
  [HDrop; HCall (CDiff "/x" "3"); HConnect; HCall (CDiff "/" "3"); HCall (CDiffHead "/" "2" "<style>"); HConnect;
   HCall (CDiffHead "/" "1" "<style>")].

(** A browser that shows nonsense; then a reload, a change of the head and two lists of
    patches bring it to page 1. *)
Example session_example :
  let st := mkSession (run (diff_pages phash_eqb PH PH0 ex_page) [CCacheHtml "/" "2"]) (mk_doc [] [tx "nonsense"]) true [] in
  (forall h b ats ts, ex_three h -> plain_doc (ex_page h) b ats ts ->
    (exists m, wf (doc_arena (ex_shell h)) /\ resolve_mount_point by_id (ex_shell h) "#app" = Val m /\
       holds_list (doc_arena (ex_shell h)) (map btree ts) (children (doc_arena (ex_shell h)) m)) /\
    (forall t, t ∈ ts -> names_ok ex_name ex_name t) /\ b_okn ex_name ex_name "body" ats /\
    mountable by_id "#app" ats) /\
  reloads (diff_pages phash_eqb PH PH0 ex_page) "/" st HLoad /\
  orderly "/" ex_three (HLoad :: HConnect :: ex_happenings)%list /\
  in_touch (diff_pages phash_eqb PH PH0 ex_page) ex_name ex_name no_parser by_id ex_shell "#app" "/"
    (happens (diff_pages phash_eqb PH PH0 ex_page) ex_name ex_name no_parser by_id ex_shell "#app" "/" st HLoad)
    (HConnect :: ex_happenings)%list /\
  let st' := ex_session ex_page ex_shell "#app" st (HLoad :: HConnect :: ex_happenings)%list in
  ss_log st' = [Val tt; Val tt; Val tt] /\
  to_body_html (ss_doc st') = Some
    "<header>h</header><div id=""app""><p>one</p><p xml:lang=""en"">two</p>end</div><footer>f</footer>".
Proof.
  cbv zeta. split.
  { intros h b ats ts Hh P.
    assert (b = 2) as ->. { pose proof (pd_body _ _ _ _ P) as E. destruct Hh as [->|[->| ->]]; vm_compute in E; congruence. }
    assert (ats = []) as ->. { pose proof (pd_data _ _ _ _ P) as E. destruct Hh as [->|[->| ->]]; vm_compute in E; congruence. }
    destruct (mk_doc_ok [] (ex_content h)) as (_ & _ & _ & _ & _ & _ & _ & _ & Hc & _).
    assert (ts = ex_content h) as ->. { eapply holds_list_inj; [apply P|exact Hc]. }
    split.
    { exists 7. split; [apply mk_doc_ok|]. split; [destruct Hh as [->|[->| ->]]; vm_compute; reflexivity|].
      destruct Hh as [->|[->| ->]]; vm_compute; repeat (constructor; repeat split). }
    split; [destruct Hh as [->|[->| ->]]; apply names_okb_list; vm_compute; reflexivity|].
    split; [split; [by split|by apply okab_sound]|]. right. split; [done|]. apply by_id_local. }
  split; [done|]. split.
  { intros k Hk. repeat (apply elem_of_cons in Hk as [Hk|Hk]; [first [done|injection Hk as ->; split; [done|];
      intros h Eh; vm_compute in Eh; first [done|injection Eh as <-; unfold ex_three; auto]]|]). by apply elem_of_nil in Hk. }
  split.
  { intros h1 k h2 h E Eh.
    repeat (destruct h1 as [|x h1]; cbn in E; [first [done|injection E as <- _; first [done|vm_compute; reflexivity]]|injection E as <- E]).
    by destruct h1. }
  vm_compute. split; reflexivity.
Qed.

(** Finding: a reconnected browser is not told what it missed.  The page changes while
    the connection is down; the next patches are applied to the old page, without
    any error, and the result is a page the server never had. *)
Theorem missed_event_refuted : exists hist st',
  ex_session ex_page' ex_page' "body" (ex_start ex_page' ex_page') hist = st' /\
  (forall k, HCall k ∈ hist -> overwrites "/" k = false) /\
  ss_conn st' = true /\ ss_log st' = [Val tt] /\
  hm_get (html_cache (ss_server st')) "/" = Some "3" /\
  to_body_html (ex_page' "3") = Some "<p>three</p>" /\
  to_body_html (ss_doc st') = Some "<p>three</p><p>two</p>".
Proof.
  exists [HDrop; HCall (CDiff "/" "2"); HConnect; HCall (CDiff "/" "3")]. eexists. split; [reflexivity|]. split.
  { intros k Hk. repeat (apply elem_of_cons in Hk as [Hk|Hk]; [first [done|by injection Hk as ->]|]). by apply elem_of_nil in Hk. }
  vm_compute. repeat split.
Qed.
Print Assumptions missed_event_refuted.

(** Finding: attributes of the page's body replace those of the mount point, so
    [#app] is not found the next time: the second change is lost (logged only). *)
Definition ex_classed (s : string) : document :=
  let d := mk_doc [] [el "p" [tx s]] in
  mkDoc (set_kind (doc_arena d) 2 (NElem "body" [ex_attr "class" "c"])) (doc_root d) (doc_doctype d).
Definition ex_classed_load (s : string) : document := mk_doc [] [el_a "div" [ex_attr "id" "app"] [el "p" [tx s]]].
Theorem mount_attributes_refuted : exists hist st',
  ex_session ex_classed ex_classed_load "#app" (ex_start ex_classed ex_classed_load) hist = st' /\
  ss_conn st' = true /\ ss_log st' = [Fail DomException; Val tt] /\
  to_body_html (ss_doc st') = Some "<div class=""c""><p>2</p></div>" /\
  hm_get (html_cache (ss_server st')) "/" = Some "3".
Proof.
  exists [HCall (CDiff "/" "2"); HCall (CDiff "/" "3")]. eexists. split; [reflexivity|]. vm_compute. repeat split.
Qed.
Print Assumptions mount_attributes_refuted.

(** Finding: the server always compares whole bodies.  If the mount point is inside the
    body that the server compares, patches hit the wrong nodes, without error. *)
Definition ex_whole (s : string) : document :=
  mk_doc [] [el "header" [tx s]; el_a "div" [ex_attr "id" "app"] [el "p" [tx "text"]]].
Theorem mount_inside_body_refuted : exists hist st',
  ex_session ex_whole ex_whole "#app" (ex_start ex_whole ex_whole) hist = st' /\
  ss_log st' = [Val tt] /\ hm_get (html_cache (ss_server st')) "/" = Some "2" /\
  to_body_html (ex_whole "2") = Some "<header>2</header><div id=""app""><p>text</p></div>" /\
  to_body_html (ss_doc st') = Some "<header>1</header><div id=""app""><p>2</p></div>".
Proof.
  exists [HCall (CDiff "/" "2")]. eexists. split; [reflexivity|]. vm_compute. repeat split.
Qed.
Print Assumptions mount_inside_body_refuted.
