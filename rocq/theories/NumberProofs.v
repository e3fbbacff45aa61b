(** How large the numbers in the patches of [diff] are (C51). *)
From stdpp Require Import list_numbers.
From Verif Require Import Base Arena ArenaProofs Dom Matching Chawathe HtmlDiff MatchProofs TreeProofs
  BuildProofs DomTree DiffTotal PayloadProofs.

(** No node has more than [K] children. *)
Definition fan {D} (a : arena D) (K : nat) : Prop := forall j, length (children a j) <= K.

Lemma fan_le {D} (a : arena D) K K' : fan a K -> K <= K' -> fan a K'.
Proof. intros H Hle j. specialize (H j). lia. Qed.

Section Arena.
  Context {D : Type}.
  Implicit Types a : arena D.

  Lemma remove_id_length i l : length (remove_id i l) <= length l.
  Proof. induction l as [|x l IH]; cbn; [lia|]. destruct (Nat.eqb x i); cbn; lia. Qed.
  Lemma insert_before_length sib n l : length (insert_before_list sib n l) <= S (length l).
  Proof. induction l as [|x l IH]; cbn; [lia|]. destruct (Nat.eqb x sib); cbn; lia. Qed.

  Lemma set_children_le a p cs j :
    length (children (set_children a p cs) j) <= if Nat.eqb j p then length cs else length (children a j).
  Proof.
    destruct (decide (p < length a)) as [Hp|Hp].
    - rewrite children_set_children by done. by destruct (Nat.eqb j p).
    - destruct (Nat.eqb_spec j p) as [->|Hn].
      + rewrite children_ge; [cbn; lia|]. rewrite length_set_children. lia.
      + unfold set_children, children. rewrite list_lookup_alter_ne by done. done.
  Qed.
  Lemma detach_le a i j : length (children (detach a i) j) <= length (children a j).
  Proof.
    unfold detach. destruct (parent a i) as [p|]; [|done]. rewrite children_set_parent.
    pose proof (set_children_le a p (remove_id i (children a p)) j) as H. pose proof (remove_id_length i (children a p)).
    destruct (Nat.eqb_spec j p) as [->|]; lia.
  Qed.
  Lemma fan_detach a i K : fan a K -> fan (detach a i) K.
  Proof. intros H j. pose proof (detach_le a i j). specialize (H j). lia. Qed.
  Lemma fan_new a d K : fan a K -> fan (fst (new_node a d)) K.
  Proof. intros H j. rewrite children_new. apply H. Qed.

  Lemma append_le a p c a' j : append a p c = Val a' ->
    length (children a' j) <= length (children a j) + (if Nat.eqb j p then 1 else 0).
  Proof.
    unfold append. destruct (Nat.eqb p c); [done|]. destruct (is_ancestor a c p) as [[]|]; try done.
    cbv zeta. intros [= <-]. rewrite children_set_parent.
    pose proof (set_children_le (detach a c) p (children (detach a c) p ++ [c]) j) as H. revert H. rewrite app_length. cbn [length].
    pose proof (detach_le a c j). destruct (Nat.eqb_spec j p) as [->|]; lia.
  Qed.
  Lemma append_len a p c a' : append a p c = Val a' -> length a' = length a.
  Proof.
    unfold append. destruct (Nat.eqb p c); [done|]. destruct (is_ancestor a c p) as [[]|]; try done.
    cbv zeta. intros [= <-]. unfold set_parent, set_children. by rewrite !alter_length, length_detach.
  Qed.
  Lemma fan_append a p c a' K : append a p c = Val a' -> fan a K -> fan a' (S K).
  Proof. intros E H j. pose proof (append_le _ _ _ _ j E). specialize (H j). destruct (Nat.eqb j p); lia. Qed.

  Lemma insert_le a sib n a' j : insert_before a sib n = Val a' ->
    length (children a' j) <= length (children a j) + (if Nat.eqb j n then 0 else 1).
  Proof.
    unfold insert_before. destruct (Nat.eqb sib n); [done|]. cbv zeta. pose proof (detach_le a n j) as Hd.
    destruct (parent (detach a n) sib) as [p|]; [|intros [= <-]; lia].
    destruct (Nat.eqb_spec p n) as [|Hpn]; [done|]. intros [= <-]. rewrite children_set_parent.
    pose proof (set_children_le (detach a n) p (insert_before_list sib n (children (detach a n) p)) j) as H.
    pose proof (insert_before_length sib n (children (detach a n) p)).
    destruct (Nat.eqb_spec j p) as [->|]; [|lia]. destruct (Nat.eqb_spec p n) as [|]; [done|]. lia.
  Qed.
  Lemma insert_len a sib n a' : insert_before a sib n = Val a' -> length a' = length a.
  Proof.
    unfold insert_before. destruct (Nat.eqb sib n); [done|]. cbv zeta.
    destruct (parent (detach a n) sib) as [p|]; [|intros [= <-]; by rewrite length_detach].
    destruct (Nat.eqb p n); [done|]. intros [= <-]. unfold set_parent, set_children.
    by rewrite !alter_length, length_detach.
  Qed.
  Lemma fan_insert a sib n a' K : insert_before a sib n = Val a' -> fan a K -> fan a' (S K).
  Proof. intros E H j. pose proof (insert_le _ _ _ _ j E). specialize (H j). destruct (Nat.eqb j n); lia. Qed.

  Lemma new_len a d : length (fst (new_node a d)) = S (length a).
  Proof. cbn. rewrite app_length. cbn. lia. Qed.

  Lemma fill_gaps_ok (d : D) p K : forall k a a', fill_gaps k d a p = Val a' -> fan a K ->
    length (children a p) + k <= K -> fan a' K /\ length a' = length a + k.
  Proof.
    induction k as [|k IH]; intros a a' E Ha Hk; cbn [fill_gaps] in E; [injection E as <-; split; [done|lia]|].
    destruct (new_node a d) as [a1 i] eqn:En. bnd E a2 E1.
    assert (a1 = fst (new_node a d)) as -> by (by rewrite En).
    destruct (IH a2 a' E) as [H1 H2].
    - intros j. pose proof (append_le _ _ _ _ j E1) as Hj. rewrite children_new in Hj. specialize (Ha j).
      destruct (Nat.eqb_spec j p) as [->|]; lia.
    - pose proof (append_le _ _ _ _ p E1) as Hj. rewrite children_new, Nat.eqb_refl in Hj. lia.
    - split; [done|]. rewrite H2, (append_len _ _ _ _ E1), new_len. lia.
  Qed.

  Lemma wf_fan a : wf a -> fan a (length a).
  Proof.
    intros W p. rewrite <- (seq_length (length a) 0). apply submseteq_length, NoDup_submseteq; [apply (wf_nd _ W)|].
    intros x Hx. apply elem_of_seq. pose proof (wf_child_lt _ _ _ W Hx). lia.
  Qed.

  Lemma index_of_lt x l k : index_of x l = Some k -> k < length l.
  Proof.
    revert k. induction l as [|y l IH]; intros k; cbn; [done|]. destruct (Nat.eqb y x); [intros [= <-]; lia|].
    destruct (index_of x l); [|done]. intros [= <-]. specialize (IH _ eq_refl). lia.
  Qed.
End Arena.

(** ** The shadow tree *)

Record sh_ok (s : shadow) (K L : nat) : Prop := {
  so_fan : fan (sh_arena s) K;
  so_next : sh_next s <= K;
  so_len : length (sh_arena s) <= L
}.
Lemma sh_ok_le s K L K' L' : sh_ok s K L -> K <= K' -> L <= L' -> sh_ok s K' L'.
Proof. intros [] ? ?. split; [by eapply fan_le|lia|lia]. Qed.

Definition small (N : nat) (q : path) : Prop := Forall (fun n => n <= N) q.

Lemma pos_in_le a K p c : fan a K -> pos_in a p c <= K.
Proof.
  intros H. unfold pos_in. destruct (index_of c (children a p)) as [k|] eqn:E; [|lia].
  apply index_of_lt in E. specialize (H p). lia.
Qed.
Lemma path_loop_small s K : fan (sh_arena s) K -> forall f cur acc q,
  path_loop f s cur acc = Val q -> small K acc -> small K q /\ length q <= length acc + f.
Proof.
  intros HK. induction f as [|f IH]; intros cur acc q E Ha; [done|]. cbn [path_loop] in E.
  destruct (parent (sh_arena s) cur) as [p|]; [|injection E as <-; split; [done|lia]].
  destruct (match parent (sh_arena s) p with Some _ => _ | None => _ end).
  - injection E as <-. split; [constructor; [by apply pos_in_le|done]|cbn; lia].
  - apply IH in E; [|constructor; [by apply pos_in_le|done]]. cbn in E. split; [apply E|lia].
Qed.
Lemma compute_path_small s K L n q : sh_ok s K L -> compute_path s n = Val q -> small K q /\ length q <= S L.
Proof.
  intros [HK _ HL] E. unfold compute_path in E. apply (path_loop_small s K HK) in E as [H1 H2]; [|constructor].
  split; [done|]. unfold chain_fuel in H2. cbn in H2. lia.
Qed.
Lemma ref_small s K L p pos q : sh_ok s K L -> ref_with_position s p pos = Val q -> pos <= K ->
  small K q /\ length q <= S (S L).
Proof.
  intros HS E Hp. unfold ref_with_position in E. bnd E q' E1. injection E as <-.
  destruct (compute_path_small _ _ _ _ _ HS E1) as [H1 H2]. split; [apply Forall_app; split; [done|by repeat constructor]|].
  rewrite app_length. cbn. lia.
Qed.

Lemma detach_to_slot_ok s n s' k K L : detach_to_slot s n = Val (s', k) -> sh_ok s K L ->
  sh_ok s' (K + 2) (L + 1) /\ k <= K.
Proof.
  intros E [HK HN HL]. unfold detach_to_slot in E. destruct (new_node (sh_arena s) marker) as [a1 slot] eqn:En.
  assert (a1 = fst (new_node (sh_arena s) marker)) as -> by (by rewrite En).
  bnd E a2 E1. bnd E slot' E2. bnd E a3 E3. injection E as <- <-. split; [|done]. split; cbn.
  - eapply fan_le; [eapply fan_append; [exact E3|]; apply fan_detach; eapply fan_append; [exact E1|]; by apply fan_new|lia].
  - lia.
  - rewrite (append_len _ _ _ _ E3), length_detach, (append_len _ _ _ _ E1), new_len. lia.
Qed.

Lemma placeholder_ok s n s' K L : detach_with_placeholder s n = Val s' -> sh_ok s K L -> sh_ok s' (K + 1) (L + 1).
Proof.
  intros E [HK HN HL]. unfold detach_with_placeholder in E. destruct (new_node _ _) as [a1 e] eqn:En.
  assert (a1 = fst (new_node (sh_arena s) (mkTD KText [] None))) as -> by (by rewrite En).
  bnd E a2 E1. injection E as <-. split; cbn.
  - apply fan_detach. eapply fan_le; [eapply fan_insert; [exact E1|by apply fan_new]|lia].
  - lia.
  - rewrite length_detach, (insert_len _ _ _ _ E1), new_len. lia.
Qed.

Lemma replace_ok s n s' K L : replace_with_placeholder s n = Val s' -> sh_ok s K L -> sh_ok s' (K + 1) (L + 1).
Proof.
  intros E [HK HN HL]. unfold replace_with_placeholder in E. destruct (new_node _ _) as [a1 e] eqn:En.
  assert (a1 = fst (new_node (sh_arena s) (mkTD KText [] None))) as -> by (by rewrite En).
  assert (e = length (sh_arena s)) as -> by (unfold new_node in En; by injection En).
  bnd E a2 E1. bnd E a3 E2. injection E as <-.
  assert (forall l a a', (fix go (l : list nat) (a : arena tdata) : outcome (arena tdata) :=
         match l with
         | [] => Val a
         | c :: l' => let! a' := append (detach a c) (length (sh_arena s)) c in go l' a'
         end) l a = Val a' ->
    length a' = length a /\ forall j, length (children a' j) <= length (children a j) + (if Nat.eqb j (length (sh_arena s)) then length l else 0)) as HG.
  { induction l as [|c l IHl]; intros a a' E.
    - injection E as <-. split; [done|]. intros j. lia.
    - bnd E b Eb. apply IHl in E as [H1 H2]. rewrite (append_len _ _ _ _ Eb), length_detach in H1. split; [done|].
      intros j. specialize (H2 j). pose proof (append_le _ _ _ _ j Eb). pose proof (detach_le a c j). cbn [length].
      destruct (Nat.eqb j _); lia. }
  apply HG in E2 as [H1 H2]. rewrite (insert_len _ _ _ _ E1), new_len in H1. split; cbn.
  - apply fan_detach. intros j. specialize (H2 j). pose proof (insert_le _ _ _ _ j E1) as Hj. rewrite children_new in Hj.
    pose proof (insert_le _ _ _ _ n E1) as Hn. rewrite children_new in Hn. pose proof (HK n). pose proof (HK j).
    destruct (Nat.eqb_spec j (length (sh_arena s))) as [Ej|]; [|lia]. rewrite Ej in Hj, H2 |- *.
    rewrite (children_ge (sh_arena s)) in Hj by lia. cbn in Hj. destruct (Nat.eqb n _); lia.
  - lia.
  - rewrite length_detach, H1. lia.
Qed.

Lemma sh_insert_ok s p pos n s' o K L : sh_insert s p pos n = Val (s', o) -> sh_ok s K L -> pos <= K ->
  sh_ok s' (K + 3) (L + pos + 1) /\ (forall k, o = Some k -> k <= K).
Proof.
  intros E HS Hp. unfold sh_insert in E. cbv zeta in E.
  assert (forall a occ, fan a K -> length a <= L + pos ->
    (let! a1 := insert_before a occ n in
     let! (s1, k) := detach_to_slot (sh_with s a1) occ in Val (s1, Some k)) = Val (s', o) ->
    sh_ok s' (K + 3) (L + pos + 1) /\ (forall k, o = Some k -> k <= K)) as HD.
  { intros a occ Ha Hl E'. bnd E' a1 E1. bnd E' sk E2. destruct sk as [s1 k]. injection E' as <- <-.
    assert (k = sh_next s) as ->.
    { unfold detach_to_slot in E2. destruct (new_node _ _). bnd E2 x1 X1. bnd E2 x2 X2. bnd E2 x3 X3. by injection E2 as _ <-. }
    apply (detach_to_slot_ok _ _ _ _ (S K) (L + pos)) in E2 as [H1 H2].
    - split; [eapply sh_ok_le; [exact H1|lia|lia]|]. intros k [= <-]. apply (so_next _ _ _ HS).
    - split; cbn; [by eapply fan_insert|pose proof (so_next _ _ _ HS); lia|by rewrite (insert_len _ _ _ _ E1)]. }
  destruct (children (sh_arena s) p !! pos) as [occ|] eqn:Eo.
  { eapply HD; [apply (so_fan _ _ _ HS)| |exact E]. pose proof (so_len _ _ _ HS). lia. }
  bnd E a1 E1. pose proof (so_fan _ _ _ HS p). apply lookup_ge_None in Eo.
  apply (fill_gaps_ok _ _ K) in E1 as [H1 H2]; [|apply (so_fan _ _ _ HS)|lia].
  pose proof (so_len _ _ _ HS). destruct (children a1 p !! pos) as [occ|].
  - eapply HD; [exact H1|lia|exact E].
  - bnd E a2 E2. injection E as <- <-. split; [|done]. split; cbn.
    + eapply fan_le; [by eapply fan_append|lia].
    + pose proof (so_next _ _ _ HS). lia.
    + rewrite (append_len _ _ _ _ E2). lia.
Qed.

Lemma sh_move_ok s n p pos s' o K L : sh_move s n p pos = Val (s', o) -> sh_ok s K L -> pos <= K ->
  sh_ok s' (K + 4) (L + pos + 2) /\ (forall k, o = Some k -> k <= K + 1).
Proof.
  intros E HS Hp. unfold sh_move in E. bnd E anc E0. cbv zeta in E. bnd E s1 E1.
  assert (sh_ok s1 (K + 1) (L + 1)) as HS1.
  { destruct anc; [by eapply replace_ok|]. destruct (match parent (sh_arena s) n with Some _ => _ | None => _ end); [|by eapply placeholder_ok].
    injection E1 as <-. destruct HS. split; cbn; [eapply fan_le; [by apply fan_detach|lia]|lia|rewrite length_detach; lia]. }
  clear E1 HS E0.
  assert (forall a occ, fan a (K + 1) -> length a <= L + pos + 1 ->
    (if Nat.eqb occ n then Val (sh_with s1 a, None)
      else
        let! a1 := insert_before a occ n in
        let! (s2, k) := detach_to_slot (sh_with s1 a1) occ in
        Val (s2, Some k)) = Val (s', o) ->
    sh_ok s' (K + 4) (L + pos + 2) /\ (forall k, o = Some k -> k <= K + 1)) as HD.
  { intros a occ Ha Hl E'. destruct (Nat.eqb occ n).
    { injection E' as <- <-. split; [|done]. pose proof (so_next _ _ _ HS1). split; cbn; [eapply fan_le; [done|lia]|lia|lia]. }
    bnd E' a1 E1. bnd E' sk E2. destruct sk as [s2 k]. injection E' as <- <-.
    assert (k = sh_next s1) as ->.
    { unfold detach_to_slot in E2. destruct (new_node _ _). bnd E2 x1 X1. bnd E2 x2 X2. bnd E2 x3 X3. by injection E2 as _ <-. }
    apply (detach_to_slot_ok _ _ _ _ (S (K + 1)) (L + pos + 1)) in E2 as [H1 H2].
    - split; [eapply sh_ok_le; [exact H1|lia|lia]|]. intros k [= <-]. apply (so_next _ _ _ HS1).
    - split; cbn; [by eapply fan_insert|pose proof (so_next _ _ _ HS1); lia|by rewrite (insert_len _ _ _ _ E1)]. }
  pose proof (so_len _ _ _ HS1). pose proof (so_fan _ _ _ HS1 p). pose proof (so_next _ _ _ HS1).
  destruct (children (sh_arena s1) p !! pos) as [occ|] eqn:Eo.
  { eapply HD; [apply (so_fan _ _ _ HS1)| |exact E]. lia. }
  bnd E a1 E1. apply lookup_ge_None in Eo.
  apply (fill_gaps_ok _ _ (K + 1)) in E1 as [H3 H4]; [|apply (so_fan _ _ _ HS1)|lia].
  destruct (children a1 p !! pos) as [occ|].
  - eapply HD; [exact H3|lia|exact E].
  - bnd E a2 E2. injection E as <- <-. split; [|done]. split; cbn.
    + eapply fan_le; [by eapply fan_append|lia].
    + lia.
    + rewrite (append_len _ _ _ _ E2). lia.
Qed.

(** ** Patches *)

(** All numbers in [p] are at most [N], all paths have at most [L] steps. *)
Definition osmall (N : nat) (o : option nat) : Prop := match o with Some k => k <= N | None => True end.
Definition spath (N L : nat) (q : path) : Prop := small N q /\ length q <= L.
Definition numbers (N L : nat) (p : patch) : Prop :=
  match p with
  | PInsertElement q _ _ _ o | PInsertText q _ o | PInsertComment q _ o => spath N L q /\ osmall N o
  | PMove q q' o => spath N L q /\ spath N L q' /\ osmall N o
  | PRemove q | PSetText q _ | PSetAttribute q _ _ | PRemoveAttribute q _ | PUpdateProps q _ | POpaqueChanged q _ =>
      spath N L q
  end.
Lemma spath_le N L N' L' q : spath N L q -> N <= N' -> L <= L' -> spath N' L' q.
Proof. intros [H1 H2] ? ?. split; [|lia]. eapply Forall_impl; [exact H1|]. cbn. lia. Qed.

Section Convert.
  Context {H : Type}.
  Variable tb : dtree H hkind attrs string.
  Variables K0 L0 M : nat.
  Hypothesis M_le : M <= K0.

  Definition cs_ok (s : cstate) : Prop :=
    sh_ok (cs_shadow s) (K0 + 4 * length (cs_out s)) (L0 + (M + 3) * length (cs_out s)).
  Definition fine (k : nat) : patch -> Prop := numbers (K0 + 4 * k) (L0 + (M + 3) * k + 3).

  Definition op_fine (op : hop) : Prop :=
    match op with Insert _ _ pos _ | Move _ _ _ pos => pos <= M | _ => True end.

  Lemma reparent_fine par pos k : forall l s s', reparent_loop l par pos s = Val s' -> cs_ok s ->
    length (cs_out s) + length l < k ->
    (forall i c, (i, c) ∈ l -> pos + 1 + i <= K0 + 4 * k) ->
    Forall (fine k) (cs_out s) ->
    cs_ok s' /\ length (cs_out s') = length (cs_out s) + length l /\ Forall (fine k) (cs_out s') /\ cs_b2s s' = cs_b2s s.
  Proof.
    induction l as [|[i c] l IH]; intros s s' E HS Hk Hc HF.
    { injection E as <-. cbn. split; [done|]. split; [lia|done]. }
    cbn [reparent_loop] in E. bnd E from E1. bnd E sh1 E2. bnd E a2 E3. bnd E to E4.
    unfold cs_ok in HS.
    destruct (compute_path_small _ _ _ _ _ HS E1) as [Hf1 Hf2].
    pose proof (placeholder_ok _ _ _ _ _ E2 HS) as HS1.
    assert (length (cs_out s) < k) as Hlk by (cbn in Hk; lia).
    assert (sh_ok (sh_with sh1 a2) (K0 + 4 * length (cs_out s) + 2) (L0 + (M + 3) * length (cs_out s) + 1)) as HS2.
    { destruct HS1 as [X1 X2 X3]. split; cbn.
      - eapply (fan_le _ (S (K0 + 4 * length (cs_out s) + 1))); [|lia].
        destruct (children (sh_arena sh1) par !! (pos + 1 + i)) as [sib|]; [by eapply fan_insert|by eapply fan_append].
      - lia.
      - destruct (children (sh_arena sh1) par !! (pos + 1 + i)) as [sib|];
          [rewrite (insert_len _ _ _ _ E3)|rewrite (append_len _ _ _ _ E3)]; lia. }
    eapply IH in E as (H1 & H2 & H3 & H4).
    - split; [done|]. split; [|split; [done|by rewrite H4]]. rewrite H2. cbn. rewrite app_length. cbn. lia.
    - unfold cs_ok. cbn. rewrite app_length. cbn [length]. eapply sh_ok_le; [exact HS2|lia|nia].
    - cbn. rewrite app_length. cbn in *. lia.
    - intros i' c' Hi. eapply Hc. by right.
    - cbn. apply Forall_app. split; [done|]. constructor; [|constructor]. cbn. split; [|split; [|done]].
      + eapply spath_le; [split; [exact Hf1|exact Hf2]|lia|nia].
      + assert (pos + 1 + i <= K0 + 4 * k) as Hcp by (eapply (Hc i c); left).
        assert (sh_ok (sh_with sh1 a2) (K0 + 4 * k) (L0 + (M + 3) * k + 1)) as HS3 by (eapply sh_ok_le; [exact HS2|lia|nia]).
        destruct (ref_small _ _ _ _ _ _ HS3 E4 Hcp) as [Hr1 Hr2]. split; [done|lia].
  Qed.

  Lemma convert_op_fine ins s op s' k : convert_op tb ins s op = Val s' -> cs_ok s -> op_fine op ->
    length (cs_out s') <= k -> Forall (fine k) (cs_out s) ->
    cs_ok s' /\ Forall (fine k) (cs_out s') /\ length (cs_out s) < length (cs_out s').
  Proof.
    intros E HS Ho Hk HF.
    assert (forall s' p, cs_out s' = cs_out s ++ [p] -> length (cs_out s') <= k -> fine k p ->
      sh_ok (cs_shadow s') (K0 + 4 * length (cs_out s) + 4) (L0 + (M + 3) * length (cs_out s) + M + 3) ->
      cs_ok s' /\ Forall (fine k) (cs_out s') /\ length (cs_out s) < length (cs_out s')) as HOne.
    { intros s0 p Ep Hlk Hp HS0. unfold cs_ok. rewrite Ep, app_length. cbn [length].
      split; [eapply sh_ok_le; [exact HS0|lia|nia]|]. split; [|lia]. apply Forall_app. by repeat constructor. }
    unfold cs_ok in HS.
    assert (forall s0 p, cs_out s0 = cs_out s ++ [p] -> length (cs_out s0) <= k -> length (cs_out s) < k) as Hlt.
    { intros s0 p Ep Hl. rewrite Ep, app_length in Hl. cbn in Hl. lia. }
    assert (forall n q, compute_path (cs_shadow s) n = Val q -> length (cs_out s) < k -> spath (K0 + 4 * k) (L0 + (M + 3) * k + 3) q) as HP.
    { intros n q Eq Hlk. destruct (compute_path_small _ _ _ _ _ HS Eq). eapply spath_le; [by split|lia|nia]. }
    destruct op as [x y ch|b pb pos kind|x|x b pb pos|x y t]; cbn [convert_op] in E; cbn [op_fine] in Ho.
    - bnd E p E1. injection E as <-. eapply HOne; [reflexivity|done| |cbn; eapply sh_ok_le; [exact HS|lia|nia]].
      eapply HP; [exact E1|]. eapply Hlt; [|exact Hk]; reflexivity.
    - bnd E sp E1. destruct (new_node _ _) as [a1 n] eqn:En. bnd E shs E2. destruct shs as [sh1 slot].
      bnd E at_ E3. bnd E p Ep. injection E as <-.
      assert (a1 = fst (new_node (sh_arena (cs_shadow s)) {| td_kind := kind; td_props := t_props tb b; td_text := t_text tb b |}))
        as Ea1 by (by rewrite En).
      eapply sh_insert_ok in E2 as [HS1 Hslot]; [| |].
      2:{ split; [rewrite Ea1; apply fan_new, (so_fan _ _ _ HS)|apply (so_next _ _ _ HS)|].
          cbn [sh_with sh_arena]. rewrite Ea1, new_len. pose proof (so_len _ _ _ HS) as HL.
          apply le_n_S, HL. }
      2: lia.
      assert (length (cs_out s) < k) as Hlk by (eapply (Hlt _ p); [|exact Hk]; reflexivity).
      eapply HOne; [reflexivity|done| |].
      2:{ eapply sh_ok_le; [exact HS1|lia|lia]. }
      assert (spath (K0 + 4 * k) (L0 + (M + 3) * k + 3) at_) as Hat.
      { assert (sh_ok sh1 (K0 + 4 * k) (L0 + (M + 3) * k)) as HS2 by (eapply sh_ok_le; [exact HS1|lia|nia]).
        destruct (ref_small _ _ _ _ _ _ HS2 E3 ltac:(lia)). split; [done|lia]. }
      assert (osmall (K0 + 4 * k) slot) as Hsl.
      { destruct slot as [z|]; [|done]. cbn. specialize (Hslot z eq_refl). lia. }
      destruct kind as [tag ns| |]; [bnd Ep cs Ecs|..]; injection Ep as <-; cbn; done.
    - bnd E p E1. bnd E s1 E2. injection E as <-. eapply HOne; [reflexivity|done| |].
      + eapply HP; [exact E1|]. eapply Hlt; [|exact Hk]; reflexivity.
      + cbn. eapply sh_ok_le; [by eapply placeholder_ok|lia|nia].
    - bnd E sp E1. bnd E anc E2. bnd E s1 E3. bnd E p E4. bnd E shs E5. destruct shs as [sh2 slot]. bnd E to E6.
      injection E as <-. cbn [cs_out] in Hk. rewrite app_length in Hk. cbn [length] in Hk.
      assert (cs_ok s1 /\ Forall (fine k) (cs_out s1) /\ length (cs_out s) <= length (cs_out s1)) as (HS1 & HF1 & Hle).
      { destruct anc; [|by injection E3 as <-]. bnd E3 par E7.
        assert (length (cs_out s1) = length (cs_out s) + length (rev (combine (seq 0 (length (children (sh_arena (cs_shadow s)) x))) (children (sh_arena (cs_shadow s)) x)))) as Hlen.
        { revert E3. generalize (pos_in (sh_arena (cs_shadow s)) par x) as q.
          generalize (rev (combine (seq 0 (length (children (sh_arena (cs_shadow s)) x))) (children (sh_arena (cs_shadow s)) x))) as l.
          clear. intros l q. revert s. induction l as [|[i c] l IH]; intros s E; [injection E as <-; cbn; lia|].
          cbn [reparent_loop] in E. bnd E from E1. bnd E sh1 E2. bnd E a2 E3. bnd E to E4. apply IH in E.
          rewrite E. cbn. rewrite app_length. cbn. lia. }
        eapply (reparent_fine par _ k) in E3 as (H1 & H2 & H3 & _); [split; [done|split; [done|lia]]|done|lia| |done].
        intros i c Hic. apply elem_of_list_In, in_rev, elem_of_list_In in Hic.
        apply combine_elem in Hic as [Hi _]. apply elem_of_seq in Hi.
        pose proof (pos_in_le (sh_arena (cs_shadow s)) _ par x (so_fan _ _ _ HS)).
        rewrite rev_length, combine_length, seq_length, Nat.min_id in Hlen. lia. }
      unfold cs_ok in HS1.
      assert (spath (K0 + 4 * k) (L0 + (M + 3) * k + 3) p) as Hp.
      { destruct (compute_path_small _ _ _ _ _ HS1 E4). eapply spath_le; [by split|lia|nia]. }
      eapply sh_move_ok in E5 as [HS2 Hslot]; [|exact HS1|lia].
      assert (sh_ok sh2 (K0 + 4 * k) (L0 + (M + 3) * k)) as HS3 by (eapply sh_ok_le; [exact HS2|lia|nia]).
      destruct (ref_small _ _ _ _ _ _ HS3 E6 ltac:(lia)) as [Hr1 Hr2].
      unfold cs_ok. cbn [cs_out cs_shadow]. rewrite app_length. cbn [length].
      split; [eapply sh_ok_le; [exact HS2|lia|nia]|]. split; [|lia].
      apply Forall_app. split; [done|]. constructor; [|constructor]. cbn. split; [done|]. split; [split; [done|lia]|].
      destruct slot as [z|]; [|done]. cbn. specialize (Hslot z eq_refl). lia.
    - bnd E p E1. injection E as <-. eapply HOne; [reflexivity|done| |cbn; eapply sh_ok_le; [exact HS|lia|nia]].
      eapply HP; [exact E1|]. eapply Hlt; [|exact Hk]; reflexivity.
  Qed.
End Convert.

Section Loop.
  Context {H : Type}.
  Variable tb : dtree H hkind attrs string.
  Variables K0 L0 M : nat.
  Hypothesis M_le : M <= K0.

  Lemma convert_op_mono ins s op s' : convert_op tb ins s op = Val s' -> length (cs_out s) <= length (cs_out s').
  Proof.
    intros E. destruct op as [x y ch|b pb pos kind|x|x b pb pos|x y t]; cbn [convert_op] in E.
    - bnd E p E1. injection E as <-. cbn. rewrite app_length. lia.
    - bnd E sp E1. destruct (new_node _ _) as [a1 n]. bnd E shs E2. destruct shs as [sh1 slot].
      bnd E at_ E3. bnd E p Ep. injection E as <-. cbn. rewrite app_length. lia.
    - bnd E p E1. bnd E p' E2. injection E as <-. cbn. rewrite app_length. lia.
    - bnd E sp E1. bnd E anc E2. bnd E s1 E3. bnd E p E4. bnd E shs E5. destruct shs as [sh2 slot]. bnd E to E6.
      injection E as <-. cbn. rewrite app_length. destruct anc; [|injection E3 as <-; lia]. bnd E3 par E7.
      assert (length (cs_out s) <= length (cs_out s1)); [|lia].
      revert E3. generalize (pos_in (sh_arena (cs_shadow s)) par x) as q.
      generalize (rev (combine (seq 0 (length (children (sh_arena (cs_shadow s)) x))) (children (sh_arena (cs_shadow s)) x))) as l.
      clear. intros l q. revert s. induction l as [|[i c] l IH]; intros s E; [injection E as <-; cbn; lia|].
      cbn [reparent_loop] in E. bnd E from E1. bnd E sh1 E2. bnd E a2 E3. bnd E to E4. apply IH in E.
      revert E. cbn. rewrite app_length. lia.
    - bnd E p E1. injection E as <-. cbn. rewrite app_length. lia.
  Qed.
  Lemma convert_loop_mono ins : forall ops s s', convert_loop tb ins s ops = Val s' -> length (cs_out s) <= length (cs_out s').
  Proof.
    induction ops as [|op ops IH]; intros s s' E; [injection E as <-; done|]. cbn [convert_loop] in E. bnd E s1 E1.
    apply convert_op_mono in E1. apply IH in E. lia.
  Qed.
  Lemma convert_loop_fine ins k : forall ops s s', convert_loop tb ins s ops = Val s' -> cs_ok K0 L0 M s ->
    Forall (op_fine M) ops -> length (cs_out s') <= k -> Forall (fine K0 L0 M k) (cs_out s) ->
    Forall (fine K0 L0 M k) (cs_out s').
  Proof.
    induction ops as [|op ops IH]; intros s s' E HS Ho Hk HF; [by injection E as <-|]. cbn [convert_loop] in E. bnd E s1 E1.
    inversion Ho; subst. pose proof (convert_loop_mono _ _ _ _ E).
    destruct (convert_op_fine tb K0 L0 M M_le _ _ _ _ k E1 HS) as (HC1 & HC2 & _); [done|lia|done|].
    by eapply IH.
  Qed.
End Loop.

Lemma shadow_new_ok t s K L : shadow_new t 0 = Val s -> fan t K -> length t <= L -> sh_ok s (K + 2) (L + 2).
Proof.
  intros E HK HL. unfold shadow_new in E. destruct (new_node t marker) as [a1 super] eqn:E1.
  destruct (new_node a1 marker) as [a2 slot0] eqn:E2. bnd E a3 E3. bnd E a4 E4. injection E as <-.
  assert (a1 = fst (new_node t marker)) as -> by (by rewrite E1).
  assert (a2 = fst (new_node (fst (new_node t marker)) marker)) as -> by (by rewrite E2).
  split; cbn [sh_arena sh_next].
  - eapply (fan_le _ (S (S K))); [|lia]. eapply fan_append; [exact E4|]. apply fan_detach. eapply fan_append; [exact E3|].
    by apply fan_new, fan_new.
  - lia.
  - rewrite (append_len _ _ _ _ E4), length_detach, (append_len _ _ _ _ E3), !new_len. lia.
Qed.

Lemma add_children_len doc : forall f r t p t', is_tree doc r -> add_children f doc t p (rid r) = Val t' ->
  length t' + 1 <= length t + length (preorder r).
Proof.
  induction f as [|f IH]; intros r t p t' Hr E; [done|]. rewrite add_children_S in E.
  rewrite (is_tree_children _ _ Hr) in E. rewrite preorder_eq. cbn [length].
  assert (forall u, u ∈ rsub r -> is_tree doc u) as Hs by (intros u Hu; by eapply is_tree_sub).
  revert t t' E Hs. generalize (rsub r) as us. clear r Hr.
  induction us as [|u us IHu]; intros t t' E Hs; cbn [map add_go flat_map] in *; [injection E as <-; cbn; lia|].
  rewrite app_length. assert (is_tree doc u) as Hu by (apply Hs; left).
  assert (1 <= length (preorder u)) as H1 by (rewrite preorder_eq; cbn; lia).
  assert (forall u', u' ∈ us -> is_tree doc u') as Hs' by (intros; apply Hs; by right).
  destruct (data doc (rid u)) as [d|]; [|done].
  destruct (d_kind d).
  - apply IHu in E; [lia|done].
  - destruct (new_node t (tdata_of d)) as [t1 n] eqn:En. bnd E t2 E2. bnd E t3 E3. apply IHu in E; [|done].
    apply IH in E3; [|done]. rewrite (append_len _ _ _ _ E2) in E3.
    assert (t1 = fst (new_node t (tdata_of d))) as -> by (by rewrite En). rewrite new_len in E3. lia.
  - destruct (new_node t (tdata_of d)) as [t1 n] eqn:En. bnd E t2 E2. apply IHu in E; [|done].
    rewrite (append_len _ _ _ _ E2) in E. assert (t1 = fst (new_node t (tdata_of d))) as -> by (by rewrite En).
    rewrite new_len in E. lia.
  - destruct (new_node t (tdata_of d)) as [t1 n] eqn:En. bnd E t2 E2. apply IHu in E; [|done].
    rewrite (append_len _ _ _ _ E2) in E. assert (t1 = fst (new_node t (tdata_of d))) as -> by (by rewrite En).
    rewrite new_len in E. lia.
Qed.

(** The body has elements, texts and comments only. *)
Definition html_body (d : document) : Prop :=
  forall b, body d = Some b -> exists hs, holds_list (doc_arena d) hs (children (doc_arena d) b).

Lemma build_tree_small d b t : wf (doc_arena d) -> html_body d -> body d = Some b -> build_tree (doc_arena d) b = Val t ->
  length t <= length (doc_arena d) /\ fan t (length (doc_arena d)).
Proof.
  intros W HB Eb E. destruct (body_data d b Eb) as (x & Ex). destruct (HB b Eb) as (hs & Hh).
  destruct (build_tree_ok _ _ _ _ W Ex Hh) as (t' & Et & HT). rewrite E in Et. injection Et as <-.
  assert (length t <= length (doc_arena d)) as HL.
  { destruct (tree_exists (doc_arena d) b W) as (r & Er & Hr). unfold build_tree in E. rewrite Ex, <- Er in E.
    apply add_children_len in E; [|done]. cbn [length] in E.
    pose proof (is_tree_size _ _ W Hr). apply data_lt in Ex. rewrite Er in *. lia. }
  split; [done|]. eapply fan_le; [apply wf_fan, HT|done].
Qed.

Lemma script_fine {H} hcomb h0 (ta tb : dtree H hkind attrs string) m a nb : wf a ->
  mk_dtree hcomb h0 tdata_of a nb = Val tb -> Forall (op_fine (length a)) (html_edit_script ta tb m).
Proof.
  intros W Etb. assert (forall b, t_position tb b <= length a) as HP.
  { unfold mk_dtree in Etb. bnd Etb it E1. bnd Etb po E2. injection Etb as <-. cbn. intros b. unfold position.
    destruct (parent a b) as [p|]; [|lia]. destruct (index_of b (children a p)) eqn:Ei; [|lia].
    apply index_of_lt in Ei. pose proof (wf_fan a W p). lia. }
  unfold html_edit_script, generate_edit_script, edit_script_with. rewrite !Forall_app.
  split; [|split; [|split]]; apply Forall_forall; intros op Hop; apply elem_of_list_In, in_flat_map in Hop as (z & Hz & Hop);
    apply elem_of_list_In in Hz, Hop.
  - destruct z as [x y]. unfold phase1 in Hop. destruct (_ || _); [by apply elem_of_nil in Hop|].
    apply elem_of_app in Hop as [Hop|Hop]; repeat (case_match; try (by apply elem_of_nil in Hop));
      by apply elem_of_list_singleton in Hop as ->.
  - unfold phase2 in Hop. repeat (case_match; try (by apply elem_of_nil in Hop)).
    apply elem_of_list_singleton in Hop as ->. apply HP.
  - destruct z as [x y]. unfold phase4 in Hop. repeat (case_match; try (by apply elem_of_nil in Hop));
      apply elem_of_list_singleton in Hop as ->; apply HP.
  - unfold phase5 in Hop. repeat (case_match; try (by apply elem_of_nil in Hop));
      by apply elem_of_list_singleton in Hop as ->.
Qed.

Lemma opaque_patches_fine sh K L : sh_ok sh K L -> forall oc ps, opaque_patches sh oc = Val ps -> Forall (numbers K (S L)) ps.
Proof.
  intros HS. induction oc as [|[x s] oc IH]; intros ps E; cbn [opaque_patches] in E; [by injection E as <-|].
  bnd E p E1. bnd E ps' Ep. injection E as <-. constructor; [|by apply IH]. cbn. by eapply compute_path_small.
Qed.

Lemma numbers_le N L N' L' p : numbers N L p -> N <= N' -> L <= L' -> numbers N' L' p.
Proof.
  intros Hp HN HL. assert (forall q, spath N L q -> spath N' L' q) as H1 by (intros; by eapply spath_le).
  assert (forall o, osmall N o -> osmall N' o) as H2 by (intros [k|]; cbn; [lia|done]).
  destruct p; cbn in *; naive_solver.
Qed.

Lemma insert_all_fine (a : arena dnode) N : forall l pos ps, insert_all a l pos = Val ps -> pos + length l <= N ->
  Forall (numbers N 2) ps.
Proof.
  induction l as [|c l IH]; intros pos ps E HN; cbn [insert_all] in E; [by injection E as <-|].
  bnd E p Ep. bnd E ps' E1. injection E as <-. cbn in HN.
  constructor; [|eapply IH; [exact E1|lia]]. unfold create_insert_patch in Ep.
  assert (spath N 2 [0; pos]) as Hp by (split; [repeat constructor; lia|done]).
  destruct (node_kind a c) as [[]|]; try done; try (injection Ep as <-; done).
  bnd Ep x Ex. destruct x as [|[]]; try done. destruct x; [|done]. injection Ep as <-. done.
Qed.

(** All numbers are bounded by the sizes of the documents and the number of patches. *)
Lemma diff_numbers {H} (heqb : H -> H -> bool) hcomb h0 old new ps :
  wf (doc_arena old) -> html_body old -> wf (doc_arena new) -> diff heqb hcomb h0 old new = Val ps ->
  Forall (numbers (length (doc_arena old) + length (doc_arena new) + 2 + 4 * length ps)
                  (length (doc_arena old) + (length (doc_arena new) + 3) * length ps + 5)) ps.
Proof.
  intros PO HO PN E. unfold diff in E. destruct (body old) as [ob|] eqn:Eo, (body new) as [nb|] eqn:En.
  4: by injection E as <-.
  3:{ eapply Forall_impl; [eapply (insert_all_fine _ (length (doc_arena new))); [exact E|]|].
      - pose proof (wf_fan _ PN nb). lia.
      - intros p Hp. eapply numbers_le; [exact Hp|lia|lia]. }
  2:{ injection E as <-. apply Forall_forall. intros p Hp. apply elem_of_list_fmap in Hp as (k & -> & Hk).
      apply elem_of_list_In, in_rev, elem_of_list_In, elem_of_seq in Hk.
      pose proof (wf_fan _ PO ob). cbn. split; [|cbn; lia]. repeat constructor; lia. }
  unfold diff_bodies in E. bnd E t Et. bnd E ta Eta. bnd E tb Etb. bnd E m Em. bnd E oc Eoc. bnd E qs Ec.
  destruct (build_tree_small _ _ _ PO HO Eo Et) as [HL HK].
  assert (forall s, shadow_new t 0 = Val s -> sh_ok s (length (doc_arena old) + 2) (length (doc_arena old) + 2)) as HS.
  { intros s Es. by eapply shadow_new_ok. }
  assert (forall k, length qs <= k -> Forall (fine (length (doc_arena old) + length (doc_arena new) + 2) (length (doc_arena old) + 2) (length (doc_arena new)) k) qs) as HQ.
  { intros k Hk. unfold convert_ops in Ec. bnd Ec sh Esh. bnd Ec s Es. injection Ec as <-.
    eapply convert_loop_fine; [|exact Es| |by eapply script_fine; [exact PN|]|done|constructor]; [lia|].
    unfold cs_ok. cbn. eapply sh_ok_le; [by apply HS|lia|lia]. }
  assert (forall k, length qs <= k -> Forall (numbers (length (doc_arena old) + length (doc_arena new) + 2 + 4 * k)
                  (length (doc_arena old) + (length (doc_arena new) + 3) * k + 5)) qs) as HQ'.
  { intros k Hk. eapply Forall_impl; [by apply (HQ k)|]. intros p Hp. eapply numbers_le; [exact Hp|lia|lia]. }
  destruct oc as [|pr oc]; [injection E as <-; by apply HQ'|].
  bnd E sh Esh. bnd E os Eos. injection E as <-. apply Forall_app. split; [apply HQ'; rewrite app_length; lia|].
  eapply Forall_impl; [eapply opaque_patches_fine; [by apply HS|exact Eos]|].
  intros p Hp. eapply numbers_le; [exact Hp|lia|]. rewrite app_length. nia.
Qed.

Lemma proper_html d : proper d -> html_body d.
Proof. intros PD b _. by apply proper_children. Qed.

Lemma html_inside d b : html_body d -> body d = Some b ->
  forall i, inside (doc_arena d) b i -> exists k, node_kind (doc_arena d) i = Some k /\ k <> NDocument.
Proof.
  intros HB Eb.
  assert (forall i, inside (doc_arena d) b i -> exists hs, holds_list (doc_arena d) hs (children (doc_arena d) i)) as HI.
  { intros i Hi. induction Hi as [|i c Hi IH Hc]; [by apply HB|]. destruct IH as (hs & Hh).
    apply elem_of_list_lookup in Hc as (k & Hk). destruct (Forall2_lookup_r _ _ _ _ _ Hh Hk) as (h & _ & Hx).
    exists (hchildren h). by apply holds_children. }
  intros i Hi. destruct Hi as [|i c Hi Hc].
  - unfold body, body_in in Eb. apply find_some in Eb as [_ Eb].
    unfold has_tag in Eb. destruct (node_kind _ b) as [[]|]; try done. by eexists.
  - destruct (HI i Hi) as (hs & Hh). apply elem_of_list_lookup in Hc as (k & Hk).
    destruct (Forall2_lookup_r _ _ _ _ _ Hh Hk) as (h & _ & Hx). apply tdata_of_holds in Hx as (x & Ex & _).
    unfold node_kind. rewrite Ex. exists (d_kind x). split; [done|].
    destruct (Forall2_lookup_r _ _ _ _ _ Hh Hk) as (h' & _ & Hx).
    destruct h' as [tag ns ats cs|s|s]; [apply holds_elem in Hx as [Hx _]; rewrite Ex in Hx; by injection Hx as ->|..];
      destruct Hx as [Hx _]; unfold node_kind in Hx; rewrite Ex in Hx; injection Hx as Hx; by rewrite Hx.
Qed.
