(** Lemmas on the live-reload server model. *)
From Verif Require Import Base Arena Dom Server.
Local Open Scope string_scope.

Lemma str_eqb_sym a b : String.eqb a b = String.eqb b a.
Proof. destruct (String.eqb_spec a b), (String.eqb_spec b a); congruence. Qed.

Lemma hm_remove_cons x v m k : hm_remove ((x, v) :: m) k = if negb (String.eqb x k) then (x, v) :: hm_remove m k else hm_remove m k.
Proof. done. Qed.

Lemma hm_get_remove m k k' : hm_get (hm_remove m k) k' = if String.eqb k k' then None else hm_get m k'.
Proof.
  induction m as [|[x v] m IH]; [cbn; by destruct (String.eqb k k')|].
  rewrite hm_remove_cons. cbn [hm_get].
  destruct (String.eqb_spec x k) as [->|Hne]; cbn [negb hm_get].
  - rewrite IH. by destruct (String.eqb k k').
  - destruct (String.eqb_spec x k') as [->|Hne'].
    + destruct (String.eqb_spec k k'); congruence.
    + exact IH.
Qed.

Lemma hm_get_insert m k v k' :
  hm_get (hm_insert m k v) k' = if String.eqb k k' then Some v else hm_get m k'.
Proof. cbn. destruct (String.eqb k k') eqn:E; [done|]. by rewrite hm_get_remove, E. Qed.

Lemma hm_keys m k : k ∈ map fst m <-> exists v, hm_get m k = Some v.
Proof.
  induction m as [|[x v] m IH]; cbn.
  - split; [intros H; inversion H|by intros [? ?]].
  - rewrite elem_of_cons, IH. destruct (String.eqb_spec x k) as [->|Hne].
    + split; [eauto|by left].
    + split; [intros [?|?]; [congruence|done]|by right].
Qed.

Lemma hm_remove_nodup m k : NoDup (map fst m) -> NoDup (map fst (hm_remove m k)) /\ k ∉ map fst (hm_remove m k).
Proof.
  intros Hnd. split.
  - induction m as [|[x v] m IH]; cbn; [constructor|]. cbn in Hnd. apply NoDup_cons in Hnd as [Hx Hnd].
    destruct (String.eqb x k); cbn; [by apply IH|]. apply NoDup_cons. split; [|by apply IH].
    intros H. apply Hx. clear -H. induction m as [|[y w] m IH]; [inversion H|]. cbn in *.
    destruct (String.eqb y k); cbn in *; [right; by apply IH|].
    apply elem_of_cons in H as [->|H]; [by left|right; by apply IH].
  - rewrite hm_keys. intros [v Hv]. rewrite hm_get_remove, String.eqb_refl in Hv. done.
Qed.

Lemma hm_insert_nodup m k v : NoDup (map fst m) -> NoDup (map fst (hm_insert m k v)).
Proof. intros H. cbn. apply NoDup_cons. by destruct (hm_remove_nodup m k H). Qed.

(** ** Strings *)

Lemma str_app_nil_r s : s ++ "" = s.
Proof. induction s; cbn; congruence. Qed.
Lemma str_app_assoc s t u : (s ++ t) ++ u = s ++ (t ++ u).
Proof. induction s; cbn; congruence. Qed.

Lemma take_drop n s : str_take n s ++ str_drop n s = s.
Proof. revert s. induction n as [|n IH]; intros [|c s]; cbn; [done..|]. by rewrite IH. Qed.

Lemma drop_drop n m s : str_drop n (str_drop m s) = str_drop (m + n) s.
Proof.
  revert s. induction m as [|m IH]; intros s; cbn [Nat.add str_drop]; [by destruct s|].
  destruct s as [|c s]; [by destruct n|]. apply IH.
Qed.
Lemma take_add n m s : str_take (m + n) s = str_take m s ++ str_take n (str_drop m s).
Proof.
  revert s. induction m as [|m IH]; intros s; cbn [Nat.add str_drop str_take]; [by destruct s|].
  destruct s as [|c s]; [by destruct n|]. cbn. by rewrite IH.
Qed.

Lemma lower_app s t : to_ascii_lowercase (s ++ t) = to_ascii_lowercase s ++ to_ascii_lowercase t.
Proof. induction s; cbn; congruence. Qed.
Lemma lower_drop n s : str_drop n (to_ascii_lowercase s) = to_ascii_lowercase (str_drop n s).
Proof. revert s. induction n as [|n IH]; intros [|c s]; cbn; try done. Qed.
Lemma lower_take n s : str_take n (to_ascii_lowercase s) = to_ascii_lowercase (str_take n s).
Proof. revert s. induction n as [|n IH]; intros [|c s]; cbn; try done. by rewrite IH. Qed.
Lemma lower_length s : String.length (to_ascii_lowercase s) = String.length s.
Proof. induction s; cbn; congruence. Qed.

(** [t] occurs in [s]. *)
Definition occurs (t s : string) : Prop := exists u v, s = u ++ t ++ v.

Lemma prefix_spec t s : String.prefix t s = true <-> exists v, s = t ++ v.
Proof.
  revert s. induction t as [|c t IH]; intros s; cbn.
  - split; [|by destruct s]. intros _. by exists s.
  - destruct s as [|c' s]; cbn.
    + split; [done|]. intros [v Hv]. discriminate.
    + destruct (Ascii.ascii_dec c c') as [->|Hne].
      * rewrite IH. split; intros [v Hv]; exists v; congruence.
      * split; [done|]. intros [v Hv]. congruence.
Qed.

Lemma str_find_some t s k : str_find t s = Some k ->
  (exists v, str_drop k s = t ++ v) /\ forall j, j < k -> ~ exists v, str_drop j s = t ++ v.
Proof.
  revert k. induction s as [|c s IH]; intros k; cbn [str_find].
  - destruct (String.prefix t "") eqn:E; [|done]. intros [= <-].
    split; [by apply prefix_spec in E|lia].
  - destruct (String.prefix t (String c s)) eqn:E.
    + intros [= <-]. split; [by apply prefix_spec in E|lia].
    + destruct (str_find t s) as [k'|]; [|done]. intros [= <-].
      destruct (IH k' eq_refl) as [H1 H2]. split; [done|].
      intros [|j] Hj; cbn [str_drop].
      * intros H. apply prefix_spec in H. congruence.
      * apply H2. lia.
Qed.

Lemma str_find_none t s : str_find t s = None -> forall j, ~ exists v, str_drop j s = t ++ v.
Proof.
  induction s as [|c s IH]; cbn [str_find].
  - destruct (String.prefix t "") eqn:E; [done|]. intros _ j H.
    assert (str_drop j "" = "") as E' by by destruct j. rewrite E' in H.
    apply prefix_spec in H. congruence.
  - destruct (String.prefix t (String c s)) eqn:E; [done|].
    destruct (str_find t s) as [k'|]; [done|]. intros _ [|j]; cbn [str_drop].
    + intros H. apply prefix_spec in H. congruence.
    + by apply IH.
Qed.

Lemma drop_app u s : str_drop (String.length u) (u ++ s) = s.
Proof. induction u; cbn; [by destruct s|done]. Qed.
Lemma take_app u s : str_take (String.length u) (u ++ s) = u.
Proof. induction u; cbn; [by destruct s|congruence]. Qed.

Lemma str_find_none_occurs t s : str_find t s = None -> ~ occurs t s.
Proof.
  intros H (u & v & ->). eapply (str_find_none _ _ H (String.length u)). exists v. apply drop_app.
Qed.

Definition gt_char : ascii := Ascii.ascii_of_nat 62.

Lemma lower_gt c : lower_char c = gt_char <-> c = gt_char.
Proof.
  destruct c as [[|] [|] [|] [|] [|] [|] [|] [|]]; vm_compute; split; intros H; try exact H; discriminate H.
Qed.

(** A greater-than sign survives lower-casing and is not introduced by it. *)
Lemma lower_gt_split s v w : to_ascii_lowercase s = v ++ ">" ++ w ->
  exists v' w', s = v' ++ ">" ++ w' /\ to_ascii_lowercase v' = v.
Proof.
  revert v. induction s as [|c s IH]; intros v; [by destruct v|].
  destruct v as [|x v]; cbn.
  - intros [= H1 H2]. apply (lower_gt c) in H1. exists "", s. split; [|done]. cbn. by rewrite H1.
  - intros [= H1 H2]. destruct (IH v H2) as (v' & w' & -> & <-). exists (String c v'), w'. cbn. by rewrite H1.
Qed.

Lemma take_eq_app k u s : str_drop k s = u -> s = str_take k s ++ u.
Proof. intros <-. by rewrite take_drop. Qed.

Lemma take_length k s : k <= String.length s -> String.length (str_take k s) = k.
Proof. revert s. induction k as [|k IH]; intros [|c s]; cbn; try lia. intros H. rewrite IH; lia. Qed.

Lemma str_app_length s t : String.length (s ++ t) = String.length s + String.length t.
Proof. induction s; cbn; congruence. Qed.

Lemma find_lt t s k : t <> "" -> str_find t s = Some k -> k < String.length s.
Proof.
  revert k. induction s as [|c s IH]; intros k Ht; cbn [str_find].
  - destruct t; [done|]. cbn. done.
  - destruct (String.prefix t (String c s)); [intros [= <-]; cbn; lia|].
    destruct (str_find t s) as [j|] eqn:E; [|done]. intros [= <-]. specialize (IH j Ht eq_refl). cbn. lia.
Qed.
