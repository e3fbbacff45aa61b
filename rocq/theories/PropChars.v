(** C82, continued: the tests on characters and ends of texts that the input filter of
    the fuzz targets is made of. *)
From Coq Require Import NArith.
From Verif Require Import Base Stem Inputs PropInputs.
Local Open Scope N_scope.

(** [char::is_whitespace] is the Unicode property White_Space. *)
Theorem white_space_exact : forall c, is_ws c = true <->
  c ∈ [9; 10; 11; 12; 13; 32; 133; 160; 5760; 8192; 8193; 8194; 8195; 8196; 8197; 8198; 8199; 8200; 8201; 8202;
       8232; 8233; 8239; 8287; 12288].
Proof.
  intros c. unfold is_ws. cbn [existsb].
  rewrite !orb_true_iff, !andb_true_iff, !N.leb_le, !N.eqb_eq, !elem_of_cons, elem_of_nil. split.
  - intros H. assert (9 <= c <= 13 \/ 8192 <= c <= 8202 \/ ~ (9 <= c <= 13) /\ ~ (8192 <= c <= 8202)) as [H'|[H'|H']] by lia; lia.
  - intros H. lia.
Qed.
Print Assumptions white_space_exact.

(** [char::is_ascii_digit] *)
Theorem digit_exact : forall c, is_digit c = true <-> c ∈ str "0123456789".
Proof.
  intros c. change (str "0123456789") with [48; 49; 50; 51; 52; 53; 54; 55; 56; 57].
  unfold is_digit. rewrite andb_true_iff, !N.leb_le, !elem_of_cons, elem_of_nil. lia.
Qed.
Print Assumptions digit_exact.

(** [char::is_ascii_alphanumeric] *)
Theorem alnum_exact : forall c, is_alnum c = true <->
  c ∈ (str "0123456789" ++ str "ABCDEFGHIJKLMNOPQRSTUVWXYZ" ++ str "abcdefghijklmnopqrstuvwxyz")%list.
Proof.
  intros c. unfold is_alnum. rewrite !orb_true_iff, !andb_true_iff, !N.leb_le, digit_exact, !elem_of_app.
  assert (forall k n, c ∈ map (fun i => k + N.of_nat i) (seq 0 n) <-> k <= c /\ c < k + N.of_nat n) as HR.
  { intros k n. rewrite elem_of_list_In, in_map_iff. split.
    - intros (i & <- & Hi). apply in_seq in Hi. lia.
    - intros H. exists (N.to_nat (c - k)). rewrite in_seq. lia. }
  change (str "ABCDEFGHIJKLMNOPQRSTUVWXYZ") with (map (fun i => 65 + N.of_nat i) (seq 0 26)).
  change (str "abcdefghijklmnopqrstuvwxyz") with (map (fun i => 97 + N.of_nat i) (seq 0 26)).
  rewrite !HR. generalize (c ∈ str "0123456789"). intros D. change (N.of_nat 26) with 26.
  split; [intros [[H|H]|H]|intros [H|[H|H]]]; auto; try (right; right; lia); try (right; left; lia); try (left; right; lia); right; lia.
Qed.
Print Assumptions alnum_exact.

(** [str::starts_with] of a predicate, and [str::ends_with]: of the first character,
    and of the last part. *)
Theorem ends_exact : forall p s f,
  (ends p s = true <-> exists x, s = (x ++ p)%list) /\
  (starts_where f s = true <-> exists c s', s = c :: s' /\ f c = true).
Proof.
  intros p s f. split.
  - unfold ends.
    assert (forall p s, starts p s = true <-> exists x, s = (p ++ x)%list) as HS.
    { clear. induction p as [|x p IH]; intros s; cbn [starts].
      - split; [|done]. intros _. by exists s.
      - destruct s as [|y s]; [split; [done|intros [z Hz]; done]|].
        rewrite andb_true_iff, N.eqb_eq, IH. split.
        + intros [-> [z ->]]. by exists z.
        + intros [z Hz]. injection Hz as -> ->. split; [done|]. by exists z. }
    rewrite HS. split.
    + intros [x Hx]. exists (rev x). apply (f_equal (@rev N)) in Hx. by rewrite rev_involutive, rev_app_distr, rev_involutive in Hx.
    + intros [x ->]. exists (rev x). by rewrite rev_app_distr.
  - destruct s as [|c s]; cbn.
    + split; [done|]. intros (c & s' & E & _). done.
    + split; [eauto|]. intros (c' & s' & E & H). by injection E as -> ->.
Qed.
Print Assumptions ends_exact.

Example chars_example :
  ends (str "/>") (str "<br/>") = true /\ ends (str "/>") (str "<br>/") = false /\
  is_ws 13 = true /\ is_ws 8203 = false /\ is_digit 57 = true /\ is_alnum 122 = true /\ is_alnum 95 = false /\ is_digit 58 = false /\
  starts_where is_digit (str "9a") = true /\ starts_where is_digit [] = false.
Proof. by vm_compute. Qed.
