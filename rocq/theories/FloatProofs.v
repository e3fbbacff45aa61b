(** Quotients of small counts in [f64]: correct rounding, and comparison. *)
From Coq Require Import ZArith Lia.
From Verif Require Import Base Arena Matching Chawathe Dom HtmlDiff FloatModel.
Local Open Scope Z_scope.

(** ** Digits *)

Lemma digits2_pos_bounds p : 2 ^ (Zpos (digits2_pos p) - 1) <= Zpos p < 2 ^ Zpos (digits2_pos p).
Proof.
  induction p as [p IH|p IH|]; cbn [digits2_pos]; [| |cbn; lia];
    rewrite Pos2Z.inj_succ; replace (Z.succ (Zpos (digits2_pos p)) - 1) with (Zpos (digits2_pos p)) by lia;
    rewrite Z.pow_succ_r by lia;
    replace (2 ^ Zpos (digits2_pos p)) with (2 * 2 ^ (Zpos (digits2_pos p) - 1)) in * by
      (rewrite <- Z.pow_succ_r by lia; f_equal; lia); lia.
Qed.

Lemma digits2_pos_unique p k : 0 < k -> 2 ^ (k - 1) <= Zpos p < 2 ^ k -> Zpos (digits2_pos p) = k.
Proof.
  intros Hk Hp. pose proof (digits2_pos_bounds p) as Hb.
  destruct (Z.lt_trichotomy (Zpos (digits2_pos p)) k) as [L|[E|L]]; [|done|].
  - assert (2 ^ Zpos (digits2_pos p) <= 2 ^ (k - 1)) by (apply Z.pow_le_mono_r; lia). lia.
  - assert (2 ^ k <= 2 ^ (Zpos (digits2_pos p) - 1)) by (apply Z.pow_le_mono_r; lia). lia.
Qed.

Definition p52 : Z := 4503599627370496.
Definition p53 : Z := 9007199254740992.
Definition p54 : Z := 18014398509481984.
Lemma p52_eq : 2 ^ 52 = p52. Proof. reflexivity. Qed.
Lemma p53_eq : 2 ^ 53 = p53. Proof. reflexivity. Qed.
Lemma p54_eq : 2 ^ 54 = p54. Proof. reflexivity. Qed.

Lemma digits53 p : p52 <= Zpos p < p53 -> digits2_pos p = 53%positive.
Proof. intros Hp. assert (Zpos (digits2_pos p) = 53); [|congruence]. apply digits2_pos_unique; [lia|]. change (p52 <= Zpos p < p53). done. Qed.
Lemma digits54 p : p53 <= Zpos p < p54 -> digits2_pos p = 54%positive.
Proof. intros Hp. assert (Zpos (digits2_pos p) = 54); [|congruence]. apply digits2_pos_unique; [lia|]. change (p53 <= Zpos p < p54). done. Qed.

Lemma fexp_small e : -1000 <= e <= 900 -> fexp 53 1024 e = e - 53.
Proof. intros He. unfold fexp, emin. lia. Qed.

(** ** Correct rounding *)

(** [m] is the 53-bit integer nearest to [N / D], the even one of two; the last clause:
    at a power of two the numbers below are twice as dense. *)
Definition rounds (N D m : Z) : Prop :=
  p52 <= m < p53 /\ (2 * m - 1) * D <= 2 * N <= (2 * m + 1) * D /\
  (Z.odd m = true -> (2 * m - 1) * D < 2 * N < (2 * m + 1) * D) /\
  (m = p52 -> (4 * m - 1) * D <= 4 * N).

Lemma rounds_scale N D N' D' m : 0 < D -> 0 < D' -> N * D' = N' * D -> rounds N D m -> rounds N' D' m.
Proof.
  intros HD HD' E (H1 & [H2 H3] & H4 & H5).
  assert (forall x, x * D <= 2 * N -> x * D' <= 2 * N') as L1.
  { intros x Hx. apply (Zmult_le_reg_r _ _ D); [lia|].
    apply (Z.mul_le_mono_nonneg_r _ _ D') in Hx; [|lia]. lia. }
  assert (forall x, 2 * N <= x * D -> 2 * N' <= x * D') as L2.
  { intros x Hx. apply (Zmult_le_reg_r _ _ D); [lia|].
    apply (Z.mul_le_mono_nonneg_r _ _ D') in Hx; [|lia]. lia. }
  assert (forall x, x * D < 2 * N -> x * D' < 2 * N') as L3.
  { intros x Hx. apply (Zmult_lt_reg_r _ _ D); [lia|].
    apply (Z.mul_lt_mono_pos_r D') in Hx; [|lia]. lia. }
  assert (forall x, 2 * N < x * D -> 2 * N' < x * D') as L4.
  { intros x Hx. apply (Zmult_lt_reg_r _ _ D); [lia|].
    apply (Z.mul_lt_mono_pos_r D') in Hx; [|lia]. lia. }
  split; [done|]. split; [split; auto|]. split; [intros Ho; destruct (H4 Ho); split; auto|].
  intros Em. specialize (H5 Em).
  apply (Zmult_le_reg_r _ _ D); [lia|].
  apply (Z.mul_le_mono_nonneg_r _ _ D') in H5; [|lia]. lia.
Qed.

(** Where [N / D] lies above the integer [q0], [r] being the rest. *)
Definition located (D r : Z) (l : location) : Prop :=
  (r = 0 /\ l = loc_Exact) \/ (0 < r /\ l = loc_Inexact (Z.compare (2 * r) D)).

Lemma new_location_located D r : 0 < D -> 0 <= r < D -> located D r (new_location D r).
Proof.
  intros HD Hr. unfold new_location, located.
  assert (forall x, (if Z.even D then new_location_even D else new_location_odd D) r = x ->
    (r = 0 -> x = loc_Exact) /\ (0 < r -> x = loc_Inexact (2 * r ?= D))) as HH.
  { intros x <-. destruct (Z.even D) eqn:Ev; unfold new_location_even, new_location_odd; split; intros H0.
    - by rewrite H0.
    - destruct (Zeq_bool r 0) eqn:E0; [apply Zeq_bool_eq in E0; lia|done].
    - by rewrite H0.
    - destruct (Zeq_bool r 0) eqn:E0; [apply Zeq_bool_eq in E0; lia|].
      f_equal. assert (Z.odd D = true) as Ho by (rewrite <- Z.negb_even, Ev; done).
      apply Z.odd_spec in Ho as [h Hh].
      destruct (Z.compare_spec (2 * r + 1) D) as [E|L|L]; destruct (Z.compare_spec (2 * r) D); try done; lia. }
  destruct (HH _ eq_refl) as [H1 H2]. destruct (Z.eq_dec r 0) as [E|N]; [left; auto|right; split; [lia|apply H2; lia]].
Qed.

Lemma nearest_even_spec D N q0 r l : 0 < D -> 0 <= r < D -> N = D * q0 + r -> located D r l ->
  let m := round_nearest_even q0 l in
  (2 * m - 1) * D <= 2 * N <= (2 * m + 1) * D /\ (Z.odd m = true -> (2 * m - 1) * D < 2 * N < (2 * m + 1) * D) /\
  (m = q0 \/ m = q0 + 1).
Proof.
  intros HD Hr -> [[-> ->]|[Hp ->]]; cbn [round_nearest_even].
  - split; [nia|]. split; [intros _; nia|by left].
  - destruct (Z.compare_spec (2 * r) D) as [E|L|L].
    + destruct (Z.even q0) eqn:Ev.
      * split; [nia|]. split; [|by left]. intros Ho. rewrite <- Z.negb_even, Ev in Ho. done.
      * split; [nia|]. split; [|by right]. intros Ho. rewrite Z.odd_add, <- Z.negb_even, Ev in Ho. done.
    + split; [nia|]. split; [intros _; nia|by left].
    + split; [nia|]. split; [intros _; nia|by right].
Qed.

(** ** [binary_round_aux] on 53 and 54 bits *)

Lemma loc_record m l : loc_of_shr_record (shr_record_of_loc m l) = l.
Proof. by destruct l as [|[]]. Qed.
Lemma shr_m_record m l : shr_m (shr_record_of_loc m l) = m.
Proof. by destruct l as [|[]]. Qed.

Lemma shr_fexp_53 p e l : p52 <= Zpos p < p53 -> -1000 <= e <= 800 ->
  shr_fexp 53 1024 (Zpos p) e l = (shr_record_of_loc (Zpos p) l, e).
Proof.
  intros Hp He. unfold shr_fexp, Zdigits2. rewrite (digits53 _ Hp), fexp_small by lia.
  by replace (53 + e - 53 - e) with 0 by lia.
Qed.

Lemma shr_fexp_54 p e l : p53 <= Zpos p < p54 -> -1000 <= e <= 800 ->
  shr_fexp 53 1024 (Zpos p) e l = (shr_1 (shr_record_of_loc (Zpos p) l), e + 1).
Proof.
  intros Hp He. unfold shr_fexp, Zdigits2. rewrite (digits54 _ Hp), fexp_small by lia.
  by replace (54 + e - 53 - e) with 1 by lia.
Qed.

(** The second half of [binary_round_aux]. *)
Lemma finish_53 m e : p52 <= m <= p53 -> -900 <= e <= 700 ->
  (let '(mrs'', e'') := shr_fexp 53 1024 m e loc_Exact in
   match shr_m mrs'' with
   | Z0 => S754_zero false
   | Zpos m => if Zle_bool e'' (1024 - 53) then S754_finite false m e'' else S754_infinity false
   | _ => S754_nan
   end) =
  if m =? p53 then S754_finite false 4503599627370496 (e + 1) else S754_finite false (Z.to_pos m) e.
Proof.
  intros Hm He. destruct m as [|p|p]; try (unfold p52 in Hm; lia).
  destruct (Z.eqb_spec (Zpos p) p53) as [E|E].
  - rewrite shr_fexp_54 by (unfold p53, p54 in *; lia). rewrite E. cbn [shr_record_of_loc]. unfold p53.
    cbn [shr_1 shr_m]. assert (Zle_bool (e + 1) (1024 - 53) = true) as -> by (apply Zle_imp_le_bool; lia). done.
  - rewrite shr_fexp_53 by lia. rewrite shr_m_record.
    assert (Zle_bool e (1024 - 53) = true) as -> by (apply Zle_imp_le_bool; lia). done.
Qed.

(** Rounding a quotient that has 53 or 54 bits before the point. *)
Lemma round_aux_spec N D e l : 0 < D -> p52 * D <= N < p54 * D -> -800 <= e <= 600 ->
  located D (N mod D) l ->
  exists m k, binary_round_aux 53 1024 false (N / D) e l = S754_finite false m (e + k) /\
    (k = 0 \/ k = 1 \/ k = 2) /\ rounds N (D * 2 ^ k) (Zpos m).
Proof.
  intros HD HN He Hl. set (q0 := N / D) in *. set (r := N mod D) in *.
  assert (N = D * q0 + r) as EN by (apply Z.div_mod; lia).
  assert (0 <= r < D) as Hr by (apply Z.mod_pos_bound; lia).
  assert (p52 <= q0 < p54) as Hq.
  { split; [apply Z.div_le_lower_bound; lia|apply Z.div_lt_upper_bound; lia]. }
  assert (exists e1 D1 q1 r1 l1 k1, shr_fexp 53 1024 q0 e l = (shr_record_of_loc q1 l1, e1) /\ e1 = e + k1 /\
     (k1 = 0 \/ k1 = 1) /\ D1 = D * 2 ^ k1 /\ N = D1 * q1 + r1 /\ 0 <= r1 < D1 /\ located D1 r1 l1 /\ p52 <= q1 < p53)
    as (e1 & D1 & q1 & r1 & l1 & k1 & E1 & Ee1 & Hk1 & ED1 & EN1 & Hr1 & Hl1 & Hq1).
  { destruct q0 as [|p|p] eqn:Ep; try (unfold p52 in Hq; lia).
    destruct (Z.lt_ge_cases (Zpos p) p53) as [L|L].
    - exists e, D, (Zpos p), r, l, 0. rewrite shr_fexp_53 by lia. rewrite Z.pow_0_r.
      split; [done|]. split; [lia|]. split; [by left|]. split; [lia|]. split; [lia|]. split; [lia|]. split; [done|lia].
    - rewrite shr_fexp_54 by lia.
      exists (e + 1), (D * 2), (Zpos p / 2), (r + D * (Zpos p mod 2)).
      pose proof (Z.div_mod (Zpos p) 2 ltac:(lia)) as Hdm. pose proof (Z.mod_pos_bound (Zpos p) 2 ltac:(lia)) as Hmb.
      exists (loc_of_shr_record (shr_1 (shr_record_of_loc (Zpos p) l))), 1.
      assert (p52 <= Zpos p / 2 < p53) as Hh.
      { split; [apply Z.div_le_lower_bound|apply Z.div_lt_upper_bound]; unfold p52, p53, p54 in *; lia. }
      split; [|split; [done|split; [by right|split; [rewrite Z.pow_1_r; lia|split; [nia|split; [nia|split; [|done]]]]]]].
      + f_equal. destruct p as [p|p|]; [| |unfold p53 in L; lia].
        * replace (Zpos p~1 / 2) with (Zpos p).
          2:{ rewrite Pos2Z.inj_xI. apply Z.div_unique with 1; lia. }
          by destruct l as [|[]].
        * replace (Zpos p~0 / 2) with (Zpos p).
          2:{ rewrite Pos2Z.inj_xO. apply Z.div_unique with 0; lia. }
          by destruct l as [|[]].
      + unfold located. destruct p as [p|p|]; [| |unfold p53 in L; lia].
        * replace (Zpos p~1 mod 2) with 1.
          2:{ rewrite Pos2Z.inj_xI. apply Z.mod_unique with (Zpos p); lia. }
          right. split; [lia|]. destruct Hl as [[E0 ->]|[Hp ->]]; cbn.
          -- f_equal. symmetry. apply Z.compare_eq_iff. lia.
          -- replace (2 * (r + D * 1) ?= D * 2) with Gt by (symmetry; apply Z.compare_gt_iff; lia).
             by destruct (2 * r ?= D).
        * replace (Zpos p~0 mod 2) with 0.
          2:{ rewrite Pos2Z.inj_xO. apply Z.mod_unique with (Zpos p); lia. }
          destruct Hl as [[E0 ->]|[Hp ->]]; cbn; [left; split; [lia|done]|].
          right. split; [lia|].
          replace (2 * (r + D * 0) ?= D * 2) with Lt by (symmetry; apply Z.compare_lt_iff; lia).
          by destruct (2 * r ?= D). }
  unfold binary_round_aux. rewrite E1, shr_m_record, loc_record.
  pose proof (nearest_even_spec D1 N q1 r1 l1 ltac:(lia) Hr1 EN1 Hl1) as (Hm1 & Hm2 & Hm3).
  set (m := round_nearest_even q1 l1) in *.
  rewrite finish_53 by (unfold p52, p53 in *; lia).
  assert (0 < D1) as HD1 by lia.
  destruct (Z.eqb_spec m p53) as [E|E].
  - exists 4503599627370496%positive, (k1 + 1). split; [f_equal; lia|]. split; [lia|].
    rewrite Z.pow_add_r by lia. rewrite Z.mul_assoc, <- ED1, Z.pow_1_r.
    change (Zpos 4503599627370496) with p52. rewrite E in Hm1.
    assert (N < p53 * D1) as HN1 by nia.
    split; [unfold p52, p53; lia|]. split; [unfold p52, p53 in *; lia|]. split; [done|]. intros _. unfold p52, p53 in *; lia.
  - assert (p52 <= m < p53) as Hmb by lia.
    exists (Z.to_pos m), k1. rewrite Ee1. split; [done|]. split; [lia|]. rewrite <- ED1, Z2Pos.id by (unfold p52 in *; lia).
    split; [done|]. split; [done|]. split; [done|]. intros Em.
    assert (p52 * D1 <= N) by nia. rewrite Em. lia.
Qed.

(** ** Counts *)

Lemma round_aux_53 m e : p52 <= Zpos m < p53 -> -800 <= e <= 600 ->
  binary_round_aux 53 1024 false (Zpos m) e loc_Exact = S754_finite false m e.
Proof.
  intros Hm He. unfold binary_round_aux. rewrite shr_fexp_53 by lia. rewrite shr_m_record, loc_record.
  cbn [round_nearest_even]. rewrite finish_53 by lia.
  destruct (Z.eqb_spec (Zpos m) p53); [lia|]. by rewrite Pos2Z.id.
Qed.

Lemma of_count_spec n : (0 < n)%nat -> Z.of_nat n < p53 ->
  exists m e, of_count n = S754_finite false m e /\ p52 <= Zpos m < p53 /\ -52 <= e <= 0 /\ Zpos m = Z.of_nat n * 2 ^ (- e).
Proof.
  intros Hn Hb. unfold of_count, binary_normalize. destruct (Z.of_nat n) as [|p|p] eqn:En; try lia.
  pose proof (digits2_pos_bounds p) as Hd. set (d := Zpos (digits2_pos p)) in *.
  assert (1 <= d <= 53) as Hdb.
  { split; [unfold d; lia|]. destruct (Z.le_gt_cases d 53) as [L|L]; [done|].
    assert (2 ^ 53 <= 2 ^ (d - 1)) by (apply Z.pow_le_mono_r; lia). rewrite p53_eq in *. lia. }
  unfold binary_round. fold d. rewrite Z.add_0_r, fexp_small by lia. unfold shl_align. rewrite Z.sub_0_r.
  assert (forall mz, Zpos mz = Zpos p * 2 ^ (53 - d) -> exists m e,
    binary_round_aux 53 1024 false (Zpos mz) (d - 53) loc_Exact = S754_finite false m e /\ p52 <= Zpos m < p53 /\ -52 <= e <= 0 /\
    Zpos m = Zpos p * 2 ^ (- e)) as HH.
  { intros mz Emz. exists mz, (d - 53).
    assert (p52 <= Zpos mz < p53) as Hmz.
    { rewrite Emz. rewrite <- p52_eq, <- p53_eq.
      assert (2 ^ 52 = 2 ^ (d - 1) * 2 ^ (53 - d)) as -> by (rewrite <- Z.pow_add_r by lia; f_equal; lia).
      assert (2 ^ 53 = 2 ^ d * 2 ^ (53 - d)) as -> by (rewrite <- Z.pow_add_r by lia; f_equal; lia).
      assert (0 < 2 ^ (53 - d)) by (apply Z.pow_pos_nonneg; lia). nia. }
    split; [apply round_aux_53; lia|]. split; [done|]. split; [lia|]. rewrite Emz. do 2 f_equal. lia. }
  destruct (d - 53) as [|x|x] eqn:Ed; [|lia|].
  - apply HH. replace (53 - d) with 0 by lia. lia.
  - apply HH. replace (53 - d) with (Zpos x) by lia. rewrite shift_pos_correct. rewrite Z.mul_comm. f_equal.
Qed.

Lemma of_count_0 : of_count 0 = S754_zero false.
Proof. reflexivity. Qed.

(** A quotient of two counts is the nearest double. *)
Definition quot (p q : nat) : f64 := f_div (of_count p) (of_count q).

Lemma quot_spec p q : (0 < p)%nat -> (0 < q)%nat -> Z.of_nat p < p53 -> Z.of_nat q < p53 ->
  exists m k, quot p q = S754_finite false m (- k) /\ -1 < k + 3 /\ -60 <= k <= 120 /\
    rounds (Z.of_nat p * 2 ^ (k + 60)) (Z.of_nat q * 2 ^ 60) (Zpos m).
Proof.
  intros Hp Hq Bp Bq. destruct (of_count_spec p Hp Bp) as (m1 & e1 & E1 & M1 & R1 & V1).
  destruct (of_count_spec q Hq Bq) as (m2 & e2 & E2 & M2 & R2 & V2).
  unfold quot, f_div. rewrite E1, E2. cbn [SFdiv xorb].
  unfold SFdiv_core_binary, Zdigits2. rewrite (digits53 _ M1), (digits53 _ M2).
  replace (53 + e1 - (53 + e2)) with (e1 - e2) by lia. rewrite fexp_small by lia.
  rewrite Z.min_l by lia. replace (e1 - e2 - (e1 - e2 - 53)) with 53 by lia.
  rewrite Z.shiftl_mul_pow2 by lia.
  pose proof (Z_div_mod (Zpos m1 * 2 ^ 53) (Zpos m2) ltac:(lia)) as Hdm.
  assert (Z.div_eucl (Zpos m1 * 2 ^ 53) (Zpos m2) = (Zpos m1 * 2 ^ 53 / Zpos m2, (Zpos m1 * 2 ^ 53) mod Zpos m2)) as ->
    by (unfold Z.div, Z.modulo; by destruct (Z.div_eucl (Zpos m1 * 2 ^ 53) (Zpos m2))).
  clear Hdm. rewrite p53_eq.
  destruct (round_aux_spec (Zpos m1 * p53) (Zpos m2) (e1 - e2 - 53) (new_location (Zpos m2) ((Zpos m1 * p53) mod Zpos m2)))
    as (m & k & E & Hk & HR).
  - lia.
  - unfold p52, p53, p54 in *. lia.
  - lia.
  - apply new_location_located; [lia|]. apply Z.mod_pos_bound. lia.
  - exists m, (53 + e2 - e1 - k). rewrite E. split; [f_equal; lia|]. split; [lia|]. split; [lia|].
    assert (0 < 2 ^ k) as Hk2 by (apply Z.pow_pos_nonneg; lia).
    assert (0 < 2 ^ 60) by done.
    refine (rounds_scale _ _ _ _ _ _ _ _ HR); [lia|lia|].
    rewrite V1, V2, <- p53_eq.
    assert (forall a b c d : Z, a * b * c * d = (a * d) * (b * c)) as Hc by (intros; lia).
    transitivity (Z.of_nat p * Z.of_nat q * (2 ^ (- e1) * 2 ^ 53 * 2 ^ 60)); [lia|].
    transitivity (Z.of_nat p * Z.of_nat q * (2 ^ (53 + e2 - e1 - k + 60) * 2 ^ (- e2) * 2 ^ k)); [|lia].
    f_equal. rewrite <- !Z.pow_add_r by lia. f_equal. lia.
Qed.

(** ** Comparison *)

Definition pow_shift (k : Z) : Z := 2 ^ (k + 60).

Lemma rounds_upper N D m : 0 < D -> rounds N D m -> 2 * N < (p54 - 1) * D.
Proof.
  intros HD ((_ & H1) & (_ & H2) & H3 & _).
  destruct (Z.eq_dec m (p53 - 1)) as [->|Hm].
  - destruct H3 as [_ H3]; [reflexivity|]. unfold p53, p54 in *. lia.
  - assert (2 * m + 1 <= p54 - 3) by (unfold p53, p54 in *; lia). nia.
Qed.

Lemma rounds_lower N D m : 0 < D -> rounds N D m -> (p54 - 1) * D <= 4 * N.
Proof.
  intros HD ((H0 & _) & (H1 & _) & _ & H4).
  destruct (Z.eq_dec m p52) as [E|Hm].
  - specialize (H4 E). rewrite E in H4. unfold p52, p54 in *. lia.
  - assert (p53 + 1 <= 2 * m - 1) by (unfold p52, p53 in *; lia). unfold p52, p53, p54 in *. nia.
Qed.

(** The same fraction has one representation; a smaller one with small terms has a
    smaller representation. *)
Lemma rounds_order p1 q1 p2 q2 k1 k2 m1 m2 :
  0 < p1 -> 0 < q1 -> 0 < p2 -> 0 < q2 -> -60 <= k1 -> -60 <= k2 ->
  rounds (p1 * 2 ^ (k1 + 60)) (q1 * 2 ^ 60) m1 -> rounds (p2 * 2 ^ (k2 + 60)) (q2 * 2 ^ 60) m2 ->
  p1 * q2 <= p2 * q1 -> k2 < k1 \/ (k1 = k2 /\ m1 <= m2).
Proof.
  intros Hp1 Hq1 Hp2 Hq2 Hk1 Hk2 R1 R2 Hle. set (A := 2 ^ 60) in *. assert (0 < A) as HA by done.
  destruct (Z.lt_trichotomy k2 k1) as [L|[E|L]]; [by left|right|exfalso].
  - subst k2. split; [done|]. destruct (Z.le_gt_cases m1 m2) as [L|L]; [done|]. exfalso.
    set (B := 2 ^ (k1 + 60)) in *. assert (0 < B) as HB by (apply Z.pow_pos_nonneg; lia).
    destruct R1 as (_ & [H1 _] & S1 & _). destruct R2 as (_ & [_ H2] & S2 & _).
    (* x1 >= (2 m1 - 1)/2, x2 <= (2 m2 + 1)/2, x1 <= x2 *)
    assert ((2 * m1 - 1) * (q1 * A) * q2 <= 2 * (p1 * B) * q2) as G1 by (apply Z.mul_le_mono_nonneg_r; lia).
    assert (2 * (p2 * B) * q1 <= (2 * m2 + 1) * (q2 * A) * q1) as G2 by (apply Z.mul_le_mono_nonneg_r; lia).
    assert (p1 * q2 * B <= p2 * q1 * B) as G3 by (apply Z.mul_le_mono_nonneg_r; lia).
    assert (0 < q1 * q2 * A) as HQ by (apply Z.mul_pos_pos; [apply Z.mul_pos_pos; lia|lia]).
    assert ((2 * m1 - 1) * (q1 * q2 * A) <= (2 * m2 + 1) * (q1 * q2 * A)) as G4 by lia.
    apply Zmult_le_reg_r in G4; [|lia].
    assert (m1 = m2 + 1) as -> by lia.
    destruct (Z.odd m2) eqn:O2.
    + destruct (S2 eq_refl) as [_ S]. apply (Z.mul_lt_mono_pos_r q1) in S; [|lia]. lia.
    + assert (Z.odd (m2 + 1) = true) as O1 by (rewrite Z.odd_add, O2; done).
      destruct (S1 O1) as [S _]. apply (Z.mul_lt_mono_pos_r q2) in S; [|lia]. lia.
  - (* k1 < k2 *)
    assert (0 < q1 * A) as HA1 by (apply Z.mul_pos_pos; lia). assert (0 < q2 * A) as HA2 by (apply Z.mul_pos_pos; lia).
    pose proof (rounds_lower _ _ _ HA1 R1) as G1. pose proof (rounds_upper _ _ _ HA2 R2) as G2.
    set (B := 2 ^ (k1 + 60)) in *. assert (0 < B) as HB by (apply Z.pow_pos_nonneg; lia).
    assert (2 * B <= 2 ^ (k2 + 60)) as HB2.
    { unfold B. rewrite <- Z.pow_succ_r by lia. apply Z.pow_le_mono_r; lia. }
    assert ((p54 - 1) * (q1 * A) * q2 <= 4 * (p1 * B) * q2) as G3 by (apply Z.mul_le_mono_nonneg_r; lia).
    assert (2 * (p2 * 2 ^ (k2 + 60)) * q1 < (p54 - 1) * (q2 * A) * q1) as G4 by (apply Z.mul_lt_mono_pos_r; lia).
    assert (p1 * q2 * B <= p2 * q1 * B) as G5 by (apply Z.mul_le_mono_nonneg_r; lia).
    assert (p2 * q1 * (2 * B) <= p2 * q1 * 2 ^ (k2 + 60)) as G6 by (apply Z.mul_le_mono_nonneg_l; [apply Z.mul_nonneg_nonneg; lia|done]).
    lia.
Qed.

Lemma rounds_strict p1 q1 p2 q2 k m :
  0 < p1 -> 0 < q1 -> 0 < p2 -> 0 < q2 -> -60 <= k -> 2 * (p1 * q2) < p53 - 1 ->
  rounds (p1 * 2 ^ (k + 60)) (q1 * 2 ^ 60) m -> rounds (p2 * 2 ^ (k + 60)) (q2 * 2 ^ 60) m ->
  p2 * q1 <= p1 * q2.
Proof.
  intros Hp1 Hq1 Hp2 Hq2 Hk Hs R1 R2. set (A := 2 ^ 60) in *. assert (0 < A) as HA by done.
  set (B := 2 ^ (k + 60)) in *. assert (0 < B) as HB by (apply Z.pow_pos_nonneg; lia).
  destruct (Z.le_gt_cases (p2 * q1) (p1 * q2)) as [L|L]; [done|exfalso].
  destruct R1 as ([M1 _] & [H1 _] & _ & _). destruct R2 as (_ & [_ H2] & _ & _).
  (* x2 - x1 <= 1 in units of the last place; and x2 - x1 >= B / (q1 q2 A) *)
  assert ((2 * m - 1) * (q1 * A) * q2 <= 2 * (p1 * B) * q2) as G1 by (apply Z.mul_le_mono_nonneg_r; lia).
  assert (2 * (p2 * B) * q1 <= (2 * m + 1) * (q2 * A) * q1) as G2 by (apply Z.mul_le_mono_nonneg_r; lia).
  assert ((p1 * q2 + 1) * B <= p2 * q1 * B) as G3 by (apply Z.mul_le_mono_nonneg_r; lia).
  assert (B <= q1 * q2 * A) as G4 by lia.
  assert ((p53 - 1) * (q1 * q2 * A) <= (2 * m - 1) * (q1 * q2 * A)) as G5.
  { apply Z.mul_le_mono_nonneg_r; [|unfold p52, p53 in *; lia]. apply Z.mul_nonneg_nonneg; [apply Z.mul_nonneg_nonneg|]; lia. }
  assert ((p53 - 1) * B <= (p53 - 1) * (q1 * q2 * A)) as G6 by (apply Z.mul_le_mono_nonneg_l; [unfold p53; lia|done]).
  assert ((p53 - 1) * B <= 2 * (p1 * q2) * B) as G7 by lia.
  apply Zmult_le_reg_r in G7; lia.
Qed.

(** Numbers up to 2 ^ 26 = 67108864. *)
Definition countable (n : nat) : Prop := Z.of_nat n < 67108864.

Lemma countable_p53 n : countable n -> Z.of_nat n < p53.
Proof. unfold countable, p53. lia. Qed.

Lemma small_product p q : countable p -> countable q -> 2 * (Z.of_nat p * Z.of_nat q) < p53 - 1.
Proof.
  unfold countable. intros Hp Hq.
  assert (Z.of_nat p * Z.of_nat q <= 67108863 * 67108863) by (apply Z.mul_le_mono_nonneg; lia).
  unfold p53. lia.
Qed.

Lemma quot_zero q : (0 < q)%nat -> countable q -> quot 0 q = S754_zero false.
Proof.
  intros Hq Bq. destruct (of_count_spec q Hq (countable_p53 _ Bq)) as (m & e & E & _).
  unfold quot, f_div. rewrite of_count_0, E. done.
Qed.

(** Doubles compare as the fractions do. *)
Lemma quot_compare p1 q1 p2 q2 : (0 < q1)%nat -> (0 < q2)%nat ->
  countable p1 -> countable q1 -> countable p2 -> countable q2 ->
  SFcompare (quot p1 q1) (quot p2 q2) = Some (Nat.compare (p1 * q2) (p2 * q1)).
Proof.
  intros Hq1 Hq2 Bp1 Bq1 Bp2 Bq2.
  destruct (Nat.eq_dec p1 0%nat) as [->|N1].
  - rewrite quot_zero by done. destruct (Nat.eq_dec p2 0%nat) as [->|N2].
    + rewrite quot_zero by done. done.
    + destruct (quot_spec p2 q2) as (m2 & k2 & -> & _); [lia|done|by apply countable_p53|by apply countable_p53|].
      cbn [SFcompare Nat.mul]. f_equal. symmetry. apply Nat.compare_lt_iff. apply Nat.mul_pos_pos; lia.
  - destruct (quot_spec p1 q1) as (m1 & k1 & -> & _ & Hk1 & R1); [lia|done|by apply countable_p53|by apply countable_p53|].
    destruct (Nat.eq_dec p2 0%nat) as [->|N2].
    + rewrite quot_zero by done. cbn [SFcompare Nat.mul]. f_equal. symmetry. apply Nat.compare_gt_iff.
      apply Nat.mul_pos_pos; lia.
    + destruct (quot_spec p2 q2) as (m2 & k2 & -> & _ & Hk2 & R2); [lia|done|by apply countable_p53|by apply countable_p53|].
      cbn [SFcompare]. f_equal.
      assert (forall P1 Q1 P2 Q2 M1 M2 K1 K2, 0 < P1 -> 0 < Q1 -> 0 < P2 -> 0 < Q2 -> -60 <= K1 -> -60 <= K2 ->
        2 * (P1 * Q2) < p53 - 1 ->
        rounds (P1 * 2 ^ (K1 + 60)) (Q1 * 2 ^ 60) M1 -> rounds (P2 * 2 ^ (K2 + 60)) (Q2 * 2 ^ 60) M2 ->
        P1 * Q2 < P2 * Q1 -> K2 < K1 \/ (K1 = K2 /\ M1 < M2)) as HS.
      { intros P1 Q1 P2 Q2 M1 M2 K1 K2 A1 A2 A3 A4 A5 A6 A7 A8 A9 A10.
        destruct (rounds_order P1 Q1 P2 Q2 K1 K2 M1 M2) as [L|[-> L]]; try done; [lia|by left|].
        right. split; [done|]. destruct (Z.eq_dec M1 M2) as [->|]; [|lia].
        pose proof (rounds_strict P1 Q1 P2 Q2 K2 M2 A1 A2 A3 A4 A6 A7 A8 A9). lia. }
      destruct (Nat.compare_spec (p1 * q2) (p2 * q1)) as [E|L|L].
      * destruct (rounds_order (Z.of_nat p1) (Z.of_nat q1) (Z.of_nat p2) (Z.of_nat q2) k1 k2 (Zpos m1) (Zpos m2)) as [L|[Ek L]];
          try lia; try done.
        -- destruct (rounds_order (Z.of_nat p2) (Z.of_nat q2) (Z.of_nat p1) (Z.of_nat q1) k2 k1 (Zpos m2) (Zpos m1)) as [L'|[Ek' L']];
             try lia; done.
        -- destruct (rounds_order (Z.of_nat p2) (Z.of_nat q2) (Z.of_nat p1) (Z.of_nat q1) k2 k1 (Zpos m2) (Zpos m1)) as [L'|[Ek' L']];
             try lia; try done.
           subst k2. rewrite Z.compare_refl. assert (m1 = m2) as -> by lia. by rewrite Pos.compare_cont_refl.
      * destruct (HS (Z.of_nat p1) (Z.of_nat q1) (Z.of_nat p2) (Z.of_nat q2) (Zpos m1) (Zpos m2) k1 k2) as [L'|[Ek L']];
          try lia; try done; [by apply small_product| |].
        -- replace (- k1 ?= - k2) with Lt by (symmetry; apply Z.compare_lt_iff; lia). done.
        -- subst k2. rewrite Z.compare_refl. apply Pos.compare_lt_iff. lia.
      * destruct (HS (Z.of_nat p2) (Z.of_nat q2) (Z.of_nat p1) (Z.of_nat q1) (Zpos m2) (Zpos m1) k2 k1) as [L'|[Ek L']];
          try lia; try done; [by apply small_product| |].
        -- replace (- k1 ?= - k2) with Gt by (symmetry; apply Z.compare_gt_iff; lia). done.
        -- subst k2. rewrite Z.compare_refl. apply Pos.compare_gt_iff. lia.
Qed.

(** [2.0 * n as f64] is [(2 * n) as f64]. *)
Lemma mul_two n : countable n -> f_mul f_two (of_count n) = of_count (2 * n).
Proof.
  intros Hn. unfold countable in Hn. destruct (Nat.eq_dec n 0%nat) as [->|N0]; [reflexivity|].
  destruct (of_count_spec n) as (m & e & E & M & R & V); [lia|unfold p53; lia|].
  destruct (of_count_spec (2 * n)) as (m' & e' & E' & M' & R' & V'); [lia|unfold p53; lia|].
  rewrite E, E'. unfold f_mul, f_two. cbn [SFmul xorb].
  change (4503599627370496 * m)%positive with (m~0~0~0~0~0~0~0~0~0~0~0~0~0~0~0~0~0~0~0~0~0~0~0~0~0~0~0~0~0~0~0~0~0~0~0~0~0~0~0~0~0~0~0~0~0~0~0~0~0~0~0~0)%positive.
  assert (e' = e + 1) as ->.
  { destruct (Z.lt_trichotomy e' (e + 1)) as [L|[->|L]]; [|done|]; exfalso.
    - assert (2 ^ (- e) <= 2 ^ (- e')) by (apply Z.pow_le_mono_r; lia). unfold p52, p53 in *. nia.
    - assert (4 * 2 ^ (- e') <= 2 ^ (- e)).
      { change 4 with (2 ^ 2). rewrite <- Z.pow_add_r by lia. apply Z.pow_le_mono_r; lia. }
      unfold p52, p53 in *. nia. }
  assert (m' = m) as ->.
  { enough (Zpos m' = Zpos m) by congruence. rewrite V, V'.
    replace (2 ^ (- e)) with (2 * 2 ^ (- (e + 1))); [lia|]. rewrite <- Z.pow_succ_r by lia. f_equal. lia. }
  unfold binary_round_aux at 1. unfold shr_fexp at 1. cbn [Zdigits2 digits2_pos]. rewrite (digits53 _ M).
  rewrite fexp_small by (cbn; lia).
  match goal with |- context [shr _ _ ?x] => replace x with 52 by (cbn; lia) end.
  cbn [shr iter_pos shr_record_of_loc shr_1 orb shr_m loc_of_shr_record round_nearest_even].
  rewrite finish_53 by lia. destruct (Z.eqb_spec (Zpos m) p53); [lia|]. rewrite Pos2Z.id. f_equal. lia.
Qed.
