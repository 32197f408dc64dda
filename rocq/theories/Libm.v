(** Accurate logarithms and powers of two satisfy [libm_ok]: errors of 2^-45 are enough for series of 2^40 points. *)
From Flocq Require Import Core IEEE754.BinarySingleNaN IEEE754.PrimFloat.
From Coq Require Import ZArith List Bool Reals Lra Lia Floats.
From Verif Require Import Prelude Num FloatLaws FloatReal FitFloat.
Import ListNotations.
Open Scope Z_scope.

(** log2 and log of 1 are 0; elsewhere they are within 2^-45 of the logarithms (glibc: one unit in the last place, at
    most 2^-47 for these arguments); 2**x is at least 1 for x >= 0 and within a factor 1 + 2^-45. *)
Record libm_accurate (log2 log pow2 : float -> float) : Prop := {
  la_one : log2 1%float = 0%float /\ log 1%float = 0%float;
  la_log2 : forall k, 2 <= k <= 2 ^ 40 -> PrimFloat.is_finite (log2 (float_ofZ k)) = true /\
    (Rabs (fr (log2 (float_ofZ k)) - ln (IZR k) / ln 2) <= / IZR (2 ^ 45))%R;
  la_log : forall k, 2 <= k <= 2 ^ 40 -> PrimFloat.is_finite (log (float_ofZ k)) = true /\
    (Rabs (fr (log (float_ofZ k)) - ln (IZR k)) <= / IZR (2 ^ 45))%R;
  la_pow2 : forall x, PrimFloat.is_finite x = true -> (0 <= fr x <= 41)%R -> PrimFloat.is_finite (pow2 x) = true /\
    (1 <= fr (pow2 x))%R /\ (Rabs (fr (pow2 x) - Rpower 2 (fr x)) <= / IZR (2 ^ 45) * Rpower 2 (fr x))%R
}.

Lemma exp_ge t : (1 + t <= exp t)%R.
Proof. destruct (Req_dec t 0) as [->|H]; [rewrite exp_0; lra|]. left. apply exp_ineq1. exact H. Qed.

Lemma ln2_bounds : (/ 2 <= ln 2 <= 9 / 10)%R.
Proof.
  assert (A : (exp (/ 2) <= 2)%R).
  { pose proof (exp_ge (- / 2)) as H. rewrite exp_Ropp in H. pose proof (exp_pos (/ 2)) as P. apply Rmult_le_compat_r with (r := exp (/ 2)) in H; [|lra]. rewrite Rinv_l in H by lra. lra. }
  assert (C : (2 <= exp (9 / 10))%R).
  { replace (9 / 10)%R with (9 / 20 + 9 / 20)%R by field. rewrite exp_plus. pose proof (exp_ge (9 / 20)). nra. }
  assert (M : forall a b, (exp a <= exp b)%R -> (a <= b)%R) by (intros a b [H|H]; [left; apply exp_lt_inv; exact H|right; apply exp_inv; exact H]).
  split; apply M; rewrite exp_ln by lra; assumption.
Qed.

Lemma ln_bounds k : 2 <= k <= 2 ^ 40 -> (ln 2 <= ln (IZR k) <= 40 * ln 2)%R.
Proof.
  intros Hk. assert (P : (2 <= IZR k <= IZR (2 ^ 40))%R) by (split; apply IZR_le; lia). split.
  - destruct (Req_dec (IZR k) 2) as [->|E]; [lra|]. left. apply ln_increasing; lra.
  - replace (40 * ln 2)%R with (ln (IZR (2 ^ 40))).
    + destruct (Req_dec (IZR k) (IZR (2 ^ 40))) as [->|E]; [lra|]. left. apply ln_increasing; lra.
    + replace 40%R with (INR 40) by (rewrite INR_IZR_INZ; reflexivity). rewrite <- (ln_pow 2 ltac:(lra) 40%nat). f_equal. rewrite pow_IZR. reflexivity.
Qed.

Theorem accurate_ok log2 log pow2 : libm_accurate log2 log pow2 -> libm_ok log2 log pow2 (2 ^ 40).
Proof.
  intros [[A1 A2] A3 A4 A5]. pose proof ln2_bounds as [L1 L2]. set (eps := (/ IZR (2 ^ 45))%R) in *.
  assert (He : (0 < eps <= / 1000)%R). { unfold eps. split; [apply Rinv_0_lt_compat; apply IZR_lt; lia|]. apply Rinv_le; [lra|]. apply IZR_le. lia. }
  assert (E1 : float_ofZ 1 = 1%float) by reflexivity.
  assert (F1 : forall k, 1 <= k <= 2 ^ 40 -> fin (log2 (float_ofZ k)) /\ (0 <= fr (log2 (float_ofZ k)) <= 40 + eps)%R /\
     fin (log (float_ofZ k)) /\ (0 <= fr (log (float_ofZ k)) <= fr (log2 (float_ofZ k)))%R /\ (fr (log2 (float_ofZ k)) * ln 2 <= ln (IZR k) + eps)%R).
  { intros k Hk. destruct (Z.eq_dec k 1) as [->|Hk1].
    - rewrite E1, A1, A2, fr_0. rewrite ln_1. split; [exact fin_0|]. split; [lra|]. split; [exact fin_0|]. split; lra.
    - destruct (A3 k ltac:(lia)) as [B1 B2]. destruct (A4 k ltac:(lia)) as [C1 C2]. apply is_finite_prim in B1, C1. destruct (ln_bounds k ltac:(lia)) as [D1 D2].
      assert (Q1 : (1 <= ln (IZR k) / ln 2)%R) by (apply Rmult_le_reg_r with (ln 2); [lra|]; unfold Rdiv; rewrite Rmult_assoc, Rinv_l by lra; lra).
      assert (Q2 : (ln (IZR k) / ln 2 <= 40)%R) by (apply Rmult_le_reg_r with (ln 2); [lra|]; unfold Rdiv; rewrite Rmult_assoc, Rinv_l by lra; lra).
      assert (Q3 : (ln (IZR k) = (ln (IZR k) / ln 2) * ln 2)%R) by (field; lra). set (q := (ln (IZR k) / ln 2)%R) in *. apply Rabs_le_inv in B2, C2.
      split; [exact B1|]. split; [lra|]. split; [exact C1|]. split; [nra|nra]. }
  assert (GE : forall x, fin x -> (0 <= fr x)%R -> PrimFloat.leb 0 x = true) by (intros x Fx Hx; apply fr_leb; [exact fin_0|exact Fx|rewrite fr_0; exact Hx]).
  constructor.
  - intros k Hk. destruct (F1 k Hk) as (B1 & B2 & _). split; [apply is_finite_prim; exact B1|apply GE; [exact B1|lra]].
  - intros k Hk. destruct (F1 k Hk) as (B1 & B2 & B3 & B4 & _). split; [apply GE; [exact B3|lra]|]. apply fr_leb; [exact B3|exact B1|lra].
  - intros k x Hk H0 H1. destruct (F1 k Hk) as (B1 & B2 & _ & _ & B5).
    assert (Fx : fin x) by (apply (fin_between 0 x (log2 (float_ofZ k))); [exact H0|exact H1|exact fin_0|exact B1]).
    apply fr_leb in H0; [|exact fin_0|exact Fx]. rewrite fr_0 in H0. apply fr_leb in H1; [|exact Fx|exact B1].
    destruct (A5 x ltac:(apply is_finite_prim; exact Fx) ltac:(lra)) as (C1 & C2 & C3). apply is_finite_prim in C1. destruct (fr_ofZ (k + 1) ltac:(lia)) as [D1 D2].
    split; [apply fr_leb; [exact fin_1|exact C1|rewrite fr_1; exact C2]|]. apply fr_ltb; [exact C1|exact D1|]. rewrite D2.
    apply Rabs_le_inv in C3. assert (P : (Rpower 2 (fr x) <= IZR k * (1 + 2 * eps))%R).
    { unfold Rpower. assert (Hk0 : (1 <= IZR k)%R) by (apply IZR_le; lia).
      apply Rle_trans with (exp (ln (IZR k) + eps)).
      - destruct (Req_dec (fr x * ln 2) (ln (IZR k) + eps)) as [->|E]; [lra|]. left. apply exp_increasing. nra.
      - rewrite exp_plus, exp_ln by lra. apply Rmult_le_compat_l; [lra|]. pose proof (exp_ge (- eps)) as G. rewrite exp_Ropp in G. pose proof (exp_pos eps) as PP.
        apply Rmult_le_compat_r with (r := exp eps) in G; [|lra]. rewrite Rinv_l in G by lra. nra. }
    assert (Hk2 : (1 <= IZR k <= IZR (2 ^ 40))%R) by (split; apply IZR_le; lia).
    assert (HE : (eps * IZR (2 ^ 45) = 1)%R) by (unfold eps; apply Rinv_l; apply not_0_IZR; lia).
    assert (HK : (eps * IZR k <= / 32)%R).
    { apply Rle_trans with (eps * IZR (2 ^ 40))%R; [apply Rmult_le_compat_l; lra|]. change (IZR (2 ^ 45)) with 35184372088832%R in HE. change (IZR (2 ^ 40)) with 1099511627776%R. lra. }
    rewrite plus_IZR. assert (0 < Rpower 2 (fr x))%R by (apply exp_pos). nra.
Qed.

(** ** Correctly rounded functions are accurate *)

(** the binary64 number nearest to a real number *)
Definition to_float (r : R) : float :=
  B2Prim (BinarySingleNaN.binary_normalize prec emax Hprec Hmax mode_NE (Ztrunc (scaled_mantissa radix2 fexp64 (rnd r))) (cexp radix2 fexp64 (rnd r)) false).

Lemma to_float_ok r : small r -> fin (to_float r) /\ fr (to_float r) = rnd r.
Proof.
  intros HS. pose proof (small_rnd r HS) as Hr. assert (G : generic_format radix2 fexp64 (rnd r)) by (apply generic_format_round; exact _).
  assert (E : F2R (Float radix2 (Ztrunc (scaled_mantissa radix2 fexp64 (rnd r))) (cexp radix2 fexp64 (rnd r))) = rnd r) by (symmetry; exact G).
  pose proof (binary_normalize_correct prec emax Hprec Hmax mode_NE (Ztrunc (scaled_mantissa radix2 fexp64 (rnd r))) (cexp radix2 fexp64 (rnd r)) false) as H. cbv zeta in H. rewrite E in H.
  change (round radix2 (SpecFloat.fexp prec emax) (round_mode mode_NE) (rnd r)) with (rnd (rnd r)) in H. rewrite (rnd_id _ G) in H. rewrite Rlt_bool_true in H by exact Hr.
  destruct H as (A & C & _). rewrite fin_B. unfold fr, to_float. rewrite Prim2B_B2Prim. split; [exact C|exact A].
Qed.

Lemma to_float_0 : to_float 0 = 0%float.
Proof.
  unfold to_float. rewrite rnd_0, scaled_mantissa_0, (Ztrunc_IZR 0). generalize (cexp radix2 fexp64 0). intros e.
  change (B2Prim (B754_zero false) = 0%float). reflexivity.
Qed.

Lemma rnd_err r : (Rabs r <= 64)%R -> (Rabs (rnd r - r) <= / IZR (2 ^ 45))%R.
Proof.
  intros H. pose proof (error_le_half_ulp radix2 fexp64 (fun x => negb (Z.even x)) r) as E. fold (rnd r) in E. apply Rle_trans with (1 := E).
  assert (U : (Ulp.ulp radix2 fexp64 r <= Ulp.ulp radix2 fexp64 (bpow radix2 6))%R).
  { rewrite <- (ulp_abs radix2 fexp64 r). apply ulp_le_pos; [exact _|exact _|apply Rabs_pos|]. change (bpow radix2 6) with 64%R. exact H. }
  rewrite ulp_bpow in U. change (fexp64 (6 + 1)) with (-46)%Z in U. change (bpow radix2 (-46)) with (/ IZR (2 ^ 46))%R in U.
  change (IZR (2 ^ 46)) with 70368744177664%R in U. change (IZR (2 ^ 45)) with 35184372088832%R. lra.
Qed.

Lemma rnd_rel r : (1 <= r)%R -> (Rabs (rnd r - r) <= / IZR (2 ^ 45) * r)%R.
Proof.
  intros H. pose proof (error_le_half_ulp radix2 fexp64 (fun x => negb (Z.even x)) r) as E. fold (rnd r) in E. apply Rle_trans with (1 := E).
  rewrite ulp_neq_0 by lra. unfold cexp. pose proof (bpow_mag_le radix2 r ltac:(lra)) as B. rewrite Rabs_pos_eq in B by lra.
  assert (M : 1 <= mag radix2 r). { apply mag_ge_bpow. rewrite Rabs_pos_eq by lra. exact H. }
  assert (X : fexp64 (mag radix2 r) = mag radix2 r - 53) by (unfold SpecFloat.fexp, SpecFloat.emin; lia). rewrite X.
  replace (mag radix2 r - 53)%Z with ((mag radix2 r - 1) + -52)%Z by lia. rewrite bpow_plus. change (bpow radix2 (-52)) with (/ IZR (2 ^ 52))%R.
  change (IZR (2 ^ 52)) with 4503599627370496%R. change (IZR (2 ^ 45)) with 35184372088832%R. lra.
Qed.

Theorem rounded_accurate : libm_accurate (fun x => to_float (ln (fr x) / ln 2)) (fun x => to_float (ln (fr x))) (fun x => to_float (Rpower 2 (fr x))).
Proof.
  pose proof ln2_bounds as [L1 L2]. constructor.
  - rewrite fr_1, ln_1. unfold Rdiv. rewrite Rmult_0_l, to_float_0. auto.
  - intros k Hk. destruct (fr_ofZ k ltac:(lia)) as [_ ->]. destruct (ln_bounds k Hk) as [D1 D2].
    assert (Q : (0 <= ln (IZR k) / ln 2 <= 40)%R).
    { split; [apply Rmult_le_pos; [lra|]; left; apply Rinv_0_lt_compat; lra|]. apply Rmult_le_reg_r with (ln 2); [lra|]. unfold Rdiv. rewrite Rmult_assoc, Rinv_l by lra. lra. }
    destruct (to_float_ok (ln (IZR k) / ln 2)) as [A C]; [apply (small_Z _ 40); [lia|rewrite Rabs_pos_eq; lra]|].
    split; [apply is_finite_prim; exact A|]. rewrite C. apply rnd_err. rewrite Rabs_pos_eq; lra.
  - intros k Hk. destruct (fr_ofZ k ltac:(lia)) as [_ ->]. destruct (ln_bounds k Hk) as [D1 D2].
    destruct (to_float_ok (ln (IZR k))) as [A C]; [apply (small_Z _ 40); [lia|rewrite Rabs_pos_eq; lra]|].
    split; [apply is_finite_prim; exact A|]. rewrite C. apply rnd_err. rewrite Rabs_pos_eq; lra.
  - intros x Fx Hx. assert (P1 : (1 <= Rpower 2 (fr x))%R). { rewrite <- (Rpower_O 2) by lra. apply Rle_Rpower; lra. }
    assert (P2 : (Rpower 2 (fr x) <= IZR (2 ^ 41))%R).
    { apply Rle_trans with (Rpower 2 41); [apply Rle_Rpower; lra|]. replace 41%R with (INR 41) by (rewrite INR_IZR_INZ; reflexivity). rewrite Rpower_pow by lra. rewrite pow_IZR. apply Req_le. reflexivity. }
    destruct (to_float_ok (Rpower 2 (fr x))) as [A C]; [apply (small_Z _ (2 ^ 41)); [lia|rewrite Rabs_pos_eq; lra]|].
    split; [apply is_finite_prim; exact A|]. rewrite C. split; [apply (rnd_ge_Z _ 1); [lia|exact P1]|apply rnd_rel; exact P1].
Qed.
