(** Rounding errors of the z-scores in binary64: mean, deviation and quotient of a window against those in the real numbers. *)
From Flocq Require Import Core IEEE754.BinarySingleNaN IEEE754.PrimFloat Relative Plus_error.
From Coq Require Import ZArith List Bool Reals Lra Lia Floats.
From Verif Require Import Prelude Num Kernel Spec KernelProofs RealBase RealProofs Gen TransformProofs FloatLaws FloatReal FloatError.
Import ListNotations.
Open Scope Z_scope.

(** the largest error made on numbers below the normal range *)
Definition eta : R := bpow radix2 (-1075).
Lemma eta_pos : (0 < eta)%R. Proof. apply bpow_gt_0. Qed.

Lemma rnd_error x : (Rabs (rnd x - x) <= u64 * Rabs x + eta)%R.
Proof.
  destruct (error_N_FLT radix2 (-1074) 53 eq_refl (fun z => negb (Z.even z)) x) as (e & t & He & Ht & _ & E).
  change (rnd x) with (round radix2 (FLT_exp (-1074) 53) ZnearestE x). rewrite E. replace (x * (1 + e) + t - x)%R with (e * x + t)%R by ring.
  apply Rle_trans with (1 := Rabs_triang _ _). rewrite Rabs_mult. apply Rplus_le_compat.
  - apply Rmult_le_compat_r; [apply Rabs_pos|]. apply Rle_trans with (1 := He). right. unfold u64. replace (bpow radix2 (- (53) + 1)) with (bpow radix2 (-53) * 2)%R by (rewrite bpow_plus; reflexivity). lra.
  - apply Rle_trans with (1 := Ht). right. unfold eta. replace (-1075) with (-1074 + -1) by reflexivity. rewrite bpow_plus. change (bpow radix2 (-1)) with (/ 2)%R. ring.
Qed.
Lemma rnd_sum_error x y : generic_format radix2 fexp64 x -> generic_format radix2 fexp64 y -> (Rabs (rnd (x + y) - (x + y)) <= u64 * Rabs (x + y))%R.
Proof.
  intros Hx Hy. destruct (rnd_plus x y Hx Hy) as (e & He & ->). replace ((x + y) * (1 + e) - (x + y))%R with (e * (x + y))%R by ring. rewrite Rabs_mult. apply Rmult_le_compat_r; [apply Rabs_pos|exact He].
Qed.

(** ** Means of squares *)

Definition rms (l : list R) : R := R_sqrt.sqrt (ssqr l / IZR (zlen l)).
Lemma ssqr_nonneg l : (0 <= ssqr l)%R.
Proof. apply rsum_nonneg. intros x Hx. apply in_map_iff in Hx as (v & <- & _). apply sq0. Qed.
Lemma rms_nonneg l : (0 <= rms l)%R. Proof. apply sqrt_pos. Qed.
Lemma rms_sq l : l <> [] -> (IZR (zlen l) * (rms l * rms l) = ssqr l)%R.
Proof.
  intros H. pose proof (zlen_pos_R l H). pose proof (ssqr_nonneg l). unfold rms. rewrite sqrt_sqrt; [field; lra|]. unfold Rdiv. apply Rmult_le_pos; [lra|]. left. apply Rinv_0_lt_compat. lra.
Qed.
Lemma sabs_rms l : (sabs l <= IZR (zlen l) * rms l)%R.
Proof.
  destruct l as [|x t]; [unfold sabs; cbn; change (zlen (@nil R)) with 0; lra|]. set (l := x :: t). assert (H : l <> []) by discriminate. pose proof (zlen_pos_R l H). pose proof (rms_nonneg l).
  apply sq_le_abs; [nra|]. apply Rle_trans with (1 := cauchy_abs l). rewrite <- (rms_sq l H). nra.
Qed.
Lemma ssqr_close d xs ys : (0 <= d)%R -> Forall2 (fun x y => (Rabs (y - x) <= d)%R) xs ys -> (ssqr ys <= ssqr xs + 2 * d * sabs xs + IZR (zlen xs) * (d * d))%R.
Proof.
  intros Hd H. unfold ssqr, sabs. induction H as [|x y xs ys Hxy _ IH]; [cbn; change (zlen (@nil R)) with 0; lra|]. cbn [map rsum]. rewrite zlen_cons, plus_IZR.
  assert (y * y <= x * x + 2 * d * Rabs x + d * d)%R; [|lra]. replace (y * y)%R with (x * x + 2 * (x * (y - x)) + (y - x) * (y - x))%R by ring.
  assert (x * (y - x) <= d * Rabs x)%R by (apply Rle_trans with (1 := Rle_abs _); rewrite Rabs_mult; pose proof (Rabs_pos x); nra).
  assert ((y - x) * (y - x) <= d * d)%R by (apply Rabs_le_inv in Hxy; nra). lra.
Qed.
Lemma rms_close d xs ys : xs <> [] -> (0 <= d)%R -> Forall2 (fun x y => (Rabs (y - x) <= d)%R) xs ys -> (rms ys <= rms xs + d)%R.
Proof.
  intros Hx Hd H. assert (Zl : zlen xs = zlen ys) by (apply Forall2_length in H; unfold zlen; lia). assert (Hy : ys <> []) by (intros ->; inversion H; subst; congruence).
  pose proof (ssqr_close d xs ys Hd H) as Q. rewrite <- (rms_sq xs Hx), <- (rms_sq ys Hy), <- Zl in Q. pose proof (sabs_rms xs) as S. pose proof (zlen_pos_R xs Hx) as P.
  pose proof (rms_nonneg xs) as R1. pose proof (rms_nonneg ys) as R2. set (n := IZR (zlen xs)) in *. set (a := rms xs) in *. set (b := rms ys) in *. clearbody n a b.
  apply sq_le_abs; [lra|]. apply Rmult_le_reg_l with n; [exact P|]. assert (d * sabs xs <= d * (n * a))%R by (apply Rmult_le_compat_l; lra). lra.
Qed.
Lemma abs_rms l x : In x l -> (Rabs x <= IZR (zlen l) * rms l)%R.
Proof.
  intros H. apply Rle_trans with (2 := sabs_rms l). unfold sabs. induction l as [|a l IH]; [destruct H|]. cbn [map rsum].
  assert (0 <= rsum (map Rabs l))%R by (apply rsum_nonneg; intros y Hy; apply in_map_iff in Hy as (v & <- & _); apply Rabs_pos). pose proof (Rabs_pos a).
  destruct H as [<-|H]; [lra|]. specialize (IH H). lra.
Qed.
Lemma rms_bound l d : l <> [] -> (0 <= d)%R -> (forall x, In x l -> (Rabs x <= d)%R) -> (rms l <= d)%R.
Proof.
  intros H Hd HB. pose proof (zlen_pos_R l H). pose proof (rms_nonneg l). apply sq_le_abs; [exact Hd|]. apply Rmult_le_reg_l with (IZR (zlen l)); [lra|]. rewrite (rms_sq l H).
  rewrite (Rmult_comm (IZR (zlen l))), <- rsum_map_const. apply rsum_map_le. intros x Hx. specialize (HB x Hx). apply Rabs_le_inv in HB. nra.
Qed.
Lemma sdev_rms w : sdev RN w = rms (map (fun x => x - avg RN w)%R w).
Proof. rewrite sdev_R. unfold rms, ssqr, ssq. rewrite map_map, zlen_map. reflexivity. Qed.

(** ** Sums *)

Lemma u64_40 n : 0 <= n <= 2 ^ 40 -> (0 <= IZR n * u64 <= / 8192)%R.
Proof.
  intros H. pose proof u64_range. assert (0 <= IZR n)%R by (apply IZR_le; lia). split; [nra|]. apply Rle_trans with (IZR (2 ^ 40) * u64)%R; [apply Rmult_le_compat_r; [lra|apply IZR_le; lia]|].
  unfold u64. change (bpow radix2 (-53)) with (/ IZR (2 ^ 53))%R. change (IZR (2 ^ 53)) with 9007199254740992%R. change (IZR (2 ^ 40)) with 1099511627776%R. lra.
Qed.

Lemma sum_error_from B ts : (0 <= B <= level 400)%R -> (forall t, In t ts -> fin t /\ (Rabs (fr t) <= B)%R) -> forall k s r, 0 <= k -> k + zlen ts <= 2 ^ 40 -> fin s ->
  (Rabs (fr s - r) <= IZR k * IZR k * (u64 * B))%R -> (Rabs r <= IZR k * B)%R ->
  let s' := fold_left (fun a c => (a + c)%float) ts s in let r' := (r + rsum (map fr ts))%R in let k' := IZR (k + zlen ts) in
  fin s' /\ (Rabs (fr s' - r') <= k' * k' * (u64 * B))%R /\ (Rabs r' <= k' * B)%R.
Proof.
  intros HB. induction ts as [|t ts IH]; intros HT k s r Hk HM Fs HE HR.
  - cbn [fold_left map rsum]. change (zlen (@nil float)) with 0. rewrite Z.add_0_r, Rplus_0_r. auto.
  - rewrite zlen_cons in *. pose proof (zlen_nonneg ts). cbn [fold_left map rsum]. destruct (HT t (or_introl eq_refl)) as [Ft Bt]. pose proof u64_range as U. pose proof (u64_40 k ltac:(lia)) as Uk.
    assert (K0 : (0 <= IZR k)%R) by (apply IZR_le; lia). assert (KE : (IZR k * IZR k * (u64 * B) <= IZR k * B)%R) by (replace (IZR k * IZR k * (u64 * B))%R with ((IZR k * u64) * (IZR k * B))%R by ring; assert (0 <= IZR k * B)%R by nra; nra).
    assert (A0 : (Rabs (r + fr t) <= (IZR k + 1) * B)%R) by (apply Rle_trans with (1 := Rabs_triang _ _); lra).
    assert (A1 : (Rabs (fr s + fr t) <= (IZR k + 1) * B + IZR k * IZR k * (u64 * B))%R).
    { replace (fr s + fr t)%R with ((r + fr t) + (fr s - r))%R by ring. apply Rle_trans with (1 := Rabs_triang _ _). lra. }
    destruct (fr_add s t Fs Ft) as [F E].
    { apply (level_small 442); [lia|]. apply Rle_trans with (1 := A1). apply Rle_trans with (2 * (IZR k + 1) * B)%R; [nra|]. replace (level 442) with (IZR (2 ^ 42) * level 400)%R by (unfold level; change (IZR (2 ^ 42)) with (bpow radix2 42); rewrite <- bpow_plus; reflexivity).
      apply Rmult_le_compat; [lra|lra| |lra]. change 2%R with (IZR 2). rewrite <- plus_IZR, <- mult_IZR. apply IZR_le. lia. }
    replace (k + (zlen ts + 1)) with ((k + 1) + zlen ts) by lia. replace (r + (fr t + rsum (map fr ts)))%R with ((r + fr t) + rsum (map fr ts))%R by ring.
    apply IH; [intros; apply HT; right; assumption|lia|lia|exact F| |rewrite plus_IZR; lra].
    rewrite E. pose proof (rnd_sum_error (fr s) (fr t) (format_fr s) (format_fr t)) as Q.
    replace (rnd (fr s + fr t) - (r + fr t))%R with ((rnd (fr s + fr t) - (fr s + fr t)) + (fr s - r))%R by ring. apply Rle_trans with (1 := Rabs_triang _ _).
    apply Rle_trans with (u64 * ((IZR k + 1) * B + IZR k * IZR k * (u64 * B)) + IZR k * IZR k * (u64 * B))%R; [apply Rplus_le_compat; [apply Rle_trans with (1 := Q); apply Rmult_le_compat_l; lra|exact HE]|].
    rewrite plus_IZR. set (T := (u64 * B)%R). assert (0 <= T)%R by (unfold T; nra). replace (u64 * ((IZR k + 1) * B + IZR k * IZR k * T))%R with ((IZR k + 1) * T + (IZR k * u64) * (IZR k * T))%R by (unfold T; ring).
    assert ((IZR k * u64) * (IZR k * T) <= IZR k * T)%R by (assert (0 <= IZR k * T)%R by nra; nra). lra.
Qed.

Lemma mul_tiny a b : (0 <= a <= / 8192 -> 0 <= b -> a * b <= b / 8192)%R.
Proof. intros H H'. nra. Qed.

Section Zscore.
Context (log2 log pow2 : float -> float).
Notation N := (FN log2 log pow2).

Lemma sum_error B ts : (0 <= B <= level 400)%R -> (forall t, In t ts -> fin t /\ (Rabs (fr t) <= B)%R) -> zlen ts <= 2 ^ 40 ->
  let n := IZR (zlen ts) in fin (sumF N ts) /\ (Rabs (fr (sumF N ts) - rsum (map fr ts)) <= n * n * (u64 * B))%R /\ (Rabs (rsum (map fr ts)) <= n * B)%R.
Proof.
  intros HB HT HZ. pose proof (sum_error_from B ts HB HT 0 0%float 0%R ltac:(lia) ltac:(lia) fin_0) as Q. cbv zeta in Q. rewrite Z.add_0_l, Rplus_0_l in Q. apply Q.
  - rewrite fr_0, Rminus_0_r, Rabs_R0. lra.
  - rewrite Rabs_R0. lra.
Qed.

Context (B : R) (w : list float) (HB : (level (-400) <= B <= level 400)%R) (Hw : forall x, In x w -> fin x /\ (Rabs (fr x) <= B)%R) (Hn : 1 <= zlen w <= 2 ^ 40).
Notation n := (IZR (zlen w)).
Notation T := (u64 * B)%R.

Lemma B_pos : (0 < B)%R. Proof. pose proof (level_pos (-400)). lra. Qed.
Lemma n_ge : (1 <= n)%R. Proof. apply IZR_le. lia. Qed.
Lemma T_pos : (0 < T)%R. Proof. pose proof B_pos. pose proof u64_range. nra. Qed.
Lemma T_low : (level (-453) <= T)%R.
Proof. unfold u64. replace (level (-453)) with (bpow radix2 (-53) * level (-400))%R by (unfold level; rewrite <- bpow_plus; reflexivity). apply Rmult_le_compat_l; [apply bpow_ge_0|lra]. Qed.
Lemma nT : (n * T <= B / 8192)%R.
Proof. pose proof (u64_40 (zlen w) ltac:(lia)). pose proof B_pos. replace (n * T)%R with ((n * u64) * B)%R by ring. nra. Qed.
Lemma nuT : (n * u64 * T <= T / 8192)%R.
Proof. pose proof (u64_40 (zlen w) ltac:(lia)). pose proof T_pos. set (t := T) in *. nra. Qed.
Lemma T_nT : (T <= n * T)%R.
Proof. pose proof n_ge. pose proof T_pos as P. set (t := T) in *. nra. Qed.
Lemma eta_T : (eta <= T / 4)%R.
Proof. pose proof T_low. assert (eta * 4 <= level (-453))%R; [|lra]. unfold eta, level. change 4%R with (bpow radix2 2). rewrite <- bpow_plus. apply bpow_le. lia. Qed.
Lemma w_ne : w <> []. Proof. intros ->. change (zlen (@nil float)) with 0 in Hn. lia. Qed.
Lemma n_fr : fin (float_ofZ (zlen w)) /\ fr (float_ofZ (zlen w)) = n.
Proof. apply fr_ofZ. lia. Qed.

Notation mu := (avg RN (map fr w)).
Notation m := (avg N w).
Lemma mu_bound : (Rabs mu <= B)%R.
Proof.
  destruct (sum_error B w ltac:(pose proof B_pos; lra) Hw ltac:(lia)) as (_ & _ & Q). rewrite avg_R, zlen_map. pose proof n_ge. unfold Rdiv. rewrite Rabs_mult, (Rabs_pos_eq (/ n)) by (left; apply Rinv_0_lt_compat; lra).
  apply (Rmult_le_reg_r n); [lra|]. rewrite Rmult_assoc, Rinv_l by lra. lra.
Qed.
Lemma mean_error : fin m /\ (Rabs (fr m - mu) <= (n + 2) * T)%R.
Proof.
  destruct (sum_error B w ltac:(pose proof B_pos; lra) Hw ltac:(lia)) as (F & E & Q). pose proof n_ge as Ng. pose proof B_pos as Bp. pose proof nT as HnT. pose proof nuT as HnuT. pose proof eta_T as He. destruct n_fr as [Fn En]. pose proof u64_range as U.
  assert (D1 : (Rabs (fr (sumF N w) / n - mu) <= n * T)%R).
  { rewrite avg_R, zlen_map. replace (fr (sumF N w) / n - rsum (map fr w) / n)%R with ((fr (sumF N w) - rsum (map fr w)) / n)%R by (field; lra). unfold Rdiv. rewrite Rabs_mult, (Rabs_pos_eq (/ n)) by (left; apply Rinv_0_lt_compat; lra).
    apply (Rmult_le_reg_r n); [lra|]. rewrite Rmult_assoc, Rinv_l by lra. lra. }
  assert (D2 : (Rabs (fr (sumF N w) / n) <= B + n * T)%R).
  { replace (fr (sumF N w) / n)%R with (mu + (fr (sumF N w) / n - mu))%R by ring. apply Rle_trans with (1 := Rabs_triang _ _). pose proof mu_bound. lra. }
  unfold avg at 1 2. cbn [ndiv nofZ FN]. destruct (fr_div (sumF N w) (float_ofZ (zlen w)) F) as [Fm Em]; [rewrite En; lra|rewrite En; apply (level_small 401); [lia|]|].
  { change 401 with (400 + 1). rewrite level_S. lra. }
  rewrite En in Em. split; [exact Fm|]. rewrite Em. pose proof (rnd_error (fr (sumF N w) / n)) as Q1.
  replace (rnd (fr (sumF N w) / n) - mu)%R with ((rnd (fr (sumF N w) / n) - fr (sumF N w) / n) + (fr (sumF N w) / n - mu))%R by ring. apply Rle_trans with (1 := Rabs_triang _ _).
  apply Rle_trans with (u64 * (B + n * T) + eta + n * T)%R; [apply Rplus_le_compat; [apply Rle_trans with (1 := Q1); apply Rplus_le_compat_r; apply Rmult_le_compat_l; lra|exact D1]|].
  replace (u64 * (B + n * T))%R with (T + n * u64 * T)%R by ring. pose proof T_pos. lra.
Qed.

Notation c x := (x - m)%float.
Notation del := ((n + 5) * T)%R.
Lemma del_small : (0 <= del <= B / 1000)%R.
Proof. pose proof n_ge. pose proof nT. pose proof T_pos. pose proof B_pos. assert (T <= n * T)%R by nra. split; [nra|]. lra. Qed.

Lemma centre_error x : In x w -> fin (c x) /\ (Rabs (fr (c x) - (fr x - mu)) <= del)%R /\ (Rabs (fr x - mu) <= 2 * B)%R /\ (Rabs (fr (c x)) <= 3 * B)%R.
Proof.
  intros Hx. destruct (Hw x Hx) as [Fx Bx]. destruct mean_error as [Fm Em]. pose proof mu_bound as Bm. pose proof n_ge. pose proof B_pos. pose proof nT. pose proof nuT. pose proof T_pos. pose proof u64_range. pose proof del_small.
  assert (C1 : (Rabs (fr x - mu) <= 2 * B)%R) by (apply Rabs_le_inv in Bx; apply Rabs_le_inv in Bm; apply Rabs_le; lra).
  assert (C2 : (Rabs (fr x - fr m) <= 2 * B + (n + 2) * T)%R) by (apply Rabs_le_inv in C1; apply Rabs_le_inv in Em; apply Rabs_le; lra).
  destruct (fr_sub x m Fx Fm) as [F E]; [apply (level_small 402); [lia|]|].
  { change 402 with (400 + 1 + 1). rewrite !level_S. lra. }
  split; [exact F|]. rewrite E. pose proof (rnd_sum_error (fr x) (- fr m) (format_fr x) (generic_format_opp _ _ _ (format_fr m))) as Q. fold (fr x - fr m)%R in Q.
  assert (C3 : (Rabs (rnd (fr x - fr m) - (fr x - fr m)) <= 3 * T)%R).
  { apply Rle_trans with (1 := Q). apply Rle_trans with (u64 * (2 * B + (n + 2) * T))%R; [apply Rmult_le_compat_l; lra|]. replace (u64 * (2 * B + (n + 2) * T))%R with (2 * T + n * u64 * T + 2 * (u64 * T))%R by ring.
    assert (u64 * T <= T / 4)%R; [|lra]. pose proof (u64_40 1 ltac:(lia)). nra. }
  assert (C4 : (Rabs (rnd (fr x - fr m) - (fr x - mu)) <= del)%R).
  { replace (rnd (fr x - fr m) - (fr x - mu))%R with ((rnd (fr x - fr m) - (fr x - fr m)) + (mu - fr m))%R by ring. apply Rle_trans with (1 := Rabs_triang _ _). rewrite (Rabs_minus_sym mu). lra. }
  split; [exact C4|]. split; [exact C1|]. apply Rabs_le_inv in C4. apply Rabs_le_inv in C1. apply Rabs_le. lra.
Qed.

(** the centred values, in binary64 and in the real numbers *)
Notation cs := (map (fun x => fr (c x)) w).
Notation rs := (map (fun x => x - mu)%R (map fr w)).
Notation sigma := (sdev RN (map fr w)).
Lemma rms_sigma : (Rabs (rms cs - sigma) <= del)%R /\ (sigma <= 2 * B)%R /\ (0 <= sigma)%R.
Proof.
  rewrite sdev_rms. pose proof del_small as [D0 _]. pose proof w_ne as W. pose proof B_pos.
  assert (N1 : cs <> []) by (destruct w; [congruence|discriminate]). assert (N2 : rs <> []) by (destruct w; [congruence|discriminate]).
  split; [|split; [|apply rms_nonneg]].
  - apply Rabs_le. split; [assert (rms rs <= rms cs + del)%R; [|lra]|assert (rms cs <= rms rs + del)%R; [|lra]]; apply rms_close; try assumption; rewrite map_map.
    + assert (HC := fun x Hx => proj1 (proj2 (centre_error x Hx))). revert HC. generalize m, mu, del. intros m0 mu0 d0 HC. clear - HC. induction w as [|a t IH]; [constructor|]. cbn [map]. constructor; [|apply IH; intros; apply HC; right; assumption]. rewrite Rabs_minus_sym. apply HC. left. reflexivity.
    + assert (HC := fun x Hx => proj1 (proj2 (centre_error x Hx))). revert HC. generalize m, mu, del. intros m0 mu0 d0 HC. clear - HC. induction w as [|a t IH]; [constructor|]. cbn [map]. constructor; [|apply IH; intros; apply HC; right; assumption]. apply HC. left. reflexivity.
  - apply rms_bound; [exact N2|lra|]. intros y Hy. rewrite map_map in Hy. apply in_map_iff in Hy as (x & <- & Hx). apply (centre_error x Hx).
Qed.

Lemma pow_up_bound k : (INR k * u64 <= / 2 -> (1 + u64) ^ k <= 1 + 2 * (INR k * u64))%R.
Proof.
  pose proof u64_range. induction k as [|k IH]; [cbn; lra|]. rewrite S_INR. intros HK. cbn [pow]. pose proof (pos_INR k). assert (P := IH ltac:(nra)).
  apply Rle_trans with ((1 + u64) * (1 + 2 * (INR k * u64)))%R; [apply Rmult_le_compat_l; lra|]. assert (INR k * u64 * u64 <= u64 / 2)%R by (assert (INR k * u64 <= / 2)%R by lra; nra). lra.
Qed.
Lemma pow_low_bound k : (1 - INR k * u64 <= (1 - u64) ^ k)%R.
Proof.
  pose proof u64_range. induction k as [|k IH]; [cbn; lra|]. rewrite S_INR. cbn [pow]. pose proof (pos_INR k).
  apply Rle_trans with ((1 - u64) * (1 - INR k * u64))%R; [assert (0 <= INR k * u64 * u64)%R by (apply Rmult_le_pos; nra); lra|apply Rmult_le_compat_l; lra].
Qed.

Notation sq x := (c x * c x)%float.
Lemma square_error x : In x w -> fin (sq x) /\ (0 <= fr (sq x) <= scale)%R /\ (Rabs (fr (sq x) - fr (c x) * fr (c x)) <= u64 * (fr (c x) * fr (c x)) + eta)%R.
Proof.
  intros Hx. destruct (centre_error x Hx) as (Fc & _ & _ & Bc). pose proof B_pos. set (y := fr (c x)) in *.
  assert (Hy : (0 <= y * y <= level 804)%R).
  { split; [apply sq0|]. replace (y * y)%R with (Rabs y * Rabs y)%R by (rewrite <- Rabs_mult; apply Rabs_pos_eq, sq0). replace (level 804) with ((4 * level 400) * (4 * level 400))%R.
    - apply Rmult_le_compat; try apply Rabs_pos; lra.
    - unfold level. change 4%R with (bpow radix2 2). rewrite <- !bpow_plus. reflexivity. }
  destruct (fr_mul (c x) (c x) Fc Fc) as [F E]; [apply (level_small 804); [lia|]; fold y; rewrite Rabs_pos_eq; lra|]. fold y in E. split; [exact F|]. rewrite E. split.
  - split; [apply rnd_nonneg; lra|]. apply Rle_trans with (level 804); [apply rnd_le_fmt; [apply level_format; lia|lra]|]. apply bpow_le. lia.
  - apply Rle_trans with (1 := rnd_error _). rewrite Rabs_pos_eq by lra. lra.
Qed.

Notation qs := (map (fun x => sq x) w).
Notation Q := (rms cs * rms cs)%R.
Notation nu := (n * u64)%R.
Lemma squares_error : fin (sumF N qs) /\ ((1 - nu) * rsum (map fr qs) <= fr (sumF N qs) <= (1 + 2 * nu) * rsum (map fr qs))%R /\
  ((1 - u64) * (n * Q) - n * eta <= rsum (map fr qs) <= (1 + u64) * (n * Q) + n * eta)%R.
Proof.
  pose proof (sumF_near log2 log pow2 0 1 qs (map fr qs)) as P. rewrite zlen_map, Z.mul_1_l in P. destruct P as [(F & S0 & S1) _]; [lia|lia| |].
  { assert (HS := fun x Hx => square_error x Hx). revert HS. generalize m. intros m0 HS. clear - HS. induction w as [|a t IH]; [constructor|]. cbn [map]. constructor; [|apply IH; intros; apply HS; right; assumption].
    destruct (HS a (or_introl eq_refl)) as (F & R0 & _). split; [split; [exact F|]; split; [lra|cbn; lra]|lra]. }
  rewrite sumF_rsum in *. cbn [Nat.add] in S1. assert (EN : INR (Z.to_nat (zlen w)) = n) by (rewrite INR_IZR_INZ, Z2Nat.id by lia; reflexivity).
  pose proof (u64_40 (zlen w) ltac:(lia)) as U. split; [exact F|]. split.
  - pose proof (pow_up_bound (Z.to_nat (zlen w))) as P1. pose proof (pow_low_bound (Z.to_nat (zlen w))) as P2. rewrite EN in *. specialize (P1 ltac:(lra)). split; [apply Rle_trans with (2 := proj1 S1)|apply Rle_trans with (1 := proj2 S1)]; apply Rmult_le_compat_r; assumption.
  - assert (E : (n * Q)%R = ssqr cs) by (rewrite <- (rms_sq cs); [rewrite zlen_map; reflexivity|destruct w; [change (zlen (@nil float)) with 0 in Hn; lia|discriminate]]). rewrite E. unfold ssqr. rewrite !map_map.
    replace ((1 - u64) * rsum (map (fun x => fr (c x) * fr (c x)) w) - n * eta)%R with (rsum (map (fun x => (1 - u64) * (fr (c x) * fr (c x)) + - eta) w))%R by (rewrite rsum_map_plus, rsum_map_scal, rsum_map_const; ring).
    replace ((1 + u64) * rsum (map (fun x => fr (c x) * fr (c x)) w) + n * eta)%R with (rsum (map (fun x => (1 + u64) * (fr (c x) * fr (c x)) + eta) w))%R by (rewrite rsum_map_plus, rsum_map_scal, rsum_map_const; ring).
    split; apply rsum_map_le; intros x Hx; destruct (square_error x Hx) as (_ & _ & D); apply Rabs_le_inv in D; lra.
Qed.

Notation V := (ndiv N (sumF N qs) (nofZ N (zlen w))).
Lemma cs_bound : (0 <= rms cs <= 3 * B)%R.
Proof.
  split; [apply rms_nonneg|]. pose proof B_pos. apply rms_bound; [destruct w; [change (zlen (@nil float)) with 0 in Hn; lia|discriminate]|lra|]. intros y Hy. apply in_map_iff in Hy as (x & <- & Hx). apply (centre_error x Hx).
Qed.
Lemma variance_error : fin V /\ ((1 - 6 * nu) * Q - 3 * eta <= fr V <= (1 + 6 * nu) * Q + 3 * eta)%R /\ (0 <= fr V)%R.
Proof.
  destruct squares_error as (F & [S1 S2] & S3 & S4). destruct n_fr as [Fn En]. pose proof n_ge as Ng. pose proof u64_range as Ur. pose proof (u64_40 (zlen w) ltac:(lia)) as Un. pose proof eta_pos as Ep. pose proof cs_bound as [R0 R1]. pose proof B_pos as Bp.
  assert (Uu : (u64 <= nu)%R) by nra. assert (Q0 : (0 <= Q)%R) by apply sq0.
  assert (SP : (0 <= rsum (map fr qs))%R) by (apply rsum_nonneg; intros y Hy; rewrite map_map in Hy; apply in_map_iff in Hy as (x & <- & Hx); apply (square_error x Hx)).
  set (s := (rsum (map fr qs) / n)%R). assert (Es : (rsum (map fr qs) = n * s)%R) by (unfold s; field; lra). rewrite Es in *. clearbody s.
  assert (s0 : (0 <= s)%R) by nra. assert (s1 : ((1 - u64) * Q - eta <= s)%R) by (apply Rmult_le_reg_l with n; lra). assert (s2 : (s <= (1 + u64) * Q + eta)%R) by (apply Rmult_le_reg_l with n; lra).
  set (t := (fr (sumF N qs) / n)%R). assert (Et : (fr (sumF N qs) = n * t)%R) by (unfold t; field; lra). rewrite Et in S1, S2.
  assert (t1 : ((1 - nu) * s <= t)%R) by (apply Rmult_le_reg_l with n; lra). assert (t2 : (t <= (1 + 2 * nu) * s)%R) by (apply Rmult_le_reg_l with n; lra).
  assert (t0 : (0 <= t)%R) by nra. set (v := nu) in *.
  assert (QB : (Q <= level 804)%R).
  { replace (level 804) with ((4 * level 400) * (4 * level 400))%R by (unfold level; change 4%R with (bpow radix2 2); rewrite <- !bpow_plus; reflexivity). apply Rmult_le_compat; lra. }
  assert (e1 : (eta <= 1)%R) by (change 1%R with (bpow radix2 0); apply bpow_le; lia). assert (L804 : (1 <= level 804)%R) by (change 1%R with (bpow radix2 0); apply bpow_le; lia).
  assert (us : (u64 * Q <= v * Q)%R) by nra. assert (vQ : (0 <= v * Q)%R) by nra.
  assert (vs : (v * s <= s / 8192)%R) by nra.
  assert (s3 : (s <= 2 * Q + eta)%R) by nra.
  cbn [ndiv nofZ FN]. destruct (fr_div (sumF N qs) (float_ofZ (zlen w)) F) as [FV EV]; [rewrite En; lra| |].
  { rewrite En. fold t. apply (level_small 806); [lia|]. rewrite Rabs_pos_eq by exact t0. change 806 with (804 + 1 + 1). rewrite !level_S. lra. }
  rewrite En in EV. fold t in EV. split; [exact FV|]. rewrite EV. pose proof (rnd_error t) as D. rewrite (Rabs_pos_eq t) in D by exact t0. apply Rabs_le_inv in D.
  assert (ut : (u64 * t <= v * t)%R) by nra.
  assert (vvQ : (v * (v * Q) <= v * Q / 8192)%R) by nra. assert (ve : (v * eta <= eta / 8192)%R) by nra.
  assert (vs2 : (v * s <= v * Q + v * (v * Q) + v * eta)%R) by nra.
  assert (vt : (v * t <= v * s + 2 * (v * (v * s)))%R) by nra. assert (vvs : (v * (v * s) <= v * s / 8192)%R) by nra.
  split; [split|apply rnd_nonneg; exact t0]; lra.
Qed.

Definition zeta : R := bpow radix2 (-536).
Lemma zeta_sq : (3 * eta <= zeta * zeta)%R.
Proof. unfold eta, zeta. rewrite <- bpow_plus. replace (-536 + -536) with (-1075 + 3) by reflexivity. rewrite bpow_plus. change (bpow radix2 3) with 8%R. pose proof (bpow_ge_0 radix2 (-1075)). lra. Qed.
Lemma zeta_T : (0 < zeta /\ 100 * zeta <= T /\ eta <= zeta)%R.
Proof.
  split; [apply bpow_gt_0|]. split; [|apply bpow_le; lia]. apply Rle_trans with (2 := T_low). apply Rle_trans with (bpow radix2 7 * zeta)%R; [apply Rmult_le_compat_r; [apply bpow_ge_0|change (bpow radix2 7) with 128%R; lra]|].
  unfold zeta, level. rewrite <- bpow_plus. apply bpow_le. lia.
Qed.

Lemma deviation_error : fin (sdev N w) /\ (Rabs (fr (sdev N w) - rms cs) <= 8 * nu * rms cs + 2 * zeta)%R /\ (0 <= fr (sdev N w))%R /\ (Rabs (fr (sdev N w) - sigma) <= 32 * (n * T))%R.
Proof.
  destruct variance_error as (FV & [V1 V2] & V0). destruct (fr_sqrt V FV V0) as [F E]. change (PrimFloat.sqrt V) with (sdev N w) in *. pose proof cs_bound as [R0 R1]. pose proof (u64_40 (zlen w) ltac:(lia)) as Un. pose proof u64_range as Ur.
  pose proof n_ge as Ng. assert (Uu : (u64 <= nu)%R) by nra. pose proof zeta_sq as Zs. destruct zeta_T as (Z0 & Z1 & Z2). pose proof T_pos as Tp. pose proof nT as HnT. pose proof B_pos as Bp. pose proof del_small as [D0 D1]. destruct rms_sigma as (P1 & P2 & P3).
  set (s := rms cs) in *. set (r := R_sqrt.sqrt (fr V)) in *. assert (r0 : (0 <= r)%R) by apply sqrt_pos. assert (rr : (r * r = fr V)%R) by (apply sqrt_sqrt; exact V0). rewrite <- rr in V1, V2. clearbody s r.
  assert (A1 : (r <= (1 + 6 * nu) * s + zeta)%R).
  { apply sq_le_abs; [nra|]. apply Rle_trans with (1 := V2). set (a := (1 + 6 * nu)%R). assert (1 <= a)%R by (unfold a; lra). assert (a * (s * s) <= (a * s) * (a * s))%R by (assert (0 <= a * (s * s))%R by nra; nra). assert (0 <= a * s)%R by nra. nra. }
  assert (A2 : ((1 - 6 * nu) * s <= r + zeta)%R).
  { apply sq_le_abs; [nra|]. set (a := (1 - 6 * nu)%R). assert (0 <= a <= 1)%R by (unfold a; lra). assert ((a * s) * (a * s) <= a * (s * s))%R by (assert (0 <= a * (s * s))%R by nra; nra). unfold a in *. nra. }
  assert (A3 : (Rabs (r - s) <= 6 * nu * s + zeta)%R) by (apply Rabs_le; lra).
  assert (ns : (0 <= nu * s)%R) by nra. assert (nns : (nu * (nu * s) <= nu * s / 8192)%R) by (apply mul_tiny; lra).
  assert (A4 : (Rabs (fr (sdev N w) - s) <= 8 * nu * s + 2 * zeta)%R).
  { rewrite E. pose proof (rnd_error r) as P. rewrite (Rabs_pos_eq r r0) in P. assert (u64 * r <= nu * s + 6 * (nu * (nu * s)) + zeta / 2)%R.
    { apply Rle_trans with (u64 * ((1 + 6 * nu) * s + zeta))%R; [apply Rmult_le_compat_l; lra|]. assert (u64 * s <= nu * s)%R by nra. assert (u64 * (nu * s) <= nu * (nu * s))%R by nra. assert (u64 * zeta <= zeta / 2)%R by nra. lra. }
    apply Rabs_le_inv in P. apply Rabs_le_inv in A3. assert (E2 : (eta <= zeta / 8)%R). { unfold eta, zeta. apply Rmult_le_reg_r with 8%R; [lra|]. unfold Rdiv. rewrite Rmult_assoc, Rinv_l, Rmult_1_r by lra. change 8%R with (bpow radix2 3). rewrite <- bpow_plus. apply bpow_le. lia. }
    apply Rabs_le. lra. }
  split; [exact F|]. split; [exact A4|]. split; [rewrite E; apply rnd_nonneg; exact r0|].
  assert (nu * s <= 3 * (n * T))%R by (replace (3 * (n * T))%R with (nu * (3 * B))%R by ring; apply Rmult_le_compat_l; lra).
  pose proof T_nT. apply Rabs_le_inv in A4.
  assert (PP : (Rabs (s - sigma) <= 6 * (n * T))%R) by (apply Rle_trans with del; [exact P1|]; lra). apply Rabs_le_inv in PP. apply Rabs_le. lra.
Qed.

(** the regulariser *)
Lemma eps_fr : fin (neps N) /\ (Rabs (fr (neps N) - neps RN) <= u64 * neps RN)%R.
Proof.
  split; [exact I|]. cbn [neps FN RN]. rewrite fr_SF. change (Prim2SF 0x1.5798ee2308c3ap-27) with (SpecFloat.S754_finite false 6044629098073146 (-79)).
  unfold SF2R, F2R. cbn [SpecFloat.cond_Zopp Fnum Fexp]. unfold u64. change (bpow radix2 (-53)) with (/ IZR (2 ^ 53))%R. change (bpow radix2 (-79)) with (/ IZR (2 ^ 79))%R.
  change (IZR (2 ^ 53)) with 9007199254740992%R. change (IZR (2 ^ 79)) with 604462909807314587353088%R. apply Rabs_le. lra.
Qed.

Notation eps := (neps RN).
Notation D := (sigma + eps)%R.
Notation Df := (nadd N (sdev N w) (neps N)).
Lemma eps_value : (level (-27) <= eps <= level (-26))%R.
Proof. cbn [neps RN]. unfold level. change (bpow radix2 (-27)) with (/ 134217728)%R. change (bpow radix2 (-26)) with (/ 67108864)%R. lra. Qed.

Lemma scale_error : fin Df /\ (Rabs (fr Df - D) <= 35 * (n * T) + 3 * (u64 * eps))%R /\ (rms cs / 2 + eps / 2 <= fr Df)%R.
Proof.
  destruct deviation_error as (F & E1 & P0 & E2). destruct eps_fr as [Fe Ee]. pose proof eps_value as [e0 e1]. pose proof (level_pos (-27)) as Lp. pose proof u64_range as Ur. pose proof T_nT as HT. pose proof nT as HnT. pose proof T_pos as Tp. pose proof B_pos as Bp.
  destruct rms_sigma as (_ & S1 & S0). destruct zeta_T as (Z0 & Z1 & _). pose proof cs_bound as [R0 R1]. pose proof (u64_40 (zlen w) ltac:(lia)) as Un. set (s := rms cs) in *. set (g := sigma) in *. set (e := eps) in *. set (ef := fr (neps N)) in *. set (sf := fr (sdev N w)) in *. set (k := (n * T)%R) in *. set (v := nu) in *.
  assert (u2 : (u64 <= / 8192)%R) by (pose proof (u64_40 1 ltac:(lia)); lra). clearbody s g e k v.
  assert (Zl : (4 * zeta <= e)%R). { apply Rle_trans with (2 := e0). unfold zeta, level. change 4%R with (bpow radix2 2). rewrite <- bpow_plus. apply bpow_le. lia. }
  assert (ue : (0 < u64 * e <= e / 8192)%R) by (split; [apply Rmult_lt_0_compat; lra|apply mul_tiny; lra]). apply Rabs_le_inv in Ee. apply Rabs_le_inv in E2. apply Rabs_le_inv in E1. assert (L4 : (1 <= level 400)%R) by (change 1%R with (bpow radix2 0); apply bpow_le; lia).
  assert (e2 : (e <= 1)%R) by (apply Rle_trans with (1 := e1); change 1%R with (bpow radix2 0); apply bpow_le; lia). assert (P1 : (0 <= ef)%R) by lra.
  destruct (fr_add (sdev N w) (neps N) F Fe) as [FD ED]; [apply (level_small 404); [lia|]; fold sf ef; rewrite Rabs_pos_eq by lra; change 404 with (400 + 1 + 1 + 1 + 1); rewrite !level_S; lra|].
  change (sdev N w + neps N)%float with Df in *. fold sf ef in ED. split; [exact FD|]. rewrite ED. pose proof (rnd_sum_error sf ef (format_fr _) (format_fr _)) as Q. rewrite (Rabs_pos_eq (sf + ef)) in Q by lra. apply Rabs_le_inv in Q.
  assert (U1 : (u64 * (sf + ef) <= 3 * k + 2 * (u64 * e))%R).
  { assert (u64 * (sf + ef) <= u64 * (2 * B + 32 * k + 2 * e))%R by (apply Rmult_le_compat_l; lra). assert (u64 * k <= k / 8192)%R by (apply mul_tiny; lra). lra. }
  split; [apply Rabs_le; lra|]. assert (vs : (v * s <= s / 8192)%R) by (apply mul_tiny; lra). assert (U2 : (u64 * (sf + ef) <= (sf + ef) / 8192)%R) by (apply mul_tiny; lra). lra.
Qed.

Lemma quotient_error x : In x w -> fin (c x / Df)%float /\ (Rabs (fr (c x / Df)%float) <= 2 * n)%R /\ (Rabs (fr (c x / Df)%float - (fr x - mu) / D) <= 100 * (n * n) * T / D)%R.
Proof.
  intros Hx. destruct (centre_error x Hx) as (Fc & C1 & C2 & C3). destruct scale_error as (FD & D1 & D2). pose proof eps_value as [e0 e1]. pose proof (level_pos (-27)) as Lp. pose proof u64_range as Ur. pose proof T_nT as HT. pose proof nT as HnT. pose proof T_pos as Tp. pose proof B_pos as Bp.
  destruct rms_sigma as (_ & S1 & S0). pose proof cs_bound as [R0 R1]. pose proof n_ge as Ng. pose proof eta_pos as Ep.
  assert (RC : (Rabs (fr (c x)) <= n * rms cs)%R). { replace n with (IZR (zlen cs)) by (rewrite zlen_map; reflexivity). apply abs_rms. apply in_map_iff. exists x. auto. }
  set (cf := fr (c x)) in *. set (cr := (fr x - mu)%R) in *. set (df := fr Df) in *. assert (d0 : (0 < df)%R) by lra.
  assert (Q1 : (Rabs (cf / df) <= 2 * n)%R).
  { unfold Rdiv. rewrite Rabs_mult, (Rabs_pos_eq (/ df)) by (left; apply Rinv_0_lt_compat; lra). apply Rmult_le_reg_r with df; [exact d0|]. rewrite Rmult_assoc, Rinv_l, Rmult_1_r by lra. apply Rle_trans with (1 := RC). assert (2 * (n * (rms cs / 2)) <= 2 * (n * df))%R by (apply Rmult_le_compat_l; [lra|apply Rmult_le_compat_l; lra]). lra. }
  assert (Q2 : (Rabs (cf / df) * eps <= 6 * B)%R).
  { unfold Rdiv. rewrite Rabs_mult, (Rabs_pos_eq (/ df)) by (left; apply Rinv_0_lt_compat; lra). replace (Rabs cf * / df * eps)%R with (Rabs cf * (eps * / df))%R by ring. assert (eps * / df <= 2)%R.
    { apply Rmult_le_reg_r with df; [exact d0|]. rewrite Rmult_assoc, Rinv_l, Rmult_1_r by lra. lra. }
    assert (0 <= eps * / df)%R by (apply Rmult_le_pos; [lra|left; apply Rinv_0_lt_compat; lra]). apply Rle_trans with (3 * B * 2)%R; [|lra]. apply Rmult_le_compat; try lra. apply Rabs_pos. }
  destruct (fr_div (c x) Df Fc) as [F E]; [fold df; lra|fold cf df; apply (small_Z _ (2 * zlen w)); [lia|rewrite mult_IZR; exact Q1]|]. fold cf df in E. split; [exact F|]. rewrite E. split.
  { replace (2 * n)%R with (IZR (2 * zlen w)) in * by (rewrite mult_IZR; reflexivity). apply rnd_bound; [apply format_Z; lia|exact Q1]. }
  assert (Dp : (0 < D)%R) by lra. set (q := (cf / df)%R) in *. set (k := (n * n * T)%R). assert (kT : (n * T <= k)%R) by (unfold k; rewrite Rmult_assoc; rewrite <- (Rmult_1_l (n * T)) at 1; apply Rmult_le_compat_r; lra).
  assert (Q3 : (Rabs (q - cr / D) * D <= 94 * k)%R).
  { replace (Rabs (q - cr / D) * D)%R with (Rabs ((cf - cr) + q * (D - df))%R).
    - apply Rle_trans with (1 := Rabs_triang _ _). rewrite Rabs_mult, (Rabs_minus_sym _ df). apply Rle_trans with (del + Rabs q * (35 * (n * T) + 3 * (u64 * eps)))%R; [apply Rplus_le_compat; [exact C1|apply Rmult_le_compat_l; [apply Rabs_pos|exact D1]]|].
      assert (Rabs q * (35 * (n * T)) <= 70 * k)%R by (replace (70 * k)%R with (2 * n * (35 * (n * T)))%R by (unfold k; ring); apply Rmult_le_compat_r; [lra|exact Q1]).
      assert (Rabs q * (3 * (u64 * eps)) <= 18 * T)%R by (replace (Rabs q * (3 * (u64 * eps)))%R with (3 * u64 * (Rabs q * eps))%R by ring; replace (18 * T)%R with (3 * u64 * (6 * B))%R by ring; apply Rmult_le_compat_l; lra). lra.
    - transitivity (Rabs (q - cr / D) * Rabs D)%R; [|rewrite (Rabs_pos_eq D) by lra; reflexivity]. rewrite <- Rabs_mult. f_equal. unfold q. field. split; lra. }
  assert (Q4 : (Rabs q * D <= 2 * B + 94 * k)%R).
  { replace q with (cr / D + (q - cr / D))%R by ring. apply Rle_trans with ((Rabs (cr / D) + Rabs (q - cr / D)) * D)%R; [apply Rmult_le_compat_r; [lra|apply Rabs_triang]|].
    assert (Rabs (cr / D) * D = Rabs cr)%R by (unfold Rdiv; rewrite Rabs_mult, (Rabs_pos_eq (/ D)) by (left; apply Rinv_0_lt_compat; lra); field; lra). lra. }
  assert (Q5 : (eta * D <= T)%R).
  { apply Rle_trans with (2 := T_low). apply Rle_trans with (eta * level 403)%R; [apply Rmult_le_compat_l; [lra|]|unfold eta, level; rewrite <- bpow_plus; apply bpow_le; lia].
    assert (level (-26) <= level 400)%R by (apply bpow_le; lia). change 403 with (400 + 1 + 1 + 1). rewrite !level_S. lra. }
  apply Rmult_le_reg_r with D; [exact Dp|]. replace (100 * (n * n) * T / D * D)%R with (100 * k)%R by (unfold k; field; lra).
  pose proof (rnd_error q) as Q6. apply Rle_trans with ((u64 * Rabs q + eta + Rabs (q - cr / D)) * D)%R.
  { apply Rmult_le_compat_r; [lra|]. replace (rnd q - cr / D)%R with ((rnd q - q) + (q - cr / D))%R by ring. apply Rle_trans with (1 := Rabs_triang _ _). lra. }
  assert (u64 * (Rabs q * D) <= 2 * T + k)%R.
  { apply Rle_trans with (u64 * (2 * B + 94 * k))%R; [apply Rmult_le_compat_l; lra|]. assert (94 * u64 <= 1)%R by (pose proof (u64_40 1 ltac:(lia)); lra). assert (94 * u64 * k <= 1 * k)%R by (apply Rmult_le_compat_r; lra). lra. }
  lra.
Qed.

(** the z-scores *)
Theorem zscore_error j x : nthZ (zscore N w) j = Some x -> fin x /\ (Rabs (fr x) <= 2 * n)%R /\
  exists z, nthZ (zscore RN (map fr w)) j = Some z /\ (Rabs (fr x - z) <= 100 * (n * n) * T / D)%R.
Proof.
  intros H. unfold zscore in *. rewrite nthZ_map in H. destruct (nthZ w j) as [a|] eqn:Ea; [|discriminate]. injection H as <-. destruct (quotient_error a (nthZ_In _ _ _ Ea)) as (F & R1 & R2).
  split; [exact F|]. split; [exact R1|]. eexists. split; [rewrite !nthZ_map, Ea; reflexivity|]. exact R2.
Qed.
End Zscore.

(** ** Distances of normalised shapelets *)

Lemma sum_move {A} (f g : A -> R) l e : (forall x, In x l -> (Rabs (f x - g x) <= e)%R) -> (Rabs (rsum (map f l) - rsum (map g l)) <= IZR (zlen l) * e)%R.
Proof.
  intros H. induction l as [|x t IH]; [cbn; change (zlen (@nil A)) with 0; rewrite Rminus_0_r, Rabs_R0; lra|]. cbn [map rsum]. rewrite zlen_cons, plus_IZR.
  replace (f x + rsum (map f t) - (g x + rsum (map g t)))%R with ((f x - g x) + (rsum (map f t) - rsum (map g t)))%R by ring. apply Rle_trans with (1 := Rabs_triang _ _).
  specialize (IH (fun y Hy => H y (or_intror Hy))). specialize (H x (or_introl eq_refl)). lra.
Qed.
Lemma l1_move x y v e : zlen x = zlen y -> (forall j a b, nthZ x j = Some a -> nthZ y j = Some b -> (Rabs (a - b) <= e)%R) -> (Rabs (l1 RN x v - l1 RN y v) <= IZR (zlen x) * e)%R.
Proof.
  intros HZ H. rewrite !l1_rsum, <- HZ. pose proof (zlen_nonneg x). replace (IZR (zlen x)) with (IZR (zlen (zrange 0 (zlen x)))) by (rewrite zlen_zrange; f_equal; lia).
  apply sum_move. intros j Hj. apply in_zrange in Hj. destruct (nthZ_some x j ltac:(lia)) as (a & Ea). destruct (nthZ_some y j ltac:(lia)) as (b & Eb). unfold pt. rewrite (nthd_some _ _ _ _ Ea), (nthd_some _ _ _ _ Eb).
  specialize (H j a b Ea Eb). apply Rle_trans with (2 := H). apply Rle_trans with (1 := Rabs_triang_inv2 _ _). right. f_equal. ring.
Qed.

Section Ndist.
Context (log2 log pow2 : float -> float).
Notation N := (FN log2 log pow2).
Context (B : R) (HB : (level (-400) <= B <= level 400)%R).

Lemma window_tame ph X l d i x : (forall a, In a X -> fin a /\ (Rabs (fr a) <= B)%R) -> In x (window N ph X l d i) -> fin x /\ (Rabs (fr x) <= B)%R.
Proof.
  intros H Hx. apply in_map_iff in Hx as (j & <- & _). unfold pt, nthd. destruct (nthZ X _) as [a|] eqn:E; [apply H; apply (nthZ_In _ _ _ E)|].
  change (n0 N) with 0%float. split; [exact fin_0|]. rewrite fr_0, Rabs_R0. pose proof (level_pos (-400)). lra.
Qed.
Lemma zwindow_tame ph X l d i x : 1 <= l <= 2 ^ 40 -> (forall a, In a X -> fin a /\ (Rabs (fr a) <= B)%R) -> In x (zscore N (window N ph X l d i)) -> fin x /\ (Rabs (fr x) <= 2 * IZR l)%R.
Proof.
  intros Hl HX Hx. assert (ZW : zlen (window N ph X l d i) = l) by (unfold window; rewrite zlen_map, zlen_zrange; lia).
  apply In_nthZ in Hx as (j & Hj). destruct (zscore_error log2 log pow2 B (window N ph X l d i) HB (fun a Ha => window_tame ph X l d i a HX Ha) ltac:(lia) j x Hj) as (F & R1 & _). rewrite ZW in R1. auto.
Qed.
Lemma zwindow_bounded ph X l d i x : 1 <= l <= 2 ^ 40 -> (forall a, In a X -> fin a /\ (Rabs (fr a) <= B)%R) -> In x (zscore N (window N ph X l d i)) -> bounded x.
Proof.
  intros Hl HX Hx. destruct (zwindow_tame ph X l d i x Hl HX Hx) as [F R1]. split; [exact F|]. apply Rle_trans with (1 := R1). apply Rle_trans with (bpow radix2 41); [|apply bpow_le; lia].
  change (bpow radix2 41) with (IZR (2 ^ 41)). change 2%R with (IZR 2). rewrite <- mult_IZR. apply IZR_le. lia.
Qed.

Definition window_err (l : Z) (s0 : R) : R := (100 * (IZR l * IZR l) * (u64 * B) / (s0 + neps RN))%R.

Lemma ndistances_number ph n X chs vs l d y : 1 <= l <= 2 ^ 40 -> (forall r a, In r X -> In a r -> fin a /\ (Rabs (fr a) <= B)%R) -> (forall r a, In r vs -> In a r -> fin a) ->
  In y (mdistances N ph true n X chs vs l d) -> fpos y.
Proof.
  intros Hl HX Hv Hy. apply in_map_iff in Hy as (i & <- & _). apply sumF_pos. intros z Hz. apply in_map_iff in Hz as ((ch & u) & <- & Hc). cbn [fst snd seen].
  apply in_combine_r in Hc. apply l1_pos; intros j Hj; [|apply pt_finite; intros b Hb; exact (Hv u b Hc Hb)].
  apply pt_finite. intros a Ha. apply (zwindow_tame ph (nthd [] X ch) l d i a Hl); [|exact Ha]. unfold nthd. destruct (nthZ X ch) as [r|] eqn:E; [|intros b []].
  intros b Hb. eapply HX; [eapply nthZ_In; exact E|exact Hb].
Qed.
Lemma ndistances_mdistances ph (sr v : list float) l d : 1 <= l <= 2 ^ 40 -> (forall a, In a sr -> fin a /\ (Rabs (fr a) <= B)%R) -> (forall a, In a v -> fin a) ->
  distances N ph true sr v l d = mdistances N ph true (zlen sr) [sr] [0] [v] l d.
Proof.
  intros Hl HX Hv. unfold distances, mdistances. apply map_ext_in. intros i Hi. cbn [combine map]. unfold sumF. cbn [fold_left fst snd].
  change (nthd [] [sr] 0) with sr. symmetry. apply fadd_0_l. cbn [seen]. apply l1_pos; intros j Hj; [|apply pt_finite; exact Hv]. apply pt_finite. intros a Ha. apply (zwindow_tame ph sr l d i a Hl HX Ha).
Qed.

Lemma ndistances_near ph n X chs vs l d i x s0 : (forall r a, In r X -> In a r -> fin a /\ (Rabs (fr a) <= B)%R) -> (forall r a, In r vs -> In a r -> bounded a) ->
  1 <= l <= 2 ^ 40 -> l * zlen chs <= 2 ^ 53 -> (0 <= s0)%R -> (forall ch, In ch chs -> (s0 <= sdev RN (window RN ph (nthd [] (map (map fr) X) ch) l d i))%R) ->
  nthZ (mdistances N ph true n X chs vs l d) i = Some x ->
  exists r r', nthZ (mdistances RN ph true n (map (map fr) X) chs (map (map fr) vs) l d) i = Some r /\
    near (Z.to_nat (1 + l + zlen chs)) x r' /\ (Rabs (r' - r) <= IZR (zlen chs) * (IZR l * window_err l s0))%R /\ (fr x <= bpow radix2 1014)%R.
Proof.
  intros HX Hv Hl HM Hs0 HS H. unfold mdistances in *. pose proof (nthZ_range _ _ _ H) as R. rewrite zlen_map, zlen_zrange in R. rewrite nthZ_map, nthZ_zrange in H by lia. rewrite nthZ_map, nthZ_zrange by lia. rewrite Z.add_0_l in *. cbn [option_map] in H |- *.
  assert (E : x = sumF N (map (fun cv : Z * list float => l1 N (seen N true (window N ph (nthd [] X (fst cv)) l d i)) (snd cv)) (combine chs vs))) by congruence. subst x. clear H.
  assert (ZC : zlen (combine chs vs) <= zlen chs) by (unfold zlen; rewrite combine_length; lia). pose proof (zlen_nonneg (combine chs vs)) as ZC0.
  assert (EC : combine chs (map (map fr) vs) = map (fun cv => (fst cv, map fr (snd cv))) (combine chs vs)).
  { clear. revert vs. induction chs as [|c chs IH]; intros [|v vs]; try reflexivity. cbn [map combine fst snd]. rewrite IH. reflexivity. }
  rewrite EC, map_map. cbn [fst snd seen]. eexists. exists (sumF RN (map (fun cv : Z * list float => l1 RN (map fr (zscore N (window N ph (nthd [] X (fst cv)) l d i))) (map fr (snd cv))) (combine chs vs))). split; [reflexivity|].
  assert (HIn : forall cv, In cv (combine chs vs) -> In (snd cv) vs /\ In (fst cv) chs) by (intros [c v] Hc; split; [apply (in_combine_r chs vs c v Hc)|apply (in_combine_l chs vs c v Hc)]).
  assert (BX : forall c a, In a (nthd [] X c) -> fin a /\ (Rabs (fr a) <= B)%R) by (intros c a Ha; unfold nthd in Ha; destruct (nthZ X c) as [r|] eqn:Er; [apply (HX r); [apply (nthZ_In _ _ _ Er)|exact Ha]|destruct Ha]).
  assert (ZW : forall c, zlen (window N ph (nthd [] X c) l d i) = l) by (intros c; unfold window; rewrite zlen_map, zlen_zrange; lia).
  assert (ZZ : forall c, zlen (zscore N (window N ph (nthd [] X c) l d i)) = l) by (intros c; unfold zscore; rewrite zlen_map; apply ZW).
  match goal with |- ?a /\ ?b /\ ?c => cut ((a /\ c) /\ b); [tauto|] end. split.
  - pose proof (sumF_near log2 log pow2 (Z.to_nat (1 + l)) l (map (fun cv : Z * list float => l1 N (zscore N (window N ph (nthd [] X (fst cv)) l d i)) (snd cv)) (combine chs vs))
      (map (fun cv : Z * list float => l1 RN (map fr (zscore N (window N ph (nthd [] X (fst cv)) l d i))) (map fr (snd cv))) (combine chs vs)) ltac:(lia)) as P.
    rewrite zlen_map in P. apply and_imp with (3 := P); clear P.
    { apply near_mono. lia. }
    { intros P. apply Rle_trans with (1 := P). replace (bpow radix2 1014) with (bpow radix2 53 * scale)%R by (unfold scale; rewrite <- bpow_plus; reflexivity).
      apply Rmult_le_compat_r; [left; apply scale_pos|]. change (bpow radix2 53) with (IZR (2 ^ 53)). apply IZR_le. nia. }
    { nia. }
    revert HIn. clear EC ZC ZC0. generalize (combine chs vs). intros L HIn. induction L as [|[c v] L IH]; [constructor|]. cbn [map]. constructor; [|apply IH; intros; apply HIn; right; assumption].
    cbn [fst snd]. destruct (HIn (c, v) (or_introl eq_refl)) as [Iv Ic]. cbn [fst snd] in *.
    assert (Hc1 : 1 <= zlen chs) by (destruct chs; [destruct Ic|rewrite zlen_cons; pose proof (zlen_nonneg chs); lia]).
    pose proof (l1_near log2 log pow2 (zscore N (window N ph (nthd [] X c) l d i)) v (fun a Ha => zwindow_bounded _ _ _ _ _ _ Hl (BX c) Ha) (fun a Ha => Hv v a Iv Ha)) as P. rewrite ZZ in P.
    destruct P as [P1 P2]; [nia|]. split; [|exact P2]. apply (near_mono (1 + Z.to_nat l)); [lia|exact P1].
  - rewrite !sumF_rsum.
    assert (W0 : (0 <= IZR l * window_err l s0)%R).
    { unfold window_err. pose proof eps_pos. pose proof u64_range. pose proof (level_pos (-400)). assert (0 <= IZR l)%R by (apply IZR_le; lia). apply Rmult_le_pos; [lra|]. apply Rmult_le_pos; [|left; apply Rinv_0_lt_compat; lra].
      apply Rmult_le_pos; [nra|nra]. }
    apply Rle_trans with (IZR (zlen (combine chs vs)) * (IZR l * window_err l s0))%R; [|apply Rmult_le_compat_r; [exact W0|apply IZR_le; lia]].
    apply sum_move. intros [c v] Hcv. destruct (HIn _ Hcv) as [Iv Ic]. cbn [fst snd] in *.
    assert (EX : nthd [] (map (map fr) X) c = map fr (nthd [] X c)) by (unfold nthd; rewrite nthZ_map; destruct (nthZ X c); reflexivity).
    specialize (HS c Ic). rewrite EX, (window_fr log2 log pow2) in HS |- *.
    pose proof (l1_move (map fr (zscore N (window N ph (nthd [] X c) l d i))) (zscore RN (map fr (window N ph (nthd [] X c) l d i))) (map fr v) (window_err l s0)) as P. rewrite zlen_map, ZZ in P. apply P; clear P.
    { rewrite zlen_zscore, zlen_map, ZW. reflexivity. }
    intros j a b Ha Hb. rewrite nthZ_map in Ha. destruct (nthZ (zscore N _) j) as [q|] eqn:Eq in Ha; [|discriminate]. assert (a = fr q) by (cbn in Ha; congruence). subst a.
    destruct (zscore_error log2 log pow2 B _ HB (fun a Ha => window_tame ph (nthd [] X c) l d i a (BX c) Ha) ltac:(rewrite ZW; lia) j q Eq) as (_ & _ & z & Ez & Hz). rewrite ZW in Hz.
    assert (z = b) by congruence. subst z. apply Rle_trans with (1 := Hz). unfold window_err. pose proof eps_pos. unfold Rdiv. apply Rmult_le_compat_l.
    + pose proof u64_range. pose proof (level_pos (-400)). assert (0 <= IZR l)%R by (apply IZR_le; lia). apply Rmult_le_pos; nra.
    + apply Rinv_le_contravar; [lra|]. lra.
Qed.
End Ndist.
