(** Rounding errors of the distances in binary64: every subtraction and addition is exact up to a factor within 2^-53 of 1,
    so a sum of non-negative terms is, after [n] operations, within the factors (1 - 2^-53)^n and (1 + 2^-53)^n. *)
From Flocq Require Import Core IEEE754.BinarySingleNaN IEEE754.PrimFloat Relative Plus_error.
From Coq Require Import ZArith List Bool Reals Lra Lia Floats.
From Verif Require Import Prelude Num Kernel Spec KernelProofs RealBase Gen FloatLaws FloatReal.
Import ListNotations.
Open Scope Z_scope.

Definition u64 : R := bpow radix2 (-53).

(** [x] approximates the non-negative real number [r] after [n] roundings. *)
Definition near (n : nat) (x : float) (r : R) : Prop :=
  fin x /\ (0 <= r)%R /\ ((1 - u64) ^ n * r <= fr x <= (1 + u64) ^ n * r)%R.

Lemma u64_range : (0 < u64 < 1 / 2)%R.
Proof. unfold u64. change (bpow radix2 (-53)) with (/ IZR (2 ^ 53))%R. change (IZR (2 ^ 53)) with 9007199254740992%R. lra. Qed.

Lemma pow_low_mono n m : (n <= m)%nat -> (0 <= (1 - u64) ^ m <= (1 - u64) ^ n)%R.
Proof.
  pose proof u64_range. intros H1. split; [apply pow_le; lra|]. induction H1 as [|m _ IH]; [lra|]. cbn [pow].
  assert (0 <= (1 - u64) ^ m)%R by (apply pow_le; lra). nra.
Qed.
Lemma pow_up_mono n m : (n <= m)%nat -> (1 <= (1 + u64) ^ n <= (1 + u64) ^ m)%R.
Proof. pose proof u64_range. intros H1. split; [apply pow_R1_Rle; lra|]. apply Rle_pow; [lra|exact H1]. Qed.
Lemma pow_low_pos n : (0 < (1 - u64) ^ n)%R.
Proof. pose proof u64_range. apply pow_lt. lra. Qed.

Lemma near_mono n m x r : (n <= m)%nat -> near n x r -> near m x r.
Proof.
  intros H (A & C & D). pose proof (pow_low_mono n m H). pose proof (pow_up_mono n m H). split; [exact A|]. split; [exact C|]. nra.
Qed.

Lemma near_nonneg n x r : near n x r -> (0 <= fr x)%R.
Proof. intros (_ & A & B & _). pose proof (pow_low_pos n). nra. Qed.

Lemma rnd_plus x y : generic_format radix2 fexp64 x -> generic_format radix2 fexp64 y -> exists eps, (Rabs eps <= u64)%R /\ rnd (x + y) = ((x + y) * (1 + eps))%R.
Proof.
  intros Hx Hy. destruct (FLT_plus_error_N_ex radix2 (-1074) 53 (fun z => negb (Z.even z)) x y Hx Hy) as (eps & H1 & H2).
  exists eps. split; [|exact H2]. apply Rle_trans with (1 := H1). change (u_ro radix2 53) with (/ 2 * bpow radix2 (-53 + 1))%R. rewrite bpow_plus. fold u64. change (bpow radix2 1) with 2%R. pose proof u64_range.
  replace (/ 2 * (u64 * 2))%R with u64 by field. apply Rmult_le_reg_r with (1 + u64)%R; [lra|]. unfold Rdiv. rewrite Rmult_assoc, Rinv_l by lra. nra.
Qed.

(** ** One subtraction, one addition *)

Definition scale : R := bpow radix2 961.
Lemma scale_pos : (0 < scale)%R. Proof. apply bpow_gt_0. Qed.

Lemma small_mult x k : 0 <= k <= 2 ^ 53 -> (Rabs x <= IZR k * scale)%R -> small x.
Proof.
  intros Hk H. exists (IZR k * scale)%R. split; [apply format_dyadic; lia|]. split; [exact H|]. apply Rle_lt_trans with (bpow radix2 53 * scale)%R.
  - apply Rmult_le_compat_r; [left; apply scale_pos|]. change (bpow radix2 53) with (IZR (2 ^ 53)). apply IZR_le. lia.
  - unfold scale. rewrite <- bpow_plus. apply bpow_lt. lia.
Qed.

Lemma fr_abs x : fin x -> fin (PrimFloat.abs x) /\ fr (PrimFloat.abs x) = Rabs (fr x).
Proof.
  rewrite !fin_B. unfold fr. intros H. rewrite abs_equiv. split; [rewrite is_finite_Babs; exact H|apply B2R_Babs].
Qed.

Definition bounded (x : float) : Prop := fin x /\ (Rabs (fr x) <= bpow radix2 960)%R.

Lemma term_near x y : bounded x -> bounded y ->
  near 1 (PrimFloat.abs (x - y)) (Rabs (fr x - fr y)) /\ (fr (PrimFloat.abs (x - y)) <= IZR 1 * scale)%R.
Proof.
  intros [Fx Bx] [Fy By]. assert (HB : (Rabs (fr x - fr y) <= IZR 1 * scale)%R).
  { rewrite Rmult_1_l. unfold scale. replace 961%Z with (960 + 1)%Z by reflexivity. rewrite bpow_plus. change (bpow radix2 1) with 2%R.
    apply Rle_trans with (Rabs (fr x) + Rabs (fr y))%R; [|lra]. unfold Rminus. rewrite <- (Rabs_Ropp (fr y)). apply Rabs_triang. }
  destruct (fr_sub x y Fx Fy) as [F1 E1]; [apply (small_mult _ 1); [lia|exact HB]|]. destruct (fr_abs _ F1) as [F2 E2].
  rewrite E2, E1. unfold Rminus in *. destruct (rnd_plus (fr x) (- fr y)) as (eps & He & Er); [apply format_fr|apply generic_format_opp, format_fr|].
  split.
  - split; [exact F2|]. split; [apply Rabs_pos|]. rewrite E2, E1. unfold Rminus. rewrite Er, Rabs_mult. pose proof u64_range. apply Rabs_le_inv in He.
    rewrite (Rabs_pos_eq (1 + eps)) by lra. pose proof (Rabs_pos (fr x + - fr y)). rewrite !pow_1. nra.
  - assert (G : generic_format radix2 fexp64 (IZR 1 * scale)) by (apply format_dyadic; lia). apply Rabs_le. apply Rabs_le_inv in HB. split; [|apply rnd_le_fmt; [exact G|lra]].
    apply rnd_ge_fmt; [apply generic_format_opp; exact G|lra].
Qed.

Lemma add_near n s r t q k : 0 <= k <= 2 ^ 53 -> near n s r -> near n t q -> (fr s + fr t <= IZR k * scale)%R ->
  near (S n) (s + t)%float (r + q)%R /\ (fr (s + t)%float <= IZR k * scale)%R.
Proof.
  intros Hk Hs Ht HB. pose proof (near_nonneg _ _ _ Hs). pose proof (near_nonneg _ _ _ Ht). destruct Hs as (Fs & Rs & As & Bs). destruct Ht as (Ft & Rt & At & Bt).
  destruct (fr_add s t Fs Ft) as [F E]; [apply (small_mult _ k); [exact Hk|rewrite Rabs_pos_eq; lra]|]. rewrite E. split.
  - split; [exact F|]. split; [lra|]. rewrite E. destruct (rnd_plus (fr s) (fr t)) as (eps & He & ->); [apply format_fr|apply format_fr|]. apply Rabs_le_inv in He. pose proof u64_range. cbn [pow].
    assert (0 <= (1 - u64) ^ n)%R by (left; apply pow_low_pos). assert (1 <= (1 + u64) ^ n)%R by (apply pow_R1_Rle; lra).
    split.
    + apply Rle_trans with ((fr s + fr t) * (1 - u64))%R; [|apply Rmult_le_compat_l; lra]. apply Rle_trans with (((1 - u64) ^ n * (r + q)) * (1 - u64))%R; [lra|]. apply Rmult_le_compat_r; lra.
    + apply Rle_trans with ((fr s + fr t) * (1 + u64))%R; [apply Rmult_le_compat_l; lra|]. apply Rle_trans with (((1 + u64) ^ n * (r + q)) * (1 + u64))%R; [|lra]. apply Rmult_le_compat_r; lra.
  - apply rnd_le_fmt; [apply format_dyadic; lia|exact HB].
Qed.

(** ** Sums *)

Lemma sum_near_from n b ts rs : 0 <= b -> Forall2 (fun t r => near n t r /\ (fr t <= IZR b * scale)%R) ts rs -> forall k s r, 0 <= k -> b * (k + zlen ts) <= 2 ^ 53 ->
  near (n + Z.to_nat k) s r -> (fr s <= IZR (b * k) * scale)%R ->
  near (n + Z.to_nat (k + zlen ts)) (fold_left (fun a c => (a + c)%float) ts s) (fold_left Rplus rs r) /\
  (fr (fold_left (fun a c => (a + c)%float) ts s) <= IZR (b * (k + zlen ts)) * scale)%R.
Proof.
  intros Hb H. induction H as [|t q ts rs [Ht Bt] _ IH]; intros k s r Hk HM Hs Bs.
  - change (zlen (@nil float)) with 0. rewrite Z.add_0_r. cbn [fold_left]. auto.
  - rewrite zlen_cons in *. pose proof (zlen_nonneg ts). cbn [fold_left]. replace (k + (zlen ts + 1)) with ((k + 1) + zlen ts) in * by lia.
    destruct (add_near (n + Z.to_nat k) s r t q (b * (k + 1))) as [A C].
    + nia.
    + exact Hs.
    + apply (near_mono n); [lia|exact Ht].
    + rewrite mult_IZR, plus_IZR. rewrite mult_IZR in Bs. pose proof scale_pos. lra.
    + apply IH; [lia|exact HM| |exact C]. replace (n + Z.to_nat (k + 1))%nat with (S (n + Z.to_nat k)) by lia. exact A.
Qed.

Section Dist.
Context (log2 log pow2 : float -> float).
Notation N := (FN log2 log pow2).

Lemma sumF_near n b ts rs : 0 <= b -> b * zlen ts <= 2 ^ 53 -> Forall2 (fun t r => near n t r /\ (fr t <= IZR b * scale)%R) ts rs ->
  near (n + Z.to_nat (zlen ts)) (sumF N ts) (sumF RN rs) /\ (fr (sumF N ts) <= IZR (b * zlen ts) * scale)%R.
Proof.
  intros Hb HM H. apply (sum_near_from n b ts rs Hb H 0 0%float 0%R).
  - lia.
  - exact HM.
  - split; [exact fin_0|]. split; [lra|]. rewrite fr_0. lra.
  - rewrite fr_0, Z.mul_0_r, Rmult_0_l. lra.
Qed.

Lemma pt_fr X i : pt RN (map fr X) i = fr (pt N X i).
Proof.
  unfold pt, nthd. rewrite nthZ_map. destruct (nthZ X i) as [x|]; [reflexivity|]. cbn [option_map n0 RN FN]. symmetry. exact fr_0.
Qed.
Lemma pt_bounded X i : (forall x, In x X -> bounded x) -> bounded (pt N X i).
Proof.
  intros H. unfold pt, nthd. destruct (nthZ X i) as [x|] eqn:E; [apply H; apply (nthZ_In _ _ _ E)|]. split; [exact fin_0|]. change (n0 N) with 0%float. rewrite fr_0, Rabs_R0. apply bpow_ge_0.
Qed.
Lemma window_fr ph X l d i : window RN ph (map fr X) l d i = map fr (window N ph X l d i).
Proof. unfold window. rewrite map_map. apply map_ext. intros j. rewrite zlen_map. apply pt_fr. Qed.
Lemma window_bounded ph X l d i x : (forall x, In x X -> bounded x) -> In x (window N ph X l d i) -> bounded x.
Proof. intros H Hx. apply in_map_iff in Hx as (j & <- & _). apply pt_bounded. exact H. Qed.

Lemma l1_near x y : (forall a, In a x -> bounded a) -> (forall a, In a y -> bounded a) -> zlen x <= 2 ^ 53 ->
  near (1 + Z.to_nat (zlen x)) (l1 N x y) (l1 RN (map fr x) (map fr y)) /\ (fr (l1 N x y) <= IZR (zlen x) * scale)%R.
Proof.
  intros Hx Hy HM. unfold l1. rewrite zlen_map. pose proof (zlen_nonneg x).
  assert (Z1 : zlen (map (fun j => nabs N (nsub N (pt N x j) (pt N y j))) (zrange 0 (zlen x))) = zlen x) by (rewrite zlen_map, zlen_zrange; lia).
  pose proof (sumF_near 1 1 (map (fun j => nabs N (nsub N (pt N x j) (pt N y j))) (zrange 0 (zlen x))) (map (fun j => nabs RN (nsub RN (pt RN (map fr x) j) (pt RN (map fr y) j))) (zrange 0 (zlen x)))) as H1.
  rewrite Z1, Z.mul_1_l in H1. apply H1; [lia|exact HM|]. generalize (zrange 0 (zlen x)). intros js. induction js as [|j js IH]; [constructor|]. cbn [map]. constructor; [|exact IH].
  rewrite !pt_fr. apply term_near; apply pt_bounded; assumption.
Qed.

Lemma and_imp (A B C D E F : Prop) : (A -> C) -> (B -> D) -> (E -> F -> A /\ B) -> E -> F -> C /\ D.
Proof. tauto. Qed.

(** the distances between a shapelet and the windows of a series *)
Lemma mdistances_near ph n X chs vs l d i x : (forall r a, In r X -> In a r -> bounded a) -> (forall r a, In r vs -> In a r -> bounded a) ->
  0 <= l -> l * zlen chs <= 2 ^ 53 -> nthZ (mdistances N ph false n X chs vs l d) i = Some x ->
  exists r, nthZ (mdistances RN ph false n (map (map fr) X) chs (map (map fr) vs) l d) i = Some r /\
    near (Z.to_nat (1 + l + zlen chs)) x r /\ (fr x <= bpow radix2 1014)%R.
Proof.
  intros HX Hv Hl HM H. unfold mdistances in *. pose proof (nthZ_range _ _ _ H) as R. rewrite zlen_map, zlen_zrange in R. rewrite nthZ_map, nthZ_zrange in H by lia. rewrite nthZ_map, nthZ_zrange by lia. cbn [option_map] in H |- *.
  eexists. split; [reflexivity|]. assert (E : x = sumF N (map (fun cv : Z * list float => l1 N (seen N false (window N ph (nthd [] X (fst cv)) l d (0 + i))) (snd cv)) (combine chs vs))) by congruence. subst x. clear H.
  assert (ZC : zlen (combine chs vs) <= zlen chs) by (unfold zlen; rewrite combine_length; lia). pose proof (zlen_nonneg (combine chs vs)) as ZC0.
  assert (EC : combine chs (map (map fr) vs) = map (fun cv => (fst cv, map fr (snd cv))) (combine chs vs)).
  { clear. revert vs. induction chs as [|c chs IH]; intros [|v vs]; try reflexivity. cbn [map combine fst snd]. rewrite IH. reflexivity. }
  rewrite EC, map_map. cbn [fst snd].
  pose proof (sumF_near (Z.to_nat (1 + l)) l (map (fun cv : Z * list float => l1 N (seen N false (window N ph (nthd [] X (fst cv)) l d (0 + i))) (snd cv)) (combine chs vs))
    (map (fun cv : Z * list float => l1 RN (seen RN false (window RN ph (nthd [] (map (map fr) X) (fst cv)) l d (0 + i))) (map fr (snd cv))) (combine chs vs)) Hl) as Q.
  rewrite zlen_map in Q. apply and_imp with (3 := Q); clear Q EC.
  { apply near_mono. lia. }
  { intros Q. apply Rle_trans with (1 := Q). replace (bpow radix2 1014) with (bpow radix2 53 * scale)%R by (unfold scale; rewrite <- bpow_plus; reflexivity).
    apply Rmult_le_compat_r; [left; apply scale_pos|]. change (bpow radix2 53) with (IZR (2 ^ 53)). apply IZR_le. nia. }
  { nia. }
  assert (HIn : forall cv, In cv (combine chs vs) -> In (snd cv) vs /\ In (fst cv) chs) by (intros [c v] Hc; split; [apply (in_combine_r chs vs c v Hc)|apply (in_combine_l chs vs c v Hc)]).
  revert HIn. generalize (combine chs vs). intros L HIn. induction L as [|[c v] L IH]; [constructor|]. cbn [map]. constructor; [|apply IH; intros; apply HIn; right; assumption].
  cbn [fst snd seen]. destruct (HIn (c, v) (or_introl eq_refl)) as [Iv Ic]. cbn [fst snd] in *.
  assert (Hc1 : 1 <= zlen chs) by (destruct chs; [destruct Ic|rewrite zlen_cons; pose proof (zlen_nonneg chs); lia]).
  assert (EX : nthd [] (map (map fr) X) c = map fr (nthd [] X c)) by (unfold nthd; rewrite nthZ_map; destruct (nthZ X c); reflexivity).
  rewrite EX, window_fr. assert (ZW : zlen (window N ph (nthd [] X c) l d (0 + i)) = l) by (unfold window; rewrite zlen_map, zlen_zrange; lia).
  assert (BX : forall a, In a (nthd [] X c) -> bounded a) by (intros a Ha; unfold nthd in Ha; destruct (nthZ X c) as [r|] eqn:Er; [apply (HX r); [apply (nthZ_In _ _ _ Er)|exact Ha]|destruct Ha]).
  pose proof (l1_near (window N ph (nthd [] X c) l d (0 + i)) v (fun a Ha => window_bounded _ _ _ _ _ _ BX Ha) (fun a Ha => Hv v a Iv Ha)) as Q. rewrite ZW in Q.
  destruct Q as [Q1 Q2]; [nia|]. split; [|exact Q2]. apply (near_mono (1 + Z.to_nat l)); [lia|exact Q1].
Qed.

End Dist.

(** ** Integer data: nothing is rounded *)

(** [x] is an integer between -b and b *)
Definition integer (b : Z) (x : float) : Prop := exists z, fin x /\ fr x = IZR z /\ Z.abs z <= b.

Lemma sum_exact_from b ts rs : 0 <= b -> Forall2 (fun t r => fin t /\ fr t = r /\ exists z, r = IZR z /\ 0 <= z <= b) ts rs -> forall k s r, 0 <= k -> b * (k + zlen ts) <= 2 ^ 53 ->
  fin s -> fr s = r -> (exists z, r = IZR z /\ 0 <= z <= b * k) ->
  fin (fold_left (fun a c => (a + c)%float) ts s) /\ fr (fold_left (fun a c => (a + c)%float) ts s) = fold_left Rplus rs r /\
  exists z, fold_left Rplus rs r = IZR z /\ 0 <= z <= b * (k + zlen ts).
Proof.
  intros Hb H. induction H as [|t q ts rs (Ft & Et & zt & Hzt & Bzt) _ IH]; intros k s r Hk HM Fs Es (z & Hz & Bz).
  - change (zlen (@nil float)) with 0. rewrite Z.add_0_r. cbn [fold_left]. split; [exact Fs|]. split; [exact Es|]. exists z. auto.
  - rewrite zlen_cons in *. pose proof (zlen_nonneg ts). cbn [fold_left]. replace (k + (zlen ts + 1)) with ((k + 1) + zlen ts) in * by lia.
    assert (S1 : (fr s + fr t)%R = IZR (z + zt)) by (rewrite Es, Et, Hz, Hzt, plus_IZR; reflexivity).
    assert (B53 : z + zt <= 2 ^ 53) by nia.
    destruct (fr_add s t Fs Ft) as [F E]; [apply (small_Z _ (z + zt)); [exact B53|rewrite S1, <- abs_IZR, Z.abs_eq by lia; lra]|].
    apply IH; [lia|exact HM|exact F| |].
    + rewrite E, S1, rnd_Z by lia. rewrite plus_IZR, <- Hz, <- Hzt. reflexivity.
    + exists (z + zt). rewrite plus_IZR, <- Hz, <- Hzt. split; [reflexivity|nia].
Qed.

Lemma abs_sub_exact b x y : 2 * b <= 2 ^ 53 -> integer b x -> integer b y -> fin (PrimFloat.abs (x - y)) /\ fr (PrimFloat.abs (x - y)) = Rabs (fr x - fr y) /\
  exists z, Rabs (fr x - fr y) = IZR z /\ 0 <= z <= 2 * b.
Proof.
  intros Hb (zx & Fx & Ex & Bx) (zy & Fy & Ey & By). assert (S1 : (fr x - fr y)%R = IZR (zx - zy)) by (rewrite Ex, Ey, minus_IZR; reflexivity).
  destruct (fr_sub x y Fx Fy) as [F E]; [apply (small_Z _ (Z.abs (zx - zy))); [lia|rewrite S1, abs_IZR; lra]|]. destruct (fr_abs _ F) as [F2 E2].
  rewrite S1, rnd_Z in E by lia. split; [exact F2|]. split; [rewrite E2, E, S1; reflexivity|]. exists (Z.abs (zx - zy)). split; [rewrite S1, abs_IZR; reflexivity|lia].
Qed.

Section Exact.
Context (log2 log pow2 : float -> float).
Notation N := (FN log2 log pow2).

Lemma sumF_exact b ts rs : 0 <= b -> b * zlen ts <= 2 ^ 53 -> Forall2 (fun t r => fin t /\ fr t = r /\ exists z, r = IZR z /\ 0 <= z <= b) ts rs ->
  fin (sumF N ts) /\ fr (sumF N ts) = sumF RN rs /\ exists z, sumF RN rs = IZR z /\ 0 <= z <= b * zlen ts.
Proof.
  intros Hb HM H. apply (sum_exact_from b ts rs Hb H 0 0%float 0%R); [lia|exact HM|exact fin_0|exact fr_0|]. exists 0. split; [reflexivity|lia].
Qed.

Lemma pt_integer b X i : 0 <= b -> (forall x, In x X -> integer b x) -> integer b (pt N X i).
Proof.
  intros Hb H. unfold pt, nthd. destruct (nthZ X i) as [x|] eqn:E; [apply H; apply (nthZ_In _ _ _ E)|]. exists 0. split; [exact fin_0|]. split; [exact fr_0|]. lia.
Qed.
Lemma window_integer b ph X l d i x : 0 <= b -> (forall x, In x X -> integer b x) -> In x (window N ph X l d i) -> integer b x.
Proof. intros Hb H Hx. apply in_map_iff in Hx as (j & <- & _). apply pt_integer; assumption. Qed.

Lemma l1_exact b x y : 0 <= b -> (forall a, In a x -> integer b a) -> (forall a, In a y -> integer b a) -> 2 * b <= 2 ^ 53 -> 2 * b * zlen x <= 2 ^ 53 ->
  fin (l1 N x y) /\ fr (l1 N x y) = l1 RN (map fr x) (map fr y) /\ exists z, l1 RN (map fr x) (map fr y) = IZR z /\ 0 <= z <= 2 * b * zlen x.
Proof.
  intros Hb Hx Hy H2 HM. unfold l1. rewrite zlen_map. pose proof (zlen_nonneg x).
  assert (Z1 : zlen (map (fun j => nabs N (nsub N (pt N x j) (pt N y j))) (zrange 0 (zlen x))) = zlen x) by (rewrite zlen_map, zlen_zrange; lia).
  pose proof (sumF_exact (2 * b) (map (fun j => nabs N (nsub N (pt N x j) (pt N y j))) (zrange 0 (zlen x))) (map (fun j => nabs RN (nsub RN (pt RN (map fr x) j) (pt RN (map fr y) j))) (zrange 0 (zlen x)))) as H1.
  rewrite Z1 in H1. apply H1; [lia|exact HM|]. generalize (zrange 0 (zlen x)). intros js. induction js as [|j js IH]; [constructor|]. cbn [map]. constructor; [|exact IH].
  rewrite !(pt_fr log2 log pow2). apply abs_sub_exact; [exact H2| |]; apply pt_integer; assumption.
Qed.

Lemma mdistances_exact b ph n X chs vs l d : 0 <= b -> (forall r a, In r X -> In a r -> integer b a) -> (forall r a, In r vs -> In a r -> integer b a) ->
  1 <= l -> 2 * b * l * zlen chs <= 2 ^ 53 ->
  map fr (mdistances N ph false n X chs vs l d) = mdistances RN ph false n (map (map fr) X) chs (map (map fr) vs) l d /\
  forall x, In x (mdistances N ph false n X chs vs l d) -> fin x.
Proof.
  intros Hb HX Hv Hl HM. unfold mdistances. rewrite map_map.
  assert (EC : combine chs (map (map fr) vs) = map (fun cv => (fst cv, map fr (snd cv))) (combine chs vs)).
  { clear. revert vs. induction chs as [|c chs IH]; intros [|v vs]; try reflexivity. cbn [map combine fst snd]. rewrite IH. reflexivity. }
  rewrite EC. clear EC.
  assert (ZC : zlen (combine chs vs) <= zlen chs) by (unfold zlen; rewrite combine_length; lia). pose proof (zlen_nonneg (combine chs vs)) as ZC0.
  assert (HIn : forall cv, In cv (combine chs vs) -> In (snd cv) vs /\ In (fst cv) chs) by (intros [c v] Hc; split; [apply (in_combine_r chs vs c v Hc)|apply (in_combine_l chs vs c v Hc)]).
  assert (Q : forall i, fin (sumF N (map (fun cv : Z * list float => l1 N (seen N false (window N ph (nthd [] X (fst cv)) l d i)) (snd cv)) (combine chs vs))) /\
     fr (sumF N (map (fun cv : Z * list float => l1 N (seen N false (window N ph (nthd [] X (fst cv)) l d i)) (snd cv)) (combine chs vs))) =
     sumF RN (map (fun cv : Z * list R => l1 RN (seen RN false (window RN ph (nthd [] (map (map fr) X) (fst cv)) l d i)) (snd cv)) (map (fun cv => (fst cv, map fr (snd cv))) (combine chs vs)))).
  { intros i. rewrite map_map. cbn [fst snd]. assert (P0 : 0 <= 2 * b * l) by nia.
    assert (P1 : 2 * b * l * zlen (combine chs vs) <= 2 ^ 53) by (apply Z.le_trans with (2 := HM); apply Z.mul_le_mono_nonneg_l; lia).
    pose proof (sumF_exact (2 * b * l) (map (fun cv : Z * list float => l1 N (seen N false (window N ph (nthd [] X (fst cv)) l d i)) (snd cv)) (combine chs vs))
      (map (fun cv : Z * list float => l1 RN (seen RN false (window RN ph (nthd [] (map (map fr) X) (fst cv)) l d i)) (map fr (snd cv))) (combine chs vs))) as Q.
    rewrite zlen_map in Q. destruct Q as (Q1 & Q2 & _); [exact P0|exact P1| |split; [exact Q1|exact Q2]].
    revert HIn. clear ZC ZC0 P1. generalize (combine chs vs). intros L HIn. induction L as [|[c v] L IH]; [constructor|]. cbn [map]. constructor; [|apply IH; intros; apply HIn; right; assumption].
    cbn [fst snd seen]. destruct (HIn (c, v) (or_introl eq_refl)) as [Iv Ic]. cbn [fst snd] in *.
    assert (Hc1 : 1 <= zlen chs) by (destruct chs; [destruct Ic|rewrite zlen_cons; pose proof (zlen_nonneg chs); lia]).
    assert (EX : nthd [] (map (map fr) X) c = map fr (nthd [] X c)) by (unfold nthd; rewrite nthZ_map; destruct (nthZ X c); reflexivity).
    rewrite EX, (window_fr log2 log pow2). assert (ZW : zlen (window N ph (nthd [] X c) l d i) = l) by (unfold window; rewrite zlen_map, zlen_zrange; lia).
    assert (BX : forall a, In a (nthd [] X c) -> integer b a) by (intros a Ha; unfold nthd in Ha; destruct (nthZ X c) as [r|] eqn:Er; [apply (HX r); [apply (nthZ_In _ _ _ Er)|exact Ha]|destruct Ha]).
    pose proof (l1_exact b (window N ph (nthd [] X c) l d i) v Hb (fun a Ha => window_integer _ _ _ _ _ _ _ Hb BX Ha) (fun a Ha => Hv v a Iv Ha)) as Q. rewrite ZW in Q.
    assert (2 * b * l <= 2 ^ 53) by (apply Z.le_trans with (2 := HM); rewrite <- (Z.mul_1_r (2 * b * l)) at 1; apply Z.mul_le_mono_nonneg_l; lia). apply Q; [nia|assumption]. }
  split.
  - apply map_ext. intros i. apply (proj2 (Q i)).
  - intros x Hx. apply in_map_iff in Hx as (i & <- & _). apply Q.
Qed.
End Exact.

(** ** Percentiles and thresholds *)

Section Threshold.
Context (log2 log pow2 : float -> float).
Notation N := (FN log2 log pow2).

Lemma fsort_in l x : In x (fsort N l) -> In x l.
Proof.
  assert (HI : forall z l', In x (finsert N z l') -> x = z \/ In x l').
  { intros z l'. induction l' as [|w t IH]; cbn [finsert]; [intros [<-|[]]; auto|]. destruct (nleb N z w); cbn [In]; intros [<-|H]; auto. destruct (IH H); auto. }
  induction l as [|z t IH]; [exact (fun H => H)|]. unfold fsort in *. cbn [fold_right]. intros H. apply HI in H as [->|H]; [left; reflexivity|right; auto].
Qed.

Lemma rnd_bound x g : generic_format radix2 fexp64 g -> (Rabs x <= g)%R -> (Rabs (rnd x) <= g)%R.
Proof.
  intros G H. apply Rabs_le_inv in H. apply Rabs_le. split; [apply rnd_ge_fmt; [apply generic_format_opp; exact G|lra]|apply rnd_le_fmt; [exact G|lra]].
Qed.

Definition level (k : Z) : R := (bpow radix2 k)%R.
Lemma level_format k : -1074 <= k -> generic_format radix2 fexp64 (level k).
Proof. intros H. replace (level k) with (IZR 1 * bpow radix2 k)%R by (unfold level; lra). apply format_dyadic; lia. Qed.
Lemma level_small k x : -1074 <= k < 1024 -> (Rabs x <= level k)%R -> small x.
Proof. intros Hk H. exists (level k). split; [apply level_format; lia|]. split; [exact H|]. apply bpow_lt. lia. Qed.
Lemma level_pos k : (0 < level k)%R. Proof. apply bpow_gt_0. Qed.
Lemma level_S k : level (k + 1) = (2 * level k)%R.
Proof. unfold level. rewrite bpow_plus. change (bpow radix2 1) with 2%R. lra. Qed.

Lemma percentile1_bounded a q p k : 0 < zlen a <= 2 ^ 40 -> PrimFloat.leb 0 q = true -> PrimFloat.leb q 100 = true -> 0 <= k < 1023 ->
  (forall x, In x a -> fin x /\ (Rabs (fr x) <= level k)%R) -> percentile1 N a q = Ok p -> fin p /\ (Rabs (fr p) <= level (k + 1))%R.
Proof.
  intros Ha H0 H1 Hk HA. pose proof (level_pos k) as LP. pose proof (level_S k) as LS. unfold percentile1.
  assert (EL : forall l i v, (forall x, In x l -> In x a) -> get l i = Ok v -> fin v /\ (Rabs (fr v) <= level k)%R).
  { intros l i v Hl Hg. unfold get in Hg. destruct (nthZ l _) as [w|] eqn:E in Hg; [|discriminate]. assert (w = v) by congruence. subst w. apply HA. apply Hl. apply nthZ_In in E. exact E. }
  destruct (Z.eqb_spec (zlen a) 1) as [E1|E1]; [intros H; destruct (EL a 0 p (fun x Hx => Hx) H); split; [assumption|lra]|].
  cbn [neqb nofZ n0 n1 nadd nmul ndiv nsub nfloor FN]. change (float_ofZ 100) with 100%float.
  destruct (PrimFloat.eqb q 100) eqn:E2; [intros H; destruct (EL _ _ p (fsort_in a) H); split; [assumption|lra]|].
  destruct (PrimFloat.eqb q 0) eqn:E3; [intros H; destruct (EL _ _ p (fsort_in a) H); split; [assumption|lra]|].
  assert (F100 : fin 100%float) by exact I. assert (Fq : fin q) by (apply (fin_between 0 q 100); [exact H0|exact H1|exact fin_0|exact F100]).
  apply fr_leb in H0; [|exact fin_0|exact Fq]. apply fr_leb in H1; [|exact Fq|exact F100]. rewrite fr_0 in H0.
  destruct (fr_ofZ 100 ltac:(lia)) as [_ Eh]. change (float_ofZ 100) with 100%float in *. rewrite Eh in H1.
  set (n := zlen a) in *. destruct (fr_ofZ (n - 1) ltac:(lia)) as [Fn En].
  assert (Hn : (1 <= IZR (n - 1))%R) by (apply IZR_le; lia).
  destruct (fr_div q 100 Fq) as [Fx Ex]; [rewrite Eh; lra|apply (small_Z _ 1); [lia|rewrite Eh, Rabs_pos_eq; lra]|]. rewrite Eh in Ex.
  assert (Hx : (0 <= fr (q / 100)%float <= 1)%R) by (rewrite Ex; split; [apply rnd_nonneg; lra|apply (rnd_le_Z _ 1); [lia|lra]]).
  set (x := (q / 100)%float) in *.
  destruct (fr_mul (float_ofZ (n - 1)) x Fn Fx) as [Fy Ey]; [apply (small_Z _ (n - 1)); [lia|rewrite En, Rabs_pos_eq; nra]|]. rewrite En in Ey.
  set (y := (float_ofZ (n - 1) * x)%float) in *.
  assert (Hy : (0 <= fr y <= IZR (n - 1))%R) by (rewrite Ey; split; [apply rnd_nonneg; nra|apply rnd_le_Z; [lia|nra]]).
  destruct (fr_add 1 y fin_1 Fy) as [Fr Er]; [apply (small_Z _ n); [lia|rewrite fr_1, Rabs_pos_eq by lra; rewrite minus_IZR in *; lra]|]. rewrite fr_1 in Er.
  set (r := (1 + y)%float) in *.
  assert (Hr : (1 <= fr r <= IZR n)%R) by (rewrite Er; split; [apply rnd_ge_Z; [lia|lra]|apply rnd_le_Z; [lia|rewrite minus_IZR in *; lra]]).
  rewrite (fr_floor r Fr). set (f := Zfloor (fr r)). assert (Hf1 : (IZR f <= fr r < IZR f + 1)%R) by (split; [apply Zfloor_lb|apply Zfloor_ub]).
  assert (Hf : 0 <= f <= n) by (split; [apply le_IZR; apply IZR_le; apply Zfloor_lub; lra|apply le_IZR; lra]).
  destruct (fr_ofZ f ltac:(lia)) as [Ff Ef].
  destruct (fr_sub r (float_ofZ f) Fr Ff) as [Fm Em]; [apply (small_Z _ 1); [lia|rewrite Ef, Rabs_pos_eq; lra]|]. rewrite Ef in Em.
  set (m := (r - float_ofZ f)%float) in *. assert (Hm : (0 <= fr m <= 1)%R) by (rewrite Em; split; [apply rnd_nonneg; lra|apply (rnd_le_Z _ 1); [lia|lra]]).
  destruct (fr_sub 1 m fin_1 Fm) as [Fm1 Em1]; [apply (small_Z _ 1); [lia|rewrite fr_1, Rabs_pos_eq; lra]|]. rewrite fr_1 in Em1.
  set (m1 := (1 - m)%float) in *. assert (Hm1 : (0 <= fr m1 <= 1)%R) by (rewrite Em1; split; [apply rnd_nonneg; lra|apply (rnd_le_Z _ 1); [lia|lra]]).
  intros H. apply bind_inv in H as (lo & Hlo & H). apply bind_inv in H as (up & Hup & H). destruct (EL _ _ lo (fsort_in a) Hlo) as [Flo Blo]. destruct (EL _ _ up (fsort_in a) Hup) as [Fup Bup].
  assert (P : forall w c, fin w -> fin c -> (Rabs (fr w) <= level k)%R -> (0 <= fr c <= 1)%R -> fin (w * c)%float /\ (Rabs (fr (w * c)%float) <= level k)%R).
  { intros w c Fw Fc Bw Bc. assert (B1 : (Rabs (fr w * fr c) <= level k)%R) by (rewrite Rabs_mult, (Rabs_pos_eq (fr c)) by lra; pose proof (Rabs_pos (fr w)); nra).
    destruct (fr_mul w c Fw Fc) as [F E]; [apply (level_small k); [lia|exact B1]|]. split; [exact F|]. rewrite E. apply rnd_bound; [apply level_format; lia|exact B1]. }
  destruct (P lo m1 Flo Fm1 Blo Hm1) as [F1 B1]. destruct (P up m Fup Fm Bup Hm) as [F2 B2].
  assert (B3 : (Rabs (fr (lo * m1)%float + fr (up * m)%float) <= level (k + 1))%R).
  { apply Rle_trans with (Rabs (fr (lo * m1)%float) + Rabs (fr (up * m)%float))%R; [apply Rabs_triang|lra]. }
  destruct (fr_add (lo * m1) (up * m) F1 F2) as [F E]; [apply (level_small (k + 1)); [lia|exact B3]|].
  assert (p = (lo * m1 + up * m)%float) by congruence. subst p. split; [exact F|]. rewrite E. apply rnd_bound; [apply level_format; lia|exact B3].
Qed.

(** a threshold computed from finite distances *)
Lemma threshold_finite a q1 q2 p1 p2 u k : 0 < zlen a <= 2 ^ 40 -> 0 <= k < 1020 -> (forall x, In x a -> fin x /\ (Rabs (fr x) <= level k)%R) ->
  percentiles N a q1 q2 = Ok (p1, p2) -> PrimFloat.leb 0 u = true -> PrimFloat.ltb u 1 = true -> fin (p1 + (p2 - p1) * u)%float.
Proof.
  intros Ha Hk HA H U0 U1. unfold percentiles in H. apply bind_inv in H as ([] & HG & H). apply guard_ok in HG. apply andb_true_iff in HG as [G1 G2].
  apply andb_true_iff in G1 as [G1 G1']. apply andb_true_iff in G2 as [G2 G2']. cbn [nleb n0 nofZ FN] in *. change (float_ofZ 100) with 100%float in *.
  destruct (Z.eqb_spec (zlen a) 0) as [E|E]; [lia|]. apply bind_inv in H as (a1 & H1 & H). apply bind_inv in H as (a2 & H2 & H). assert (a1 = p1) by congruence. assert (a2 = p2) by congruence. subst a1 a2.
  destruct (percentile1_bounded a q1 p1 k Ha G1 G1' ltac:(lia) HA H1) as [F1 B1]. destruct (percentile1_bounded a q2 p2 k Ha G2 G2' ltac:(lia) HA H2) as [F2 B2].
  pose proof (level_pos k). pose proof (level_S k). pose proof (level_S (k + 1)). pose proof (level_S (k + 1 + 1)).
  assert (Fu : fin u) by (apply (fin_between 0 u 1); [exact U0|apply ltb_leb, U1|exact fin_0|exact fin_1]).
  apply fr_leb in U0; [|exact fin_0|exact Fu]. apply fr_ltb in U1; [|exact Fu|exact fin_1]. rewrite fr_0 in U0. rewrite fr_1 in U1.
  assert (B3 : (Rabs (fr p2 - fr p1) <= level (k + 1 + 1))%R).
  { unfold Rminus. apply Rle_trans with (1 := Rabs_triang _ _). rewrite Rabs_Ropp. lra. }
  destruct (fr_sub p2 p1 F2 F1) as [F3 E3]; [apply (level_small (k + 1 + 1)); [lia|exact B3]|].
  assert (B4 : (Rabs (fr (p2 - p1)%float) <= level (k + 1 + 1))%R) by (rewrite E3; apply rnd_bound; [apply level_format; lia|exact B3]).
  assert (B5 : (Rabs (fr (p2 - p1)%float * fr u) <= level (k + 1 + 1))%R) by (rewrite Rabs_mult, (Rabs_pos_eq (fr u)) by lra; pose proof (Rabs_pos (fr (p2 - p1)%float)); nra).
  destruct (fr_mul (p2 - p1) u F3 Fu) as [F4 E4]; [apply (level_small (k + 1 + 1)); [lia|exact B5]|].
  assert (B6 : (Rabs (fr ((p2 - p1) * u)%float) <= level (k + 1 + 1))%R) by (rewrite E4; apply rnd_bound; [apply level_format; lia|exact B5]).
  apply fr_add; [exact F1|exact F4|]. apply (level_small (k + 1 + 1 + 1)); [lia|]. apply Rle_trans with (1 := Rabs_triang _ _). lra.
Qed.
End Threshold.
