(** The real value of a binary64 number, and the arithmetic of the model ([FN], Num.v) in terms of
    it: every operation returns the rounded exact result (from Flocq).  Used for the statements
    about fitting in binary64. *)
From Flocq Require Import Core IEEE754.BinarySingleNaN IEEE754.PrimFloat.
From Coq Require Import ZArith List Bool Reals Lra Lia Floats.
From Verif Require Import Prelude Num FloatLaws.
Import ListNotations.
Open Scope Z_scope.

Definition fr (x : float) : R := B2R (Prim2B x).
Notation fin x := (FloatLaws.is_finite x).
Notation fexp64 := (SpecFloat.fexp 53 1024).
Definition rnd (x : R) : R := round radix2 fexp64 ZnearestE x.

#[export] Instance prec_gt_0_53 : Prec_gt_0 53 := eq_refl.
#[export] Instance valid_exp64 : Valid_exp fexp64 := fexp_correct 53 1024 prec_gt_0_53.

Lemma fin_B x : fin x <-> BinarySingleNaN.is_finite (Prim2B x) = true.
Proof. rewrite is_finite_prim, is_finite_equiv. reflexivity. Qed.

Lemma fin_dec x : fin x \/ ~ fin x.
Proof. rewrite fin_B. destruct (BinarySingleNaN.is_finite (Prim2B x)); [left|right]; congruence. Qed.

(** ** Rounding *)

Lemma rnd_le x y : (x <= y)%R -> (rnd x <= rnd y)%R.
Proof. intros H. unfold rnd. apply round_le; [exact _|exact _|exact H]. Qed.

Lemma rnd_id x : generic_format radix2 fexp64 x -> rnd x = x.
Proof. intros H. unfold rnd. apply round_generic; [exact _|exact H]. Qed.

Lemma format_fr x : generic_format radix2 fexp64 (fr x).
Proof. apply generic_format_B2R. Qed.

(** [m * 2^e] with |m| < 2^53 and e not too small is a binary64 value *)
Lemma format_dyadic m e : Z.abs m <= 2 ^ 53 -> -1074 <= e -> generic_format radix2 fexp64 (IZR m * bpow radix2 e).
Proof.
  intros Hm He. change (IZR m * bpow radix2 e)%R with (F2R (Float radix2 m e)).
  change fexp64 with (FLT_exp (-1074) 53).
  destruct (Z.eq_dec (Z.abs m) (2 ^ 53)) as [E|E].
  - assert (Hs : m = Z.sgn m * 2 ^ 53) by (destruct (Z.abs_spec m) as [[? ?]|[? ?]]; destruct (Z.sgn_spec m) as [[? ->]|[[? ->]|[? ->]]]; lia).
    apply generic_format_FLT. exists (Float radix2 (Z.sgn m) (e + 53)).
    + unfold F2R. cbn [Fnum Fexp]. rewrite bpow_plus, Hs at 1. rewrite mult_IZR. change (bpow radix2 53) with (IZR (2 ^ 53)). rewrite Hs at 2. rewrite Z.sgn_mul, Z.sgn_sgn.
      change (Z.sgn (2 ^ 53)) with 1. rewrite Z.mul_1_r. ring.
    + cbn [Fnum]. change (Zpower radix2 53) with (2 ^ 53). destruct (Z.sgn_spec m) as [[? ->]|[[? ->]|[? ->]]]; cbn; lia.
    + cbn [Fexp]. lia.
  - apply generic_format_FLT. exists (Float radix2 m e); [reflexivity|cbn [Fnum]; change (Zpower radix2 53) with (2 ^ 53); lia|exact He].
Qed.

Lemma format_Z z : Z.abs z <= 2 ^ 53 -> generic_format radix2 fexp64 (IZR z).
Proof. intros H. rewrite <- (Rmult_1_r (IZR z)). change 1%R with (bpow radix2 0). apply format_dyadic; lia. Qed.

Lemma rnd_Z z : Z.abs z <= 2 ^ 53 -> rnd (IZR z) = IZR z.
Proof. intros H. apply rnd_id, format_Z, H. Qed.

Lemma rnd_0 : rnd 0 = 0%R.
Proof. apply (rnd_Z 0). lia. Qed.

Lemma rnd_nonneg x : (0 <= x)%R -> (0 <= rnd x)%R.
Proof. intros H. rewrite <- rnd_0. apply rnd_le, H. Qed.

Lemma rnd_fr x : rnd (fr x) = fr x.
Proof. apply rnd_id, format_fr. Qed.

(** anything bounded by a finite binary64 number stays in range *)
Definition small (x : R) : Prop := exists g, generic_format radix2 fexp64 g /\ (Rabs x <= g)%R /\ (g < bpow radix2 1024)%R.

Lemma small_rnd x : small x -> (Rabs (rnd x) < bpow radix2 1024)%R.
Proof.
  intros (g & Hg & H & Hb). apply Rle_lt_trans with (2 := Hb). apply Rabs_le_inv in H as [H1 H2]. apply Rabs_le.
  apply rnd_le in H1. apply rnd_le in H2. rewrite (rnd_id g Hg) in H2. rewrite (rnd_id (- g)) in H1 by (apply generic_format_opp, Hg). lra.
Qed.

Lemma small_fr x b : (Rabs x <= Rabs (fr b))%R -> small x.
Proof.
  intros H. exists (Rabs (fr b)). split; [apply generic_format_abs, format_fr|]. split; [exact H|]. apply abs_B2R_lt_emax.
Qed.

Lemma small_Z x (z : Z) : z <= 2 ^ 53 -> (Rabs x <= IZR z)%R -> small x.
Proof.
  intros H1 H2. assert (H0 : 0 <= z) by (apply le_IZR; pose proof (Rabs_pos x); lra). exists (IZR z). split; [apply format_Z; lia|]. split; [exact H2|].
  apply Rle_lt_trans with (bpow radix2 53); [|apply bpow_lt; reflexivity]. change (bpow radix2 53) with (IZR (2 ^ 53)). apply IZR_le, H1.
Qed.

Lemma rnd_le_Z x z : Z.abs z <= 2 ^ 53 -> (x <= IZR z)%R -> (rnd x <= IZR z)%R.
Proof. intros H1 H2. rewrite <- (rnd_Z z) by exact H1. apply rnd_le, H2. Qed.

Lemma rnd_ge_Z x z : Z.abs z <= 2 ^ 53 -> (IZR z <= x)%R -> (IZR z <= rnd x)%R.
Proof. intros H1 H2. rewrite <- (rnd_Z z) by exact H1. apply rnd_le, H2. Qed.

Lemma rnd_le_fmt x g : generic_format radix2 fexp64 g -> (x <= g)%R -> (rnd x <= g)%R.
Proof. intros H1 H2. rewrite <- (rnd_id g H1). apply rnd_le, H2. Qed.

Lemma rnd_ge_fmt x g : generic_format radix2 fexp64 g -> (g <= x)%R -> (g <= rnd x)%R.
Proof. intros H1 H2. rewrite <- (rnd_id g H1). apply rnd_le, H2. Qed.

(** ** The operations *)

Lemma fr_add x y : fin x -> fin y -> small (fr x + fr y) -> fin (x + y)%float /\ fr (x + y)%float = rnd (fr x + fr y).
Proof.
  rewrite !fin_B. intros Fx Fy HS. unfold fr at 1. rewrite add_equiv. pose proof (Bplus_correct prec emax Hprec Hmax mode_NE _ _ Fx Fy) as H.
  rewrite Rlt_bool_true in H by (apply small_rnd, HS). destruct H as (A & B & _). split; [exact B|exact A].
Qed.

Lemma fr_sub x y : fin x -> fin y -> small (fr x - fr y) -> fin (x - y)%float /\ fr (x - y)%float = rnd (fr x - fr y).
Proof.
  rewrite !fin_B. intros Fx Fy HS. unfold fr at 1. rewrite sub_equiv. pose proof (Bminus_correct prec emax Hprec Hmax mode_NE _ _ Fx Fy) as H.
  rewrite Rlt_bool_true in H by (apply small_rnd, HS). destruct H as (A & B & _). split; [exact B|exact A].
Qed.

Lemma fr_mul x y : fin x -> fin y -> small (fr x * fr y) -> fin (x * y)%float /\ fr (x * y)%float = rnd (fr x * fr y).
Proof.
  rewrite !fin_B. intros Fx Fy HS. unfold fr at 1. rewrite mul_equiv. pose proof (Bmult_correct prec emax Hprec Hmax mode_NE (Prim2B x) (Prim2B y)) as H.
  rewrite Rlt_bool_true in H by (apply small_rnd, HS). destruct H as (A & B & _). rewrite Fx, Fy in B. split; [exact B|exact A].
Qed.

Lemma fr_div x y : fin x -> fr y <> 0%R -> small (fr x / fr y) -> fin (x / y)%float /\ fr (x / y)%float = rnd (fr x / fr y).
Proof.
  rewrite !fin_B. intros Fx Hy HS. unfold fr at 1. rewrite div_equiv. pose proof (Bdiv_correct prec emax Hprec Hmax mode_NE (Prim2B x) (Prim2B y) Hy) as H.
  rewrite Rlt_bool_true in H by (apply small_rnd, HS). destruct H as (A & B & _). rewrite Fx in B. split; [exact B|exact A].
Qed.

Lemma fr_sqrt x : fin x -> (0 <= fr x)%R -> fin (PrimFloat.sqrt x) /\ fr (PrimFloat.sqrt x) = rnd (R_sqrt.sqrt (fr x)).
Proof.
  rewrite !fin_B. intros Fx Hx. unfold fr at 1. rewrite sqrt_equiv. destruct (Bsqrt_correct prec emax Hprec Hmax mode_NE (Prim2B x)) as (A & B & _).
  split; [|exact A]. rewrite B. unfold fr in Hx. destruct (Prim2B x) as [s|s| |s m e E]; try discriminate; [reflexivity|]. destruct s; [|reflexivity].
  exfalso. assert (C : (F2R (Float radix2 (Zneg m) e) < 0)%R) by (apply F2R_lt_0; reflexivity). cbn [B2R cond_Zopp] in Hx. cbn in C, Hx. lra.
Qed.

Lemma fr_ofZ z : Z.abs z <= 2 ^ 53 -> fin (float_ofZ z) /\ fr (float_ofZ z) = IZR z.
Proof.
  intros Hz. unfold fr, float_ofZ. rewrite fin_B. change 53 with prec. change 1024 with emax. rewrite binary_normalize_equiv.
  change (SF2Prim (B2SF ?b)) with (B2Prim b). rewrite !Prim2B_B2Prim.
  pose proof (binary_normalize_correct prec emax Hprec Hmax mode_NE z 0 false) as H. cbv zeta in H.
  assert (EF : F2R (Float radix2 z 0) = IZR z) by (unfold F2R; cbn; ring). rewrite EF in H.
  change (round radix2 (SpecFloat.fexp prec emax) (round_mode mode_NE) (IZR z)) with (rnd (IZR z)) in H. rewrite rnd_Z in H by exact Hz.
  rewrite Rlt_bool_true in H. { destruct H as (A & B & _). split; [exact B|exact A]. }
  apply Rle_lt_trans with (bpow radix2 53); [|apply bpow_lt; reflexivity]. change (bpow radix2 53) with (IZR (2 ^ 53)). rewrite <- abs_IZR. apply IZR_le. exact Hz.
Qed.

(** ** Comparisons *)

Lemma fr_leb x y : fin x -> fin y -> (PrimFloat.leb x y = true <-> (fr x <= fr y)%R).
Proof.
  rewrite !fin_B. intros Fx Fy. rewrite leb_equiv, Bleb_correct by assumption. unfold fr. split; [|apply Rle_bool_true].
  destruct (Rle_bool_spec (B2R (Prim2B x)) (B2R (Prim2B y))); [auto|discriminate].
Qed.

Lemma fr_ltb x y : fin x -> fin y -> (PrimFloat.ltb x y = true <-> (fr x < fr y)%R).
Proof.
  rewrite !fin_B. intros Fx Fy. rewrite ltb_equiv, Bltb_correct by assumption. unfold fr. split; [|apply Rlt_bool_true].
  destruct (Rlt_bool_spec (B2R (Prim2B x)) (B2R (Prim2B y))); [auto|discriminate].
Qed.

Lemma fr_eqb x y : fin x -> fin y -> (PrimFloat.eqb x y = true <-> fr x = fr y).
Proof.
  rewrite !fin_B. intros Fx Fy. rewrite eqb_equiv, Beqb_correct by assumption. unfold fr. split; [|apply Req_bool_true].
  destruct (Req_bool_spec (B2R (Prim2B x)) (B2R (Prim2B y))); [auto|discriminate].
Qed.

Lemma fin_between a x b : PrimFloat.leb a x = true -> PrimFloat.leb x b = true -> fin a -> fin b -> fin x.
Proof.
  rewrite !leb_spec. unfold FloatLaws.is_finite, SFleb, SFcompare. destruct (Prim2SF x) as [s|s| |s m e]; try tauto.
  - destruct s; [destruct (Prim2SF a); try tauto|destruct (Prim2SF b); try tauto]; intros; try discriminate;
      destruct (Prim2SF a), (Prim2SF b); try discriminate; try tauto; destruct s; discriminate.
  - destruct (Prim2SF a); try discriminate; tauto.
Qed.

Lemma ltb_leb x y : PrimFloat.ltb x y = true -> PrimFloat.leb x y = true.
Proof. rewrite ltb_spec, leb_spec. unfold SFltb, SFleb. destruct (SFcompare (Prim2SF x) (Prim2SF y)) as [[]|]; auto. Qed.

Lemma fr_0 : fr 0%float = 0%R. Proof. apply (fr_ofZ 0). lia. Qed.
Lemma fr_1 : fr 1%float = 1%R. Proof. apply (fr_ofZ 1). lia. Qed.
Lemma fin_0 : fin 0%float. Proof. exact I. Qed.
Lemma fin_1 : fin 1%float. Proof. exact I. Qed.

(** ** floor and truncation *)

Lemma fr_SF x : fr x = SF2R radix2 (Prim2SF x).
Proof. unfold fr. rewrite <- B2SF_Prim2B. destruct (Prim2B x) as [s|s| |s m e E]; reflexivity. Qed.

Lemma floor_dyadic v e : e < 0 -> Zfloor (IZR v * bpow radix2 e) = v / 2 ^ (- e).
Proof.
  intros He. replace (IZR v * bpow radix2 e)%R with (IZR v / IZR (2 ^ (- e)))%R; [apply Zfloor_div; apply Z.pow_nonzero; lia|].
  unfold Rdiv. f_equal. rewrite <- (Z.opp_involutive e) at 2. rewrite bpow_opp. f_equal. apply (IZR_Zpower radix2). lia.
Qed.

Lemma fr_floor x : fin x -> float_floor x = Zfloor (fr x).
Proof.
  intros Fx. rewrite fr_SF. unfold float_floor, FloatLaws.is_finite in *. destruct (Prim2SF x) as [s|s| |s m e]; try tauto.
  - cbn. symmetry. apply (Zfloor_IZR 0).
  - unfold SF2R, F2R. cbn [Fnum Fexp]. set (v := cond_Zopp s (Zpos m)). assert (Ev : (if s then Zneg m else Zpos m) = v) by (destruct s; reflexivity). rewrite Ev.
    destruct (Z.leb_spec 0 e) as [H|H].
    + rewrite <- (IZR_Zpower radix2) by exact H. rewrite <- mult_IZR, Zfloor_IZR. reflexivity.
    + symmetry. apply floor_dyadic. exact H.
Qed.

Lemma fr_trunc x : fin x -> (0 <= fr x)%R -> float_trunc x = Zfloor (fr x).
Proof.
  intros Fx Hx. rewrite <- fr_floor by exact Fx. rewrite fr_SF in Hx. unfold float_floor, float_trunc, FloatLaws.is_finite in *. destruct (Prim2SF x) as [s|s| |s m e]; try tauto.
  destruct s; [|reflexivity]. exfalso. assert (C : (F2R (Float radix2 (Zneg m) e) < 0)%R) by (apply F2R_lt_0; reflexivity). cbn [SF2R cond_Zopp] in Hx. cbn in C, Hx. lra.
Qed.
