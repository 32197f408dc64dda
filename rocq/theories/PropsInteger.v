(** Property C97: fit and transform on integer data are exact in binary64. *)
From Coq Require Import ZArith List Bool Reals Lra Lia Floats.
From Verif Require Import Prelude Num Kernel Spec KernelProofs RealBase RealProofs Parallel Apply ApplyProofs ApplyUni ApplyMulti TransformProofs TransformLaws SampleLaws
  Gen GenSched GenBase GenUni GenDraw GenSpec GenUTop GenULaws GenUCase GenMTop GenMLaws Checks ChecksProofs Estimator EstimatorNum EstimatorLaws EstimatorCases
  GenAny FloatLaws FloatReal FitFloat FitAny FitAnyTop Libm FloatError FastMath PropsFloat PropsFit64 PropsAccuracy PropsFastMath.
Import ListNotations.
Open Scope Z_scope.

Lemma whole_moderate b x : b <= 2 ^ 53 -> whole b x -> moderate x.
Proof.
  intros Hb (F & z & E & B). split; [exact F|]. rewrite E, <- abs_IZR. apply Rle_trans with (IZR (2 ^ 53)); [apply IZR_le; lia|].
  change (IZR (2 ^ 53)) with (IZR (2 ^ Z.of_nat 53)). rewrite <- (pow_IZR 2 53). apply Rle_pow; [lra|lia].
Qed.

(** fit and transform on integers of at most [b] in absolute value, where 2 b points channels is at most 2^53, in binary64: the
    values of a shapelet that is not normalised are values of the training data, its threshold is a finite number, and its
    three features are exactly the minimum, its first position and the number of distances at most the threshold of the
    distances over the real numbers. Every execution of the kernel that adds the terms of the distances in another
    order (fast-math, other machines) returns the same three numbers. *)
Theorem C97_integers : forall log2 log pow2 S (rng : Rng float S) RS (V : pyenv RS) ex X y s h s' h' n nf cols v vl X' n' cols' v' f m b,
  let N := FN log2 log pow2 in
  libm_accurate log2 log pow2 -> RngLaws N rng -> real_executor ex -> passes (N := N) X n nf cols v vl -> 1 <= n -> 1 <= nf -> zlen y = n ->
  e_n_samples s = VNone -> (forall k, e_type s = TKind k -> kind_vl k = vl) -> (forall i, 0 <= i < n -> 4 <= cols i <= 2 ^ 40) ->
  (vl = true -> forall m, e_min_len s = Some m -> 4 <= m /\ forall i, 0 <= i < n -> m <= cols i) ->
  fit N rng V ex X y s h = (Ok tt, s', h') -> e_shapelets s' = Some f -> e_min_len s' = Some m ->
  passes (N := N) X' n' nf cols' v' vl -> 1 <= n' -> (forall i, 0 <= i < n' -> m <= cols' i <= 2 ^ 53) ->
  1 <= b -> (forall i, 0 <= i < n -> 2 * b * cols i * nf <= 2 ^ 53) ->
  (forall i ch j, 0 <= i < n -> 0 <= ch < nf -> 0 <= j < cols i -> whole b (v i ch j)) ->
  (forall i ch j, 0 <= i < n' -> 0 <= ch < nf -> 0 <= j < cols' i -> whole b (v' i ch j)) ->
  exists T, transform N s' X' = Ok T /\
    forall i j chs vs l d thr, 0 <= i < n' -> shapelet_of f j chs vs l d thr false ->
      let x := channels v' nf (cols' i) i in
      finite thr /\ (forall r q, In r vs -> In q r -> whole b q /\ exists i0 ch p, 0 <= i0 < n /\ 0 <= ch < nf /\ 0 <= p < cols i0 /\ q = v i0 ch p) /\
      exists mn a t, cell3 T i j (mn, a, t) /\
        is_features RN (mdistances RN (e_phase s) false (cols' i) (map (map fr) x) chs (map (map fr) vs) l d) (fr thr) (fr mn, fr a, fr t) /\
        forall mn' a' t', fast_features N (e_phase s) (cols' i) x chs vs l d thr (mn', a', t') -> (fr mn', fr a', fr t') = (fr mn, fr a, fr t).
Proof.
  intros log2 log pow2 S rng RS V ex X y s h s' h' n nf cols v vl X' n' cols' v' f m b N LA L HE HX Hn Hf Hy Hns Hty H4 Hml H Hsh Hmm HX' Hn' Hlong Hb H53 HM HM'. subst N.
  assert (HL' : forall i, 0 <= i < n' -> m <= cols' i) by (intros i Hi; apply Hlong; exact Hi).
  assert (H53' : forall i, 0 <= i < n -> cols i * nf <= 2 ^ 53) by (intros i Hi; specialize (H53 i Hi); specialize (H4 i Hi); nia).
  assert (Hb53 : b <= 2 ^ 53) by (specialize (H53 0 ltac:(lia)); specialize (H4 0 ltac:(lia)); nia).
  assert (WM : forall q, whole b q -> moderate q) by (intros q; apply whole_moderate; exact Hb53).
  destruct (C79_transform log2 log pow2 S rng RS V ex X y s h s' h' n nf cols v vl X' n' cols' v' f m LA L HE HX Hn Hf Hy Hns Hty H4 Hml H Hsh Hmm HX' Hn' HL') as (T & ET & _ & _ & HT).
  exists T. split; [exact ET|]. intros i j chs vs l d thr Hi Hj x.
  destruct (fit_values log2 log pow2 S rng RS V ex X y s h s' h' n nf cols v vl f m LA L HE HX Hn Hf Hy Hns Hty H4 Hml H Hsh Hmm H53' (fun i ch j Hi Hc Hj => WM _ (HM i ch j Hi Hc Hj)) j chs vs l d thr Hj) as (A1 & A2 & A3 & A4 & A5 & A6 & A7 & A8).
  assert (WV : forall r q, In r vs -> In q r -> whole b q) by (intros r q Hr Hq; destruct (A8 r q Hr Hq) as (i0 & ch & p & B1 & B2 & B3 & ->); apply HM; assumption).
  assert (WX : forall r q, In r x -> In q r -> whole b q).
  { intros r q Hr Hq. apply in_map_iff in Hr as (ch & <- & Hch). apply in_zrange in Hch. apply in_map_iff in Hq as (p & <- & Hp). apply in_zrange in Hp. apply HM'; lia. }
  split; [exact A7|]. split; [intros r q Hr Hq; split; [exact (WV r q Hr Hq)|exact (A8 r q Hr Hq)]|].
  destruct (HT (fun i ch j Hi Hc Hj => proj1 (HM i ch j Hi Hc Hj)) (fun i ch j Hi Hc Hj => proj1 (HM' i ch j Hi Hc Hj)) i j chs vs l d thr Hi Hj) as ([[mn a] t] & Hcell & HF).
  exists mn, a, t. split; [exact Hcell|].
  assert (HI : forall q, whole b q -> integer b q) by (intros q (F & z & E & B); exists z; split; [apply is_finite_prim; exact F|auto]).
  assert (LB : 2 * b * l * zlen chs <= 2 ^ 53).
  { destruct (any_fit_sound (binary64_laws log2 log pow2 rng LA L) V ex X y s h s' h' n nf cols v vl HE HX Hn Hf Hy Hns Hty H4 Hml H) as (k & f0 & m0 & HFA).
    assert (m0 = m) by (pose proof (fa_min_len _ _ _ _ _ _ _ _ _ _ _ _ _ HFA); congruence). subst m0.
    assert (Hmc : m <= cols 0) by (apply (fa_enough _ _ _ _ _ _ _ _ _ _ _ _ _ HFA); lia).
    specialize (H53 0 ltac:(lia)). apply Z.le_trans with (2 := H53). assert (l <= cols 0) by lia. apply Z.mul_le_mono_nonneg; [nia|nia|lia|lia]. }
  destruct (mdistances_exact log2 log pow2 b (e_phase s) (cols' i) x chs vs l d ltac:(lia) (fun r q Hr Hq => HI q (WX r q Hr Hq)) (fun r q Hr Hq => HI q (WV r q Hr Hq)) ltac:(lia) LB) as [E FD].
  specialize (Hlong i Hi).
  assert (REAL : is_features RN (mdistances RN (e_phase s) false (cols' i) (map (map fr) x) chs (map (map fr) vs) l d) (fr thr) (fr mn, fr a, fr t)).
  { rewrite <- E. apply is_finite_prim in A7. apply (exact_features log2 log pow2 _ thr (mn, a, t) FD A7); [|exact HF]. unfold mdistances. rewrite zlen_map, zlen_zrange. unfold nwin. destruct (e_phase s); nia. }
  split; [exact REAL|]. intros mn' a' t' HFF.
  pose proof (C89_integers log2 log pow2 (e_phase s) (cols' i) x chs vs l d thr b mn' a' t' WX WV A7 ltac:(lia) ltac:(lia) ltac:(lia) ltac:(lia) LB ltac:(lia) HFF) as Q.
  exact (is_features_unique _ _ _ _ Q REAL).
Qed.
Print Assumptions C97_integers.

(** integer data that meet the hypotheses *)
Definition intX : pyv float := VArr [2; 1; 4] DFloat64 (map VFloat [1; -5; 2; 2; 3; 1; 0; 7]%float).
Definition intv (i ch j : Z) : float := nthd 0%float [1; -5; 2; 2; 3; 1; 0; 7]%float (i * 4 + j).
Example C97_case : (forall log2 log pow2, passes (N := FN log2 log pow2) intX 2 1 (fun _ => 4) intv false) /\
  (forall i ch j, 0 <= i < 2 -> 0 <= ch < 1 -> 0 <= j < 4 -> whole 7 (intv i ch j)) /\ 2 * 7 * 4 * 1 <= 2 ^ 53 /\
  U_SL_apply (FN fid fid fid) [[[1; -5; 2; 2]]; [[3; 1; 0; 7]]]%float (mkUshp [[-5; 2]]%float [2] [1] [7]%float [false]) false = Ok [[0; 1; 2]; [8; 1; 0]]%float.
Proof.
  assert (H8 : forall i j, 0 <= i < 2 -> 0 <= j < 4 -> i * 4 + j = 0 \/ i * 4 + j = 1 \/ i * 4 + j = 2 \/ i * 4 + j = 3 \/ i * 4 + j = 4 \/ i * 4 + j = 5 \/ i * 4 + j = 6 \/ i * 4 + j = 7) by (intros; lia).
  assert (W : forall z, Z.abs z <= 7 -> whole 7 (float_ofZ z)).
  { intros z Hz. destruct (fr_ofZ z ltac:(lia)) as [F E]. split; [apply is_finite_prim; exact F|]. exists z. split; [exact E|lia]. }
  split; [|split; [|split; [lia|vm_compute; reflexivity]]].
  - intros log2 log pow2. eapply passes_array; [reflexivity|discriminate|lia|reflexivity|reflexivity|]. intros i ch j Hi Hch Hj. assert (ch = 0) by lia. subst ch. replace ((i * 1 + 0) * 4 + j) with (i * 4 + j) by lia.
    unfold intv. destruct (H8 i j Hi Hj) as [-> |[-> |[-> |[-> |[-> |[-> |[-> | ->]]]]]]]; eexists; split; reflexivity.
  - intros i ch j Hi Hch Hj. unfold intv. destruct (H8 i j Hi Hj) as [-> |[-> |[-> |[-> |[-> |[-> |[-> | ->]]]]]]]; [apply (W 1)|apply (W (-5))|apply (W 2)|apply (W 2)|apply (W 3)|apply (W 1)|apply (W 0)|apply (W 7)]; lia.
Qed.
