(** The draws of the generation step in binary64: the dilations, the log-weighted choice, the primes
    and the percentiles.  The transcendental functions are libm's (parameters of [FN]); what is
    needed of them is [libm_ok]. *)
From Flocq Require Import Core IEEE754.BinarySingleNaN.
From Coq Require Import ZArith Znumtheory List Bool Reals Lra Lia Floats.
From Verif Require Import Prelude Num Kernel Spec KernelProofs RealBase PrimeProofs ChoiceProofs Gen GenBase GenDraw GenULaws GenAny FloatLaws FloatReal.
Import ListNotations.
Open Scope Z_scope.

(** libm on the integers 1..B: log2 and log are finite, non-negative and log <= log2; 2**x for x between 0 and
    log2(k) is at least 1 and less than k + 1. *)
Record libm_ok (log2 log pow2 : float -> float) (B : Z) : Prop := {
  lm_log2 : forall k, 1 <= k <= B -> PrimFloat.is_finite (log2 (float_ofZ k)) = true /\ PrimFloat.leb 0 (log2 (float_ofZ k)) = true;
  lm_log : forall k, 1 <= k <= B -> PrimFloat.leb 0 (log (float_ofZ k)) = true /\ PrimFloat.leb (log (float_ofZ k)) (log2 (float_ofZ k)) = true;
  lm_pow2 : forall k x, 1 <= k <= B -> PrimFloat.leb 0 x = true -> PrimFloat.leb x (log2 (float_ofZ k)) = true ->
    PrimFloat.leb 1 (pow2 x) = true /\ PrimFloat.ltb (pow2 x) (float_ofZ (k + 1)) = true }.

Section F64.
Context (log2 log pow2 : float -> float) (B : Z) (LM : libm_ok log2 log pow2 B).
Hypothesis HB : B <= 2 ^ 40.
Notation FN64 := (FN log2 log pow2).
Context {S : Type} (rng : Rng float S) (L : RngLaws FN64 rng).

Lemma unif_float s : fin (fst (r_unif rng s)) /\ (0 <= fr (fst (r_unif rng s)) < 1)%R.
Proof.
  destruct (rl_unif L s) as [H1 H2]. cbn [nleb nltb n0 n1 FN] in *. set (u := fst (r_unif rng s)) in *.
  assert (Fu : fin u) by (apply (fin_between 0 u 1); [exact H1|apply ltb_leb, H2|exact fin_0|exact fin_1]).
  split; [exact Fu|]. apply fr_leb in H1; [|exact fin_0|exact Fu]. apply fr_ltb in H2; [|exact Fu|exact fin_1]. rewrite fr_0 in H1. rewrite fr_1 in H2. lra.
Qed.

Lemma ofZ_float k : 0 <= k <= B + 1 -> fin (float_ofZ k) /\ fr (float_ofZ k) = IZR k.
Proof. intros H. apply fr_ofZ. lia. Qed.

(** ** primes *)

Lemma sqrt_float n : 0 <= n <= 2 ^ 48 -> float_trunc (PrimFloat.sqrt (float_ofZ n)) = Z.sqrt n.
Proof.
  intros Hn. destruct (fr_ofZ n ltac:(lia)) as [Fn En]. assert (H0 : (0 <= IZR n)%R) by (apply IZR_le; lia).
  destruct (fr_sqrt (float_ofZ n) Fn ltac:(rewrite En; exact H0)) as [Fs Es]. rewrite En in Es.
  rewrite fr_trunc; [|exact Fs|rewrite Es; apply rnd_nonneg, sqrt_pos]. rewrite Es.
  pose proof (Z.sqrt_spec n ltac:(lia)) as [Q1 Q2]. pose proof (Z.sqrt_nonneg n) as Q0. set (q := Z.sqrt n) in *.
  assert (Hq : q <= 2 ^ 24) by nia.
  apply Zfloor_imp. split.
  - apply rnd_ge_Z; [lia|]. apply Rsqr_incr_0_var; [|apply sqrt_pos]. rewrite Rsqr_sqrt by exact H0. unfold Rsqr. rewrite <- mult_IZR. apply IZR_le. lia.
  - set (b := ((IZR ((q + 1) * 2 ^ 26 - 1)) * bpow radix2 (-26))%R).
    assert (Hb : rnd b = b) by (apply rnd_id, format_dyadic; lia).
    assert (Eb : b = (IZR (q + 1) - bpow radix2 (-26))%R).
    { unfold b. rewrite minus_IZR, mult_IZR. change (IZR (2 ^ 26)) with (bpow radix2 26). rewrite Rmult_minus_distr_r, Rmult_assoc, <- bpow_plus. change (bpow radix2 (26 + -26)) with 1%R. lra. }
    assert (Hp : (bpow radix2 (-26) = / IZR (2 ^ 26))%R) by reflexivity.
    assert (Hle : (rnd (R_sqrt.sqrt (IZR n)) <= b)%R).
    { rewrite <- Hb. apply rnd_le. apply Rsqr_incr_0_var.
      - rewrite Rsqr_sqrt by exact H0. rewrite Eb, Hp. unfold Rsqr.
        assert (A : (IZR n <= IZR ((q + 1) * (q + 1) - 1))%R) by (apply IZR_le; unfold Z.succ in Q2; lia). rewrite minus_IZR, mult_IZR in A.
        assert (C : (0 <= IZR q <= 16777216)%R) by (split; apply IZR_le; lia). rewrite plus_IZR in *. change (IZR (2 ^ 26)) with 67108864%R. nra.
      - rewrite Eb, Hp. rewrite plus_IZR. change (IZR (2 ^ 26)) with 67108864%R. assert (0 <= IZR q)%R by (apply IZR_le; lia). nra. }
    apply Rle_lt_trans with (1 := Hle). rewrite Eb. pose proof (bpow_gt_0 radix2 (-26)). lra.
Qed.

Lemma is_prime_float n : 0 <= n <= 2 ^ 48 -> is_prime FN64 n = is_prime RN n.
Proof.
  intros Hn. unfold is_prime. cbn [ntrunc nsqrt nofZ FN]. rewrite sqrt_float by exact Hn.
  change (ntrunc RN (nsqrt RN (nofZ RN n))) with (Rtrunc (R_sqrt.sqrt (IZR n))). rewrite Rtrunc_sqrt by lia. reflexivity.
Qed.

Lemma prime_up_to_float n : n <= 2 ^ 48 -> prime_up_to FN64 n = prime_up_to RN n.
Proof.
  intros Hn. unfold prime_up_to. destruct (guard (0 <=? n + 1) ValueError); [cbn [bind]|reflexivity]. do 2 f_equal.
  apply map_ext_in. intros k Hk. apply in_zrange in Hk. apply is_prime_float. lia.
Qed.

(** ** the log-weighted choice *)

Lemma pow2_range k x : 1 <= k <= B -> PrimFloat.leb 0 x = true -> PrimFloat.leb x (log2 (float_ofZ k)) = true ->
  fin (pow2 x) /\ (1 <= fr (pow2 x) < IZR (k + 1))%R.
Proof.
  intros Hk H0 H1. destruct (lm_pow2 _ _ _ _ LM k x Hk H0 H1) as [A C]. destruct (ofZ_float (k + 1) ltac:(lia)) as [Fk Ek].
  assert (Fp : fin (pow2 x)) by (apply (fin_between 1 _ (float_ofZ (k + 1))); [exact A|apply ltb_leb, C|exact fin_1|exact Fk]).
  split; [exact Fp|]. apply fr_leb in A; [|exact fin_1|exact Fp]. apply fr_ltb in C; [|exact Fp|exact Fk]. rewrite fr_1 in A. rewrite Ek in C. lra.
Qed.

Lemma weight_float i : 1 <= i <= B -> fin (1 / pow2 (log (float_ofZ i)))%float /\ (0 < fr (1 / pow2 (log (float_ofZ i)))%float <= 1)%R.
Proof.
  intros Hi. destruct (lm_log _ _ _ _ LM i Hi) as [A C]. destruct (pow2_range i _ Hi A C) as [Fp [P1 P2]]. set (p := pow2 (log (float_ofZ i))) in *.
  assert (Hb : (0 < 1 / fr p <= 1)%R). { split; [apply Rdiv_lt_0_compat; lra|]. apply (Rmult_le_reg_r (fr p)); [lra|]. unfold Rdiv. rewrite Rmult_assoc, Rinv_l; lra. }
  destruct (fr_div 1 p fin_1) as [Fd Ed]; [lra|rewrite fr_1; apply (small_Z _ 1); [lia|rewrite Rabs_pos_eq; lra]|].
  split; [exact Fd|]. rewrite Ed, fr_1. split.
  - apply Rlt_le_trans with (bpow radix2 (-41)); [apply bpow_gt_0|].
    apply rnd_ge_fmt; [rewrite <- (Rmult_1_l (bpow radix2 (-41))); apply (format_dyadic 1); lia|]. apply (Rmult_le_reg_r (fr p)); [lra|]. unfold Rdiv. rewrite (Rmult_assoc 1), Rinv_l by lra.
    assert (P3 : (IZR (i + 1) <= IZR (2 ^ 41))%R) by (apply IZR_le; lia). change (bpow radix2 (-41)) with (/ IZR (2 ^ 41))%R. change (IZR (2 ^ 41)) with 2199023255552%R in *. lra.
  - apply rnd_le_Z; [lia|lra].
Qed.

(** a running sum of numbers in (0,1] *)
Lemma sum_float l k s : 0 <= k -> k + zlen l <= B + 1 -> (forall w, In w l -> fin w /\ (0 < fr w <= 1)%R) -> fin s -> (0 <= fr s <= IZR k)%R -> (l <> [] \/ (0 < fr s)%R) ->
  fin (fold_left PrimFloat.add l s) /\ (0 < fr (fold_left PrimFloat.add l s) <= IZR (k + zlen l))%R.
Proof.
  revert k s. induction l as [|w t IH]; intros k s Hk Hl Hw Fs Hs Hne.
  - cbn [fold_left]. change (zlen (@nil float)) with 0. rewrite Z.add_0_r. destruct Hne as [C|C]; [congruence|]. split; [exact Fs|lra].
  - rewrite zlen_cons in *. pose proof (zlen_nonneg t). destruct (Hw w (or_introl eq_refl)) as [Fw [W1 W2]]. cbn [fold_left].
    assert (Hk1 : (IZR (k + 1) = IZR k + 1)%R) by (rewrite plus_IZR; reflexivity).
    destruct (fr_add s w Fs Fw) as [Fa Ea]; [apply (small_Z _ (k + 1)); [lia|rewrite Rabs_pos_eq; lra]|].
    assert (Ha : (0 < fr (s + w)%float <= IZR (k + 1))%R).
    { rewrite Ea. split.
      - apply Rlt_le_trans with (fr w); [exact W1|]. apply rnd_ge_fmt; [apply format_fr|lra].
      - apply rnd_le_Z; [lia|lra]. }
    replace (k + (zlen t + 1)) with (k + 1 + zlen t) by lia. replace (k + Z.succ (zlen t)) with (k + 1 + zlen t) by lia.
    apply IH; [lia|lia|intros; apply Hw; right; assumption|exact Fa|lra|right; apply Ha].
Qed.

Lemma cumsum_last {F} (N : NumOps F) l s : l <> [] -> nthZ (ncumsum_from N s l) (zlen l - 1) = Some (fold_left (nadd N) l s).
Proof.
  revert s. induction l as [|x t IH]; intros s Hne; [congruence|]. cbn [ncumsum_from fold_left]. destruct t as [|x' t].
  - reflexivity.
  - rewrite zlen_cons. rewrite nthZ_cons. destruct (Z.eqb_spec (zlen (x' :: t) + 1 - 1) 0) as [C|C]; [rewrite zlen_cons in C; pose proof (zlen_nonneg t); lia|].
    replace (zlen (x' :: t) + 1 - 1 - 1) with (zlen (x' :: t) - 1) by lia. apply IH. discriminate.
Qed.

Lemma cdf_last n : 1 <= n <= B -> exists c, nthZ (log_cdf FN64 n) (n - 1) = Some c /\ fin c /\ fr c = 1%R.
Proof.
  intros Hn. unfold log_cdf. set (P := log_weights FN64 n).
  assert (HP : zlen P = n) by (unfold P, log_weights; rewrite zlen_map, zlen_zrange; lia).
  assert (HW : forall w, In w P -> fin w /\ (0 < fr w <= 1)%R).
  { intros w Hw. unfold P, log_weights in Hw. apply in_map_iff in Hw as (i & <- & Hi). apply in_zrange in Hi. apply weight_float. lia. }
  assert (Hne : P <> []) by (intros C; rewrite C in HP; change (zlen (@nil float)) with 0 in HP; lia).
  destruct (sum_float P 0 0%float ltac:(lia) ltac:(lia) HW fin_0 ltac:(rewrite fr_0; lra) (or_introl Hne)) as [Fs [S1 S2]].
  change (nsum FN64 P) with (fold_left PrimFloat.add P 0%float). set (c := fold_left PrimFloat.add P 0%float) in *.
  exists (c / c)%float. split.
  - rewrite nthZ_map. rewrite <- HP at 1. rewrite (cumsum_last FN64 P _ Hne). reflexivity.
  - assert (E1 : (fr c / fr c)%R = 1%R) by (field; lra). destruct (fr_div c c Fs) as [Fd Ed]; [lra|rewrite E1; apply (small_Z _ 1); [lia|rewrite Rabs_pos_eq; lra]|].
    split; [exact Fd|]. rewrite Ed, E1. apply (rnd_Z 1). lia.
Qed.

Lemma choice_log_float n s : 1 <= n <= B -> exists k s', choice_log FN64 rng n 1 s = Ok ([k], s') /\ 0 <= k < n.
Proof.
  intros Hn. unfold choice_log. destruct (1 <? n) eqn:E.
  - apply Z.ltb_lt in E. change (zrange 0 1) with [0]. cbn [mapG]. unfold bindG at 1 2, draw_unif. cbn [bind fst snd].
    destruct (unif_float s) as [Fu Hu]. destruct (r_unif rng s) as [u s1]. cbn [fst] in *.
    destruct (cdf_last n Hn) as (c & Hc & Fc & Ec).
    destruct (where_first (map (fun p => nleb FN64 u p) (log_cdf FN64 n)) (n - 1)) as (k & Hk & Rk & _).
    { rewrite nthZ_map, Hc. cbn [option_map]. f_equal. cbn [nleb FN]. apply fr_leb; [exact Fu|exact Fc|]. rewrite Ec. lra. }
    unfold liftG. rewrite Hk. cbn [bind fst snd]. unfold bindG, retG. cbn [bind fst snd]. exists k, s1. split; [reflexivity|lia].
  - apply Z.ltb_ge in E. exists 0, s. split; [reflexivity|lia].
Qed.

Lemma where_zlen bs : zlen (where_ bs) <= zlen bs.
Proof.
  replace bs with (map (fun b : bool => b) bs) at 1 by apply map_id. rewrite (where_sorted_filter false).
  pose proof (filter_zlen (fun i => nthd false bs i) (zrange 0 (zlen bs))) as H. rewrite zlen_zrange in H. pose proof (zlen_nonneg bs). lia.
Qed.

(** ** the dilations *)

Lemma fmax_in {F} (N : NumOps F) l m : fmax_list N l = Ok m -> In m l.
Proof.
  destruct l as [|x t]; [discriminate|]. cbn [fmax_list]. intros H. assert (E : fold_left (fun a b => if nltb N a b then b else a) t x = m) by congruence.
  clear H. revert x E. induction t as [|y t IH]; intros x E; cbn [fold_left] in E; [left; exact E|].
  apply IH in E. destruct (nltb N x y); [right; exact E|]. destruct E as [E|E]; [left; exact E|right; right; exact E].
Qed.

Lemma pow2_upper n_ts l : 2 <= l <= n_ts -> n_ts <= B -> 1 <= float_trunc (pow2 (upper_bound FN64 n_ts l)) <= dmax n_ts l.
Proof.
  intros Hl HnB. pose proof (dmax_pos n_ts l Hl) as H1. assert (H2 : dmax n_ts l <= B) by (unfold dmax in *; assert ((n_ts - 1) / (l - 1) <= n_ts - 1) by (apply Z.div_le_upper_bound; nia); lia).
  unfold upper_bound. cbn [nlog2 nofZ FN]. change ((n_ts - 1) / (l - 1)) with (dmax n_ts l). set (k := dmax n_ts l) in *.
  destruct (lm_log2 _ _ _ _ LM k ltac:(lia)) as [Fl Gl]. apply is_finite_prim in Fl.
  destruct (pow2_range k (log2 (float_ofZ k)) ltac:(lia) Gl) as [Fp [P1 P2]]; [apply fr_leb; [exact Fl|exact Fl|lra]|].
  rewrite fr_trunc by (try exact Fp; lra). split.
  - apply Zfloor_lub. exact P1.
  - assert (Zfloor (fr (pow2 (log2 (float_ofZ k)))) < k + 1); [|lia]. apply lt_IZR. apply Rle_lt_trans with (2 := P2). apply Zfloor_lb.
Qed.

Lemma uniform_dilation_float n_ts l s : 2 <= l <= n_ts -> n_ts <= B ->
  1 <= float_floor (pow2 (0 + (upper_bound FN64 n_ts l - 0) * fst (r_unif rng s)))%float <= dmax n_ts l.
Proof.
  intros Hl HnB. pose proof (dmax_pos n_ts l Hl) as H1. assert (H2 : dmax n_ts l <= B) by (unfold dmax in *; assert ((n_ts - 1) / (l - 1) <= n_ts - 1) by (apply Z.div_le_upper_bound; nia); lia).
  unfold upper_bound. cbn [nlog2 nofZ FN]. change ((n_ts - 1) / (l - 1)) with (dmax n_ts l). set (k := dmax n_ts l) in *.
  destruct (lm_log2 _ _ _ _ LM k ltac:(lia)) as [Fl Gl]. apply is_finite_prim in Fl. pose proof Gl as Gl'. apply fr_leb in Gl'; [|exact fin_0|exact Fl]. rewrite fr_0 in Gl'.
  destruct (unif_float s) as [Fu Hu]. set (u := fst (r_unif rng s)) in *. set (ub := log2 (float_ofZ k)) in *.
  assert (E0 : (fr ub - fr 0%float)%R = fr ub) by (rewrite fr_0; ring).
  destruct (fr_sub ub 0 Fl fin_0) as [F1 E1]; [apply (small_fr _ ub); rewrite E0; lra|]. rewrite E0, rnd_fr in E1.
  assert (H3 : (0 <= fr ub * fr u <= fr ub)%R) by (split; [apply Rmult_le_pos; lra|rewrite <- (Rmult_1_r (fr ub)) at 2; apply Rmult_le_compat_l; lra]).
  destruct (fr_mul (ub - 0) u F1 Fu) as [F2 E2]; [apply (small_fr _ ub); rewrite E1, !Rabs_pos_eq; lra|]. rewrite E1 in E2.
  assert (H4 : (0 <= rnd (fr ub * fr u) <= fr ub)%R) by (split; [apply rnd_nonneg; lra|apply rnd_le_fmt; [apply format_fr|lra]]).
  assert (E3 : (fr 0%float + fr ((ub - 0) * u)%float)%R = fr ((ub - 0) * u)%float) by (rewrite fr_0; ring).
  destruct (fr_add 0 ((ub - 0) * u) fin_0 F2) as [F4 E4]; [apply (small_fr _ ((ub - 0) * u)); rewrite E3; lra|]. rewrite E3, rnd_fr in E4.
  destruct (pow2_range k (0 + (ub - 0) * u)%float ltac:(lia)) as [Fp [P1 P2]].
  - apply fr_leb; [exact fin_0|exact F4|]. rewrite fr_0, E4, E2. lra.
  - apply fr_leb; [exact F4|exact Fl|]. fold ub. rewrite E4, E2. exact (proj2 H4).
  - rewrite fr_floor by exact Fp. split; [apply Zfloor_lub; exact P1|].
    assert (Zfloor (fr (pow2 (0 + (ub - 0) * u)%float)) < k + 1); [|lia]. apply lt_IZR. apply Rle_lt_trans with (2 := P2). apply Zfloor_lb.
Qed.

Theorem dilation_law_float n_ts : n_ts <= B -> dilation_law FN64 rng n_ts.
Proof.
  intros HnB n lengths prime_scheme s HL Hne. unfold draw_dilations. destruct prime_scheme.
  - specialize (Hne eq_refl). destruct (fmax_list FN64 (map (upper_bound FN64 n_ts) lengths)) as [mx|] eqn:Em; [|destruct lengths; [congruence|discriminate]].
    apply fmax_in in Em. apply in_map_iff in Em as (l0 & El0 & Hl0). rewrite (liftG_ok _ _ _ mx eq_refl).
    pose proof (pow2_upper n_ts l0 (HL l0 Hl0) HnB) as Ht. rewrite El0 in Ht. change (ntrunc FN64 (npow2 FN64 mx)) with (float_trunc (pow2 mx)). set (m := float_trunc (pow2 mx)) in *.
    assert (HmB : m <= n_ts - 1). { destruct (HL l0 Hl0). unfold dmax in Ht. assert ((n_ts - 1) / (l0 - 1) <= n_ts - 1) by (apply Z.div_le_upper_bound; nia). lia. }
    destruct (prime_up_to_spec RN R_sqrt_law m ltac:(lia)) as (ps & Ep & Hinc & Hps). rewrite <- prime_up_to_float in Ep by lia. rewrite (liftG_ok _ _ _ ps Ep).
    assert (Hlen : zlen ps <= m + 1).
    { unfold prime_up_to in Ep. apply bind_inv in Ep as ([] & _ & Ep). assert (Eq : ps = where_ (map (is_prime FN64) (zrange 0 (m + 1)))) by congruence. rewrite Eq.
      pose proof (where_zlen (map (is_prime FN64) (zrange 0 (m + 1)))) as Hz. rewrite zlen_map, zlen_zrange in Hz. lia. }
    destruct (mapG_total_Q (fun ub => let! c := choice_log FN64 rng (zlen (filter (fun p => p <=? ntrunc FN64 (npow2 FN64 ub)) ps)) 1 in
        let! k := liftG (get c 0) in liftG (get (filter (fun p => p <=? ntrunc FN64 (npow2 FN64 ub)) ps) k))
      (fun ub d => In d ps /\ d <= float_trunc (pow2 ub)) (map (upper_bound FN64 n_ts) lengths)) with (s := s) as (dils & s' & E & Q).
    + intros ub s0 Hub. apply in_map_iff in Hub as (l & <- & Hl). cbn [ntrunc npow2 FN]. pose proof (pow2_upper n_ts l (HL l Hl) HnB) as Hu.
      set (sp := filter _ ps).
      assert (H1 : In 1 sp). { apply filter_In. split; [apply Hps; split; [lia|left; reflexivity]|apply Z.leb_le; lia]. }
      pose proof (zlen_pos _ _ H1) as Hz1. pose proof (filter_zlen (fun p => p <=? float_trunc (pow2 (upper_bound FN64 n_ts l))) ps) as Hz2. fold sp in Hz2.
      destruct (choice_log_float (zlen sp) s0 ltac:(lia)) as (k & s1 & E1 & Hk).
      unfold bindG at 1. rewrite E1. cbn [bind fst snd]. rewrite (liftG_ok (get [k] 0) _ _ k eq_refl). destruct (get_ok sp k Hk) as (d & Hd1 & Hd2). exists d, s1. unfold liftG. rewrite Hd1.
      split; [reflexivity|]. apply nthZ_In in Hd2. apply filter_In in Hd2 as [Hd2 Hd3]. apply Z.leb_le in Hd3. auto.
    + exists dils, s'. split; [exact E|]. apply Forall2_map_l in Q. clear E Hl0 El0 Ht HmB Hne. revert HL Q. intros HL Q. induction Q as [|l d ls ds [Q1 Q2] Q IH]; constructor.
      * assert (Hl : 2 <= l <= n_ts) by (apply HL; left; reflexivity). pose proof (pow2_upper n_ts l Hl HnB) as Hu. apply Hps in Q1.
        split; [lia|]. split; [apply dmax_fits; lia|]. intros _. tauto.
      * apply IH. intros l' Hl'. apply HL. right. exact Hl'.
  - destruct (mapG_total_Q (fun ub => let! p := uniform FN64 rng (n0 FN64) ub in retG (nfloor FN64 (npow2 FN64 p)))
      (fun ub d => exists s0, d = float_floor (pow2 (0 + (ub - 0) * fst (r_unif rng s0)))%float) (map (upper_bound FN64 n_ts) lengths)) with (s := s) as (dils & s' & E & Q).
    + intros ub s0 _. unfold uniform, bindG, draw_unif, retG. cbn [bind fst snd]. eexists _, _. split; [reflexivity|]. exists s0. reflexivity.
    + exists dils, s'. split; [exact E|]. apply Forall2_map_l in Q. clear E Hne. revert HL Q. intros HL Q. induction Q as [|l d ls ds (s0 & ->) Q IH]; constructor.
      * assert (Hl : 2 <= l <= n_ts) by (apply HL; left; reflexivity). pose proof (uniform_dilation_float n_ts l s0 Hl HnB) as HD.
        split; [lia|]. split; [apply dmax_fits; lia|discriminate].
      * apply IH. intros l' Hl'. apply HL. right. exact Hl'.
Qed.

(** ** the percentiles *)

Lemma fsort_len {F} (N : NumOps F) l : zlen (fsort N l) = zlen l.
Proof.
  assert (HI : forall x l', zlen (finsert N x l') = 1 + zlen l').
  { intros x l'. induction l' as [|z t IH]; cbn [finsert]; [reflexivity|]. destruct (nleb N x z); rewrite ?zlen_cons in *; lia. }
  induction l as [|x t IH]; [reflexivity|]. unfold fsort in *. cbn [fold_right]. rewrite HI, zlen_cons. lia.
Qed.

(** a percentile argument for which numba's rank stays inside the array: 100, or at most 99.9 *)
Definition percentile_ok (q : float) : Prop :=
  PrimFloat.leb 0 q = true /\ (PrimFloat.eqb q 100 = true \/ PrimFloat.leb q 0x1.8f9999999999ap+6 = true).

Lemma percentile1_float (a : list float) q : 0 < zlen a <= 2 ^ 40 -> percentile_ok q -> exists v, percentile1 FN64 a q = Ok v.
Proof.
  intros Ha [H0 H1]. unfold percentile1. pose proof (fsort_len FN64 a) as HS.
  assert (G : forall i, 0 <= i < zlen a -> exists v, get (fsort FN64 a) i = Ok v) by (intros i Hi; destruct (get_ok (fsort FN64 a) i ltac:(lia)) as (v & E & _); eauto).
  destruct (Z.eqb_spec (zlen a) 1) as [E1|E1]; [destruct (get_ok a 0 ltac:(lia)) as (v & E & _); eauto|].
  cbn [neqb nofZ n0 n1 nadd nmul ndiv nsub nfloor FN]. change (float_ofZ 100) with 100%float.
  destruct (PrimFloat.eqb q 100) eqn:E2; [apply G; lia|]. destruct (PrimFloat.eqb q 0) eqn:E3; [apply G; lia|].
  destruct H1 as [H1|H1]; [discriminate|].
  assert (Fc : fin 0x1.8f9999999999ap+6%float) by exact I.
  assert (Ec : (fr 0x1.8f9999999999ap+6 <= 99901 / 1000)%R).
  { rewrite fr_SF. unfold SF2R. cbn. unfold F2R. cbn. lra. }
  assert (Fq : fin q) by (apply (fin_between 0 q 0x1.8f9999999999ap+6); [exact H0|exact H1|exact fin_0|exact Fc]).
  apply fr_leb in H0; [|exact fin_0|exact Fq]. apply fr_leb in H1; [|exact Fq|exact Fc]. rewrite fr_0 in H0.
  destruct (fr_ofZ 100 ltac:(lia)) as [Fh Eh]. change (float_ofZ 100) with 100%float in *.
  set (n := zlen a) in *. destruct (fr_ofZ (n - 1) ltac:(lia)) as [Fn En].
  assert (Hn : (1 <= IZR (n - 1))%R) by (apply IZR_le; lia).
  destruct (fr_div q 100 Fq) as [Fx Ex]; [rewrite Eh; lra|apply (small_Z _ 1); [lia|rewrite Eh, Rabs_pos_eq; lra]|]. rewrite Eh in Ex.
  set (c := (2047 * bpow radix2 (-11))%R). assert (Hc : c = (2047 / 2048)%R) by (unfold c; change (bpow radix2 (-11)) with (/ IZR 2048)%R; lra).
  assert (Hx : (0 <= fr (q / 100)%float <= 2047 / 2048)%R).
  { rewrite Ex. split; [apply rnd_nonneg; lra|]. rewrite <- Hc. apply rnd_le_fmt; [apply (format_dyadic 2047); lia|rewrite Hc; lra]. }
  set (x := (q / 100)%float) in *.
  assert (Hy0 : (0 <= IZR (n - 1) * fr x <= IZR (n - 1) * (2047 / 2048))%R) by nra.
  destruct (fr_mul (float_ofZ (n - 1)) x Fn Fx) as [Fy Ey]; [apply (small_Z _ (n - 1)); [lia|rewrite En, Rabs_pos_eq; lra]|]. rewrite En in Ey.
  set (y := (float_ofZ (n - 1) * x)%float) in *.
  assert (Hy : (0 <= fr y <= IZR (n - 1) * (2047 / 2048))%R).
  { rewrite Ey. split; [apply rnd_nonneg; lra|]. apply rnd_le_fmt; [|lra].
    replace (IZR (n - 1) * (2047 / 2048))%R with (IZR ((n - 1) * 2047) * bpow radix2 (-11))%R by (rewrite mult_IZR; change (bpow radix2 (-11)) with (/ IZR 2048)%R; lra).
    apply format_dyadic; lia. }
  destruct (fr_add 1 y fin_1 Fy) as [Fr Er]; [apply (small_Z _ n); [lia|rewrite fr_1, Rabs_pos_eq by lra; rewrite minus_IZR in *; lra]|]. rewrite fr_1 in Er.
  set (r := (1 + y)%float) in *.
  assert (Hr : (1 <= fr r <= IZR n - IZR (n - 1) / 2048)%R).
  { rewrite Er. split; [apply rnd_ge_Z; [lia|lra]|]. apply rnd_le_fmt; [|rewrite minus_IZR in *; lra].
    replace (IZR n - IZR (n - 1) / 2048)%R with (IZR (2048 * n - (n - 1)) * bpow radix2 (-11))%R by (rewrite !minus_IZR, mult_IZR; change (bpow radix2 (-11)) with (/ IZR 2048)%R; lra).
    apply format_dyadic; lia. }
  assert (Hf : 1 <= float_floor r <= n - 1).
  { rewrite fr_floor by exact Fr. split; [apply Zfloor_lub; lra|]. assert (Zfloor (fr r) < n); [|lia]. apply lt_IZR. pose proof (Zfloor_lb (fr r)). lra. }
  destruct (G (float_floor r - 1) ltac:(lia)) as (lo & El). destruct (G (float_floor r) ltac:(lia)) as (up & Eu).
  rewrite El, Eu. cbn [bind]. eauto.
Qed.

Lemma percentiles_float (a : list float) q1 q2 : zlen a <= 2 ^ 40 -> percentile_ok q1 -> percentile_ok q2 -> exists p, percentiles FN64 a q1 q2 = Ok p.
Proof.
  intros Ha H1 H2. unfold percentiles.
  assert (HI : forall q, percentile_ok q -> nleb FN64 (n0 FN64) q && nleb FN64 q (nofZ FN64 100) = true).
  { intros q [A C]. cbn [nleb n0 nofZ FN]. rewrite A. cbn [andb]. change (float_ofZ 100) with 100%float. destruct C as [C|C].
    - revert C. rewrite leb_spec, eqb_spec. unfold SFleb, SFeqb. destruct (SFcompare _ _) as [[]|]; auto; discriminate.
    - assert (Fq : fin q) by (apply (fin_between 0 q 0x1.8f9999999999ap+6); [exact A|exact C|exact I|exact I]).
      apply fr_leb; [exact Fq|exact I|]. apply fr_leb in C; [|exact Fq|exact I]. apply Rle_trans with (1 := C). apply fr_leb; [exact I|exact I|]. reflexivity. }
  rewrite (HI q1 H1), (HI q2 H2). cbn [guard andb bind]. pose proof (zlen_nonneg a). destruct (Z.eqb_spec (zlen a) 0) as [E|E]; [eauto|].
  destruct (percentile1_float a q1 ltac:(lia) H1) as (p1 & E1). destruct (percentile1_float a q2 ltac:(lia) H2) as (p2 & E2). rewrite E1, E2. cbn [bind]. eauto.
Qed.
End F64.
