(** Property C28, continued: how much two shapelets of the same series can overlap when the windows wrap around
    (phase_invariance=True) and when the requested lengths differ. *)
From Coq Require Import ZArith Znumtheory List Bool Reals Lra Lia Permutation.
From Coq Require Import Floats.
From Verif Require Import Prelude Num Kernel Spec KernelProofs RealBase Apply ApplyUni TransformProofs TransformLaws RealProofs SampleLaws Gen GenSched GenBase
  GenDraw GenSpec GenUFinal GenUTop GenULaws GenUCase PropsGenU.
Import ListNotations.
Open Scope Z_scope.

(** the points of a window of [l] points at dilation [d] that starts at [t] on a series of [n] points read as a circle *)
Definition circle_point (n t l d p : Z) : Prop := exists a, 0 <= a < l /\ p = (t + a * d) mod n.

Lemma shared_circle n t t' l d B : 1 <= d -> 1 <= B -> 0 <= t' < n -> (l - 1) * d <= n - 1 ->
  (forall j, 0 <= j < l - B -> t' <> (t - j * d) mod n /\ t' <> (t + j * d) mod n) ->
  forall ps, NoDup ps -> (forall p, In p ps -> circle_point n t l d p /\ circle_point n t' l d p) -> zlen ps <= 2 * B.
Proof.
  intros Hd HB Ht' Hl HJ ps HND HP.
  set (L := fun m => map (fun a => (t + a * d) mod n) (zrange (Z.max 0 m) (Z.min l (l + m)))).
  set (good := fun m => exists q, t + m * d - t' = n * q /\ - l < m < l).
  assert (HIN : forall p, In p ps -> exists m, good m /\ In p (L m)).
  { intros p Hp. destruct (HP p Hp) as ((a & Ha & Ea) & (b & Hb & Eb)). exists (a - b). split.
    - exists ((t + a * d) / n - (t' + b * d) / n). split; [|lia]. pose proof (Z.div_mod (t + a * d) n ltac:(lia)) as D1. pose proof (Z.div_mod (t' + b * d) n ltac:(lia)) as D2.
      rewrite <- Ea in D1. rewrite <- Eb in D2. rewrite Z.mul_sub_distr_l, Z.mul_sub_distr_r. lia.
    - apply in_map_iff. exists a. split; [symmetry; exact Ea|]. apply in_zrange. lia. }
  assert (HLEN : forall m, good m -> zlen (L m) <= B).
  { intros m (q & Hq & Hm). unfold L. rewrite zlen_map, zlen_zrange. assert (l - Z.abs m <= B); [|lia].
    destruct (Z_lt_le_dec B (l - Z.abs m)) as [C|C]; [|lia]. exfalso. destruct (HJ (Z.abs m) ltac:(lia)) as [N1 N2]. destruct (Z_le_gt_dec 0 m).
    - apply N2. rewrite Z.abs_eq by lia. apply (Z.mod_unique _ _ q); lia.
    - apply N1. rewrite Z.abs_neq by lia. apply (Z.mod_unique _ _ q); [left; exact Ht'|]. replace (- m * d) with (- (m * d)) by ring. lia. }
  assert (HD : forall m m', good m -> good m' -> m <> m' -> (m - m') * d = n \/ (m - m') * d = - n).
  { intros m m' (q & Hq & Hm) (q' & Hq' & Hm') Hne. assert (E : (m - m') * d = n * (q - q')) by (rewrite Z.mul_sub_distr_l, Z.mul_sub_distr_r; lia).
    assert (U : (m - m') * d <= 2 * (l - 1) * d) by (apply Z.mul_le_mono_nonneg_r; lia).
    assert (V : - (2 * (l - 1)) * d <= (m - m') * d) by (apply Z.mul_le_mono_nonneg_r; lia).
    assert (NZ : (m - m') * d <> 0) by (intros K; apply Z.mul_eq_0 in K; lia).
    rewrite <- Z.mul_assoc in U. replace (- (2 * (l - 1)) * d) with (- (2 * ((l - 1) * d))) in V by ring.
    assert (- 2 < q - q' < 2) by nia. assert (q - q' <> 0) by (intros K; rewrite K in E; lia).
    assert (q - q' = 1 \/ q - q' = -1) as [K|K] by lia; rewrite K in E; lia. }
  destruct ps as [|p0 rest] eqn:Eps; [change (zlen (@nil Z)) with 0; lia|]. rewrite <- Eps in *.
  destruct (HIN p0 ltac:(rewrite Eps; left; reflexivity)) as (m0 & G0 & _). pose proof (HLEN m0 G0) as L0.
  assert (INCL : forall (A : list Z), incl ps A -> zlen ps <= zlen A) by (intros A HA; apply NoDup_incl_length in HA; [unfold zlen; lia|exact HND]).
  destruct (Forall_Exists_dec (fun p => In p (L m0)) (fun p => in_dec Z.eq_dec p (L m0)) ps) as [HA|HE].
  - rewrite Forall_forall in HA. specialize (INCL _ HA). lia.
  - apply Exists_exists in HE as (p1 & Hp1 & N1). destruct (HIN p1 Hp1) as (m1 & G1 & I1). assert (NE : m1 <> m0) by (intros ->; contradiction). pose proof (HLEN m1 G1) as L1.
    assert (HA : incl ps (L m0 ++ L m1)).
    { intros p Hp. destruct (HIN p Hp) as (m & G & I). apply in_or_app. destruct (Z.eq_dec m m0) as [->|NE0]; [left; exact I|]. destruct (Z.eq_dec m m1) as [->|NE1]; [right; exact I|].
      exfalso. pose proof (HD m m0 G G0 NE0) as X. pose proof (HD m m1 G G1 NE1) as Y. pose proof (HD m1 m0 G1 G0 NE) as Z. rewrite Z.mul_sub_distr_r in X, Y, Z. lia. }
    specialize (INCL _ HA). rewrite zlen_app in INCL. lia.
Qed.

(** With phase_invariance the windows wrap around: two shapelets of the same series, length, dilation and normalisation share at
    most twice the fraction [1 - alpha] of their points (they can meet on both sides). *)
Theorem C28_phase_overlap : forall S (rng : Rng R S) c P T,
  RngLaws RN rng -> tr_ok c -> lengths_ok P (tr_points c) -> fitted RN rng P c T -> g_phase P = true -> (0 <= g_alpha P <= 1)%R ->
  exists src, sources P c T src /\
    forall k k' v v' l d thr thr' nm s t t', k <> k' -> ushp_at T k v l d thr nm -> ushp_at T k' v' l d thr' nm ->
      nthZ src k = Some (s, t) -> nthZ src k' = Some (s, t') ->
      forall ps, NoDup ps -> (forall p, In p ps -> circle_point (zlen (tr_series c s)) t l d p /\ circle_point (zlen (tr_series c s)) t' l d p) ->
        (IZR (zlen ps) <= 2 * Rmax 1 ((1 - g_alpha P) * IZR l))%R.
Proof.
  intros S rng c P T L HO HL HF Hph Ha. destruct (C28_starts_kept_apart S rng c P T L HO HL HF) as (src & ml & A & B & D). exists src. split; [exact A|].
  assert (W : forall k k' v v' l d thr thr' nm s t t', k < k' -> ushp_at T k v l d thr nm -> ushp_at T k' v' l d thr' nm ->
      nthZ src k = Some (s, t) -> nthZ src k' = Some (s, t') ->
      forall ps, NoDup ps -> (forall p, In p ps -> circle_point (zlen (tr_series c s)) t l d p /\ circle_point (zlen (tr_series c s)) t' l d p) ->
        (IZR (zlen ps) <= 2 * Rmax 1 ((1 - g_alpha P) * IZR l))%R).
  { intros k k' v v' l d thr thr' nm s t t' Hk HK HK' Hs Hs' ps ND HP. destruct (D k k' v v' l l d thr thr' nm s t t' Hk HK HK' Hs Hs') as [E _].
    destruct A as [_ A]. destruct (A _ _ _ _ _ _ _ _ HK' Hs') as (Hr & Ht' & _). rewrite Hph in Ht'. unfold nwin in Ht'.
    destruct (fitted_origin rng L P c T k' v' l d thr' nm HO HL HF HK') as (Hl & (D1 & D2 & _) & _). pose proof (tr_series_len c s HO Hr).
    set (b := Z.max 1 (Rfloor ((1 - g_alpha P) * IZR (ml d)))) in *.
    assert (Hn : zlen ps <= 2 * b) by (apply (shared_circle (zlen (tr_series c s)) t t' l d b); [lia|unfold b; lia|lia|lia|exact E|exact ND|exact HP]).
    apply IZR_le in Hn. rewrite mult_IZR in Hn. eapply Rle_trans; [exact Hn|]. apply Rmult_le_compat_l; [lra|].
    destruct (B _ _ _ _ _ _ HK) as [_ Hml]. apply IZR_le in Hml. unfold b.
    destruct (Z.max_spec 1 (Rfloor ((1 - g_alpha P) * IZR (ml d)))) as [[_ ->]|[_ ->]]; [|apply Rmax_l].
    eapply Rle_trans; [|apply Rmax_r]. pose proof (Rfloor_spec ((1 - g_alpha P) * IZR (ml d))) as [F _]. nra. }
  intros k k' v v' l d thr thr' nm s t t' Hk HK HK' Hs Hs' ps ND HP. destruct (Z_lt_le_dec k k').
  - exact (W k k' v v' l d thr thr' nm s t t' l0 HK HK' Hs Hs' ps ND HP).
  - apply (W k' k v' v l d thr' thr nm s t' t ltac:(lia) HK' HK Hs' Hs ps ND). intros p Hp. destruct (HP p Hp). auto.
Qed.
Print Assumptions C28_phase_overlap.

(** alpha = 1, phase invariance, length 5, one series of 8 points, 3 requests: the starts are 3 and 7, which share the points 3
    and 7; no start is left for the third. *)
Example C28_phase_case : U_SL_generate ZN zrng [[[1; 2; 4; 8; 3; 6; 5; 7]]] [0] (mkG 3 [5] 1 0 0 100 1 true false)
  = Ok (mkUshp [[8; 3; 6; 5; 7]; [7; 1; 2; 4; 8]] [5; 5] [1; 1] [0; 0] [false; false]).
Proof. vm_compute. reflexivity. Qed.

(** The draws of the parameters of two requests on one series, in binary64. *)
Lemma U_init_two log2 log pow2 sizes a b n seed : log2 1%float = 0%float -> pow2 0%float = 1%float ->
  choice_n frng sizes 2 seed = Ok ([a; b], seed + 2) -> (n - 1) / (a - 1) = 1 -> (n - 1) / (b - 1) = 1 ->
  forall w row, max_list sizes = Ok w -> full w 0%float = Ok row ->
  U_init (FN log2 log pow2) frng 2 sizes n 0%float false seed = Ok ([row; row], mkDrawn [a; b] [1; 1] [false; false], [0; 0]%float, seed + 2 + 1 + 1 + 1 + 1).
Proof.
  intros H1 H2 E1 Ha Hb w row Ew Er. unfold U_init. unfold bindG at 1. rewrite E1. cbn [bind fst snd].
  assert (E2 : draw_dilations (FN log2 log pow2) frng 2 n [a; b] false (seed + 2) = Ok ([1; 1], seed + 2 + 1 + 1)).
  { unfold draw_dilations, upper_bound. cbn [map mapG]. rewrite Ha, Hb. unfold bindG, uniform, bindG, draw_unif, retG. cbn [bind fst snd r_unif frng nlog2 nofZ nsub nadd nmul n0 npow2 nfloor FN].
    replace (float_ofZ 1) with 1%float by (vm_compute; reflexivity). rewrite H1.
    replace (0 + (0 - 0) * 0.25)%float with 0%float by (vm_compute; reflexivity). rewrite H2. reflexivity. }
  unfold bindG at 1. rewrite E2. cbn [bind fst snd]. change (n0 (FN log2 log pow2)) with 0%float. change (full 2 0%float) with (Ok [0; 0]%float).
  unfold bindG at 1, liftG at 1. cbn [bind fst snd]. unfold bindG at 1, liftG at 1. rewrite Ew. cbn [bind fst snd]. unfold bindG at 1, liftG at 1. rewrite Er. cbn [bind fst snd].
  reflexivity.
Qed.

(** The bound without the factor two fails: two shapelets of 6 points of a series of 8 points, with alpha = 1/2 and phase
    invariance, share 4 points, with the values 10, 11, 14 and 15. *)
Theorem C28_phase_overlap_refuted : forall log2 log pow2, log2 1%float = 0%float -> pow2 0%float = 1%float ->
  exists seed T, U_SL_generate (FN log2 log pow2) frng [[[10; 11; 12; 13; 14; 15; 16; 17]]]%float [0] (mkG 2 [6] seed 0%float 0%float 100%float 0.5%float true false) = Ok T /\
    us_len T = [6; 6] /\ us_dil T = [1; 1] /\ us_norm T = [false; false] /\
    us_values T = [[10; 11; 12; 13; 14; 15]; [14; 15; 16; 17; 10; 11]]%float.
Proof.
  intros log2 log pow2 H1 H2. exists 9.
  unfold U_SL_generate, U_SL_generate_with. cbn [g_n g_sizes g_pnorm g_prime g_seed r_seed frng]. change (n_timestamps [[[10; 11; 12; 13; 14; 15; 16; 17]]]%float) with 8.
  rewrite (U_init_two log2 log pow2 [6] 6 6 8 9 H1 H2 eq_refl eq_refl eq_refl 6 _ eq_refl eq_refl). cbn [bind].
  eexists. split; [vm_compute; reflexivity|]. cbn. auto.
Qed.
Print Assumptions C28_phase_overlap_refuted.

(** Between shapelets of different lengths alpha gives no bound: with alpha = 1/2 and lengths 4 and 6 the shorter shapelet can
    lie inside the longer one, all its points being shared.  (The mask excludes starts near the start of the first
    shapelet, and the longer one starts well before it.) *)
Theorem C28_mixed_lengths_refuted : forall log2 log pow2, log2 1%float = 0%float -> pow2 0%float = 1%float ->
  exists seed T, U_SL_generate (FN log2 log pow2) frng [[[10; 11; 12; 13; 14; 15]]]%float [0] (mkG 2 [4; 6] seed 0%float 0%float 100%float 0.5%float false false) = Ok T /\
    us_len T = [4; 6] /\ us_dil T = [1; 1] /\ us_norm T = [false; false] /\
    us_values T = [[12; 13; 14; 15; 0; 0]; [10; 11; 12; 13; 14; 15]]%float.
Proof.
  intros log2 log pow2 H1 H2. exists 10.
  unfold U_SL_generate, U_SL_generate_with. cbn [g_n g_sizes g_pnorm g_prime g_seed r_seed frng]. change (n_timestamps [[[10; 11; 12; 13; 14; 15]]]%float) with 6.
  rewrite (U_init_two log2 log pow2 [4; 6] 4 6 6 10 H1 H2 eq_refl eq_refl eq_refl 6 _ eq_refl eq_refl). cbn [bind].
  eexists. split; [vm_compute; reflexivity|]. cbn. auto.
Qed.
Print Assumptions C28_mixed_lengths_refuted.
