(** Property C85: normalised shapelets in binary64. *)
From Coq Require Import ZArith List Bool Reals Lra Lia Floats.
From Verif Require Import Prelude Num Kernel Spec KernelProofs RealBase RealProofs Parallel Apply ApplyProofs ApplyUni ApplyMulti TransformProofs TransformLaws SampleLaws
  Gen GenSched GenBase GenUni GenDraw GenSpec GenUTop GenULaws GenUCase GenMTop GenMLaws Checks ChecksProofs Estimator EstimatorNum EstimatorLaws EstimatorCases
  GenAny FloatLaws FloatReal FitFloat FitAny FitAnyTop Libm FloatError FloatNorm PropsFloat PropsFit64 PropsAccuracy.
Import ListNotations.
Open Scope Z_scope.

(** A finite number of absolute value at most [B]. *)
Definition within (B : R) (x : float) : Prop := finite x /\ (Rabs (fr x) <= B)%R.
(** the bounds considered *)
Definition usual (B : R) : Prop := (/ 2 ^ 400 <= B <= 2 ^ 400)%R.

(** The largest error of a z-score in a window of [l] values of at most [B], whose real deviation is [sd]. *)
Definition z_error (l : Z) (B sd : R) : R := (100 * IZR l ^ 2 * / 2 ^ 53 * B / (sd + / 10 ^ 8))%R.

Lemma within_fin B x : within B x -> fin x /\ (Rabs (fr x) <= B)%R.
Proof. intros [A H]. split; [apply is_finite_prim; exact A|exact H]. Qed.
Lemma usual_level B : usual B -> (level (-400) <= B <= level 400)%R.
Proof.
  intros [A H]. assert (E : (2 ^ 400)%R = level 400) by (unfold level; rewrite (pow_IZR 2 400), <- (Raux.IZR_Zpower Zaux.radix2 400) by lia; reflexivity).
  rewrite E in *. split; [|exact H]. replace (level (-400)) with (/ level 400)%R; [exact A|]. unfold level. symmetry. apply (Raux.bpow_opp Zaux.radix2 400).
Qed.
Lemma z_error_eq l B sd : z_error l B sd = window_err B l sd.
Proof. unfold z_error, window_err. rewrite u64_value. cbn [neps RN]. replace (10 ^ 8)%R with 100000000%R by ring. unfold Rdiv. ring. Qed.

(** ** z-scores *)

(** The z-scores of a window computed in binary64 are finite, at most 2 l, and close to those computed with real numbers. *)
Theorem C85_zscore : forall log2 log pow2 B w j x, let N := FN log2 log pow2 in let l := zlen w in
  usual B -> (forall a, In a w -> within B a) -> l <= 2 ^ 40 -> nthZ (zscore N w) j = Some x ->
  finite x /\ (Rabs (fr x) <= 2 * IZR l)%R /\
  exists z, nthZ (zscore RN (map fr w)) j = Some z /\ (Rabs (fr x - z) <= z_error l B (sdev RN (map fr w)))%R.
Proof.
  intros log2 log pow2 B w j x N l HB Hw Hl H. assert (L1 : 1 <= zlen w) by (pose proof (nthZ_range _ _ _ H) as Q; unfold zscore in Q; rewrite zlen_map in Q; lia).
  destruct (zscore_error log2 log pow2 B w (usual_level B HB) (fun a Ha => within_fin B a (Hw a Ha)) ltac:(unfold l in Hl; lia) j x H) as (F & A & z & Ez & Hz).
  split; [apply is_finite_prim; exact F|]. split; [exact A|]. exists z. split; [exact Ez|]. rewrite z_error_eq. exact Hz.
Qed.
Print Assumptions C85_zscore.

(** ** Distances *)

(** What the errors of the z-scores add to a distance of a shapelet of [channels] channels. *)
Definition tolerance (channels l : Z) (B sd : R) : R := (IZR channels * (IZR l * z_error l B sd))%R.

(** If the windows seen have a deviation of at least [sd], the distance is within 1 + l + channels roundings and [tolerance]
    of the real distance. *)
Theorem C85_distances : forall log2 log pow2 ph n X chs vs l d i x B sd, let N := FN log2 log pow2 in
  usual B -> (forall r a, In r X -> In a r -> within B a) -> (forall r a, In r vs -> In a r -> moderate a) -> 1 <= l <= 2 ^ 40 -> l * zlen chs <= 2 ^ 53 ->
  (0 <= sd)%R -> (forall ch, In ch chs -> (sd <= sdev RN (window RN ph (nthd [] (map (map fr) X) ch) l d i))%R) ->
  nthZ (mdistances N ph true n X chs vs l d) i = Some x ->
  exists r, nthZ (mdistances RN ph true n (map (map fr) X) chs (map (map fr) vs) l d) i = Some r /\ finite x /\
    let e := Z.to_nat (1 + l + zlen chs) in let tol := tolerance (zlen chs) l B sd in (lo e * (r - tol) <= fr x <= up e * (r + tol))%R.
Proof.
  intros log2 log pow2 ph n X chs vs l d i x B sd N HB HX Hv Hl HM Hs HS H.
  destruct (ndistances_near log2 log pow2 B (usual_level B HB) ph n X chs vs l d i x sd (fun r a Hr Ha => within_fin B a (HX r a Hr Ha)) (fun r a Hr Ha => moderate_bounded a (Hv r a Hr Ha)) Hl HM Hs HS H) as (r & r' & E & (F & R0 & B1 & B2) & T & _).
  exists r. split; [exact E|]. split; [apply is_finite_prim; exact F|]. cbv zeta. rewrite lo_u, up_u. unfold tolerance. rewrite z_error_eq. apply Raux.Rabs_le_inv in T.
  pose proof (pow_low_pos (Z.to_nat (1 + l + zlen chs))) as P1. pose proof (pow_up_mono 0 (Z.to_nat (1 + l + zlen chs)) ltac:(lia)) as P2. cbn [pow] in P2.
  split; [apply Rle_trans with (2 := B1); apply Rmult_le_compat_l; lra|apply Rle_trans with (1 := B2); apply Rmult_le_compat_l; lra].
Qed.
Print Assumptions C85_distances.

(** ** Features *)

(** The three features [f] against the real distances [D] and the real threshold [t], after [e] roundings, for distances
    known up to [tol]. *)
Definition approximate_within (e : nat) (tol : R) (D : list R) (t : R) (f : float * float * float) : Prop :=
  let '(m, a, c) := f in exists r k rk count,
    (In r D /\ forall x, In x D -> (r <= x)%R) /\ finite m /\ (lo e * (r - tol) <= fr m <= up e * (r + tol))%R /\
    a = float_ofZ k /\ nthZ D k = Some rk /\ (lo e * (rk - tol) <= up e * (r + tol))%R /\
    c = float_ofZ count /\ zlen (filter (fun x => Rleb (up e * (x + tol)) t) D) <= count <= zlen (filter (fun x => Rleb (lo e * (x - tol)) t) D).

Lemma features_within log2 log pow2 e tol ds D thr f : zlen ds = zlen D -> ds <> [] ->
  (forall i x, nthZ ds i = Some x -> exists r, nthZ D i = Some r /\ finite x /\ (lo e * (r - tol) <= fr x <= up e * (r + tol))%R) -> fin thr ->
  is_features (FN log2 log pow2) ds thr f -> approximate_within e tol D (fr thr) f.
Proof.
  intros HL HN HD Ft HF. destruct f as [[m a] c]. destruct HF as [(E & _)|(k & Hk & Ha & Hmin & _ & Hc)]; [congruence|].
  assert (ND : D <> []) by (intros ->; change (zlen (@nil R)) with 0 in HL; destruct ds; [congruence|rewrite zlen_cons in HL; pose proof (zlen_nonneg ds); lia]).
  destruct (least_exists D ND) as (r & Ir & Hr). destruct (HD k m Hk) as (rk & Ek & Fm & B1 & B2). apply is_finite_prim in Fm as Fm'.
  apply In_nthZ in Ir as Ir'. destruct Ir' as (i0 & Ei0). pose proof (nthZ_range _ _ _ Ei0) as R. rewrite <- HL in R.
  destruct (nthZ_some ds i0 R) as (x0 & Ex0). destruct (HD i0 x0 Ex0) as (r' & Er' & Fx0 & _ & B3). assert (r' = r) by congruence. subst r'. apply is_finite_prim in Fx0.
  specialize (Hmin i0 x0 Ex0). cbn [nleb FN] in Hmin. apply fr_leb in Hmin; [|exact Fm'|exact Fx0].
  assert (r <= rk)%R by (apply Hr; apply (nthZ_In _ _ _ Ek)). assert (PL : (0 < lo e)%R) by (rewrite lo_u; apply pow_low_pos).
  exists r, k, rk, (zlen (filter (fun x => nleb (FN log2 log pow2) x thr) ds)).
  split; [auto|]. split; [exact Fm|]. split; [split; [|lra]; apply Rle_trans with (2 := B1); apply Rmult_le_compat_l; lra|].
  split; [exact Ha|]. split; [exact Ek|]. split; [lra|]. split; [exact Hc|]. cbn [nleb FN]. split.
  - apply (filter_below (fun r x => finite x /\ (lo e * (r - tol) <= fr x <= up e * (r + tol))%R)); [auto| |].
    + intros i x Hx. pose proof (nthZ_range _ _ _ Hx) as R'. rewrite <- HL in R'. destruct (nthZ_some ds i R') as (y & Ey). destruct (HD i y Ey) as (q & Eq & Hq). assert (q = x) by congruence. subst q. eauto.
    + intros x y (Fy & _ & By) Hx. apply Rleb_true in Hx. apply is_finite_prim in Fy. apply fr_leb; [exact Fy|exact Ft|lra].
  - apply (filter_below (fun x r => finite x /\ (lo e * (r - tol) <= fr x <= up e * (r + tol))%R)); [exact HL|exact HD|]. intros x y (Fx & By & _) Hx. apply is_finite_prim in Fx. apply Rleb_true. apply fr_leb in Hx; [lra|exact Fx|exact Ft].
Qed.

(** the distances of a normalised shapelet give its three features *)
Lemma norm_feats log2 log pow2 B ph n X chs vs l d thr : usual B -> 1 <= l <= 2 ^ 40 -> (forall r a, In r X -> In a r -> within B a) -> (forall r a, In r vs -> In a r -> finite a) ->
  let D := mdistances (FN log2 log pow2) ph true n X chs vs l d in is_features (FN log2 log pow2) D thr (feats (FN log2 log pow2) D thr).
Proof.
  intros HB Hl HX Hv D. apply (feats_spec (FN log2 log pow2) is_number); [apply float_ord_laws|]. intros y Hy.
  assert (P : fpos y) by (apply (ndistances_number log2 log pow2 B (usual_level B HB) ph n X chs vs l d y Hl (fun r a Hr Ha => within_fin B a (HX r a Hr Ha)) (fun r a Hr Ha => proj2 (is_finite_prim a) (Hv r a Hr Ha)) Hy)).
  apply fpos_nonneg in P. split; [apply fnonneg_number; exact P|apply fnonneg_iff; exact P].
Qed.

(** What transform returns for a series [x] and a normalised shapelet: the smallest distance, its first position and the
    number of distances at most the threshold, none of them NaN; and how far they are from the real ones. *)
Theorem C85_features : forall log2 log pow2 (c : call float) ph T i k x n chs vs l d thr B sd, let N := FN log2 log pow2 in
  wf_call c -> run N c ph = Ok T -> sample_at c i x -> (forall r, In r x -> zlen r = n) -> shapelet_at c k chs vs l d thr true ->
  usual B -> (forall r a, In r x -> In a r -> within B a) -> (forall r a, In r vs -> In a r -> moderate a) -> finite thr ->
  1 <= l <= 2 ^ 40 -> l * zlen chs <= 2 ^ 53 -> 1 <= nwin ph n l d -> (0 <= sd)%R ->
  (forall ch j, In ch chs -> 0 <= j < nwin ph n l d -> (sd <= sdev RN (window RN ph (nthd [] (map (map fr) x) ch) l d j))%R) ->
  exists f, cell3 T i k f /\ is_features N (mdistances N ph true n x chs vs l d) thr f /\
    approximate_within (Z.to_nat (1 + l + zlen chs)) (tolerance (zlen chs) l B sd) (mdistances RN ph true n (map (map fr) x) chs (map (map fr) vs) l d) (fr thr) f.
Proof.
  intros log2 log pow2 c ph T i k x n chs vs l d thr B sd N HW HT HS Hn HK HB HX Hv Ht Hl HM Hw Hsd HSD.
  assert (HD : dist_of N ph c i k (mdistances N ph true n x chs vs l d) thr).
  { clear HT HSD. destruct HS as [X s i x sr H1 H2|X X_len s i sr H|nf n' X s L i x H|nf n' X X_len s L i ni x H]; inversion HK; subst;
      try match goal with HM : mshp_at _ _ _ _ _ _ _ _ _ |- _ => rename HM into HMS | HM : ushp_at _ _ _ _ _ _ _ |- _ => rename HM into HMS end.
    - rewrite <- (Hn sr) by (left; reflexivity). unfold N. rewrite <- (ndistances_mdistances log2 log pow2 B (usual_level B HB)); [eapply dist_US; eauto|exact Hl| |]; intros a Ha; [apply within_fin; apply (HX sr a); [left; reflexivity|exact Ha]|].
      apply is_finite_prim. apply (Hv v a); [left; reflexivity|exact Ha].
    - rewrite <- (Hn sr) by (left; reflexivity). unfold N. rewrite <- (ndistances_mdistances log2 log pow2 B (usual_level B HB)); [eapply dist_UV; [exact H|eassumption]|exact Hl| |]; intros a Ha; [apply within_fin; apply (HX sr a); [left; reflexivity|exact Ha]|].
      apply is_finite_prim. apply (Hv v a); [left; reflexivity|exact Ha].
    - cbn in HW. destruct HW as ((M1 & M2 & M3) & _). destruct (M3 x (nthZ_In _ _ _ H)) as [E HR].
      assert (n = n').
      { destruct x as [|r t]; [change (zlen (@nil (list float))) with 0 in E; lia|]. rewrite <- (Hn r), <- (HR r); auto; left; reflexivity. }
      subst n'. eapply dist_MS; eauto.
    - cbn in HW. destruct HW as (HXX & HV & _). pose proof H as H'. apply mreal_points_ser in H' as (E1 & E2 & Hi).
      destruct (mser_vl_at nf n' X X_len i HXX HV Hi) as (_ & A & B0 & C & D). rewrite E1, E2 in *.
      assert (Hnn : n = ni). { destruct x as [|r t]; [congruence|]. rewrite <- (Hn r), <- (B0 r); auto; left; reflexivity. }
      rewrite Hnn. eapply dist_MV; [exact H|eassumption]. }
  pose proof (norm_feats log2 log pow2 B ph n x chs vs l d thr HB Hl HX (fun r a Hr Ha => proj1 (Hv r a Hr Ha))) as HF. cbv zeta in HF.
  eexists. split; [exact (call_cell N c ph T i k _ _ HW HT HD)|]. split; [exact HF|].
  apply (features_within log2 log pow2 _ _ _ _ _ _) with (5 := HF).
  - unfold mdistances. rewrite !zlen_map. reflexivity.
  - intros E. apply (f_equal zlen) in E. unfold mdistances in E. rewrite zlen_map, zlen_zrange in E. change (zlen (@nil float)) with 0 in E. lia.
  - intros j y Hy. pose proof (nthZ_range _ _ _ Hy) as Rj. unfold mdistances in Rj. rewrite zlen_map, zlen_zrange in Rj.
    destruct (C85_distances log2 log pow2 ph n x chs vs l d j y B sd HB HX Hv Hl HM Hsd (fun ch Hch => HSD ch j Hch ltac:(lia)) Hy) as (r & E & Q & R1). eauto.
  - apply is_finite_prim. exact Ht.
Qed.
Print Assumptions C85_features.

(** ** fit then transform *)

(** Training values of at most [B]: every row of a normalised shapelet is within [z_error] of the real z-scores of points
    t, t + d, ..., t + (l-1)d of its training series, at most 2 l, and the threshold is finite. *)
Theorem C85_fit : forall log2 log pow2 S (rng : Rng float S) RS (V : pyenv RS) ex X y s h s' h' n nf cols v vl f m B,
  let N := FN log2 log pow2 in
  libm_accurate log2 log pow2 -> RngLaws N rng -> real_executor ex -> passes (N := N) X n nf cols v vl -> 1 <= n -> 1 <= nf -> zlen y = n ->
  e_n_samples s = VNone -> (forall k, e_type s = TKind k -> kind_vl k = vl) -> (forall i, 0 <= i < n -> 4 <= cols i <= 2 ^ 40) ->
  (vl = true -> forall m, e_min_len s = Some m -> 4 <= m /\ forall i, 0 <= i < n -> m <= cols i) ->
  fit N rng V ex X y s h = (Ok tt, s', h') -> e_shapelets s' = Some f -> e_min_len s' = Some m ->
  (forall i, 0 <= i < n -> cols i * nf <= 2 ^ 53) -> usual B ->
  (forall i ch j, 0 <= i < n -> 0 <= ch < nf -> 0 <= j < cols i -> within B (v i ch j)) ->
  forall j chs vs l d thr, shapelet_of f j chs vs l d thr true ->
    2 <= l <= m /\ 1 <= d /\ (l - 1) * d <= m - 1 /\ l * zlen chs <= 2 ^ 53 /\ finite thr /\
    exists i t, 0 <= i < n /\ 0 <= t < nwin (e_phase s) (cols i) l d /\
      forall a ch, nthZ chs a = Some ch -> 0 <= ch < nf /\ exists row copy, nthZ vs a = Some row /\ zlen row = l /\ zlen copy = l /\
        (forall q, 0 <= q < l -> nthZ copy q = Some (fr (v i ch (pos (e_phase s) (cols i) (t + q * d))))) /\
        forall q x, nthZ row q = Some x -> finite x /\ (Rabs (fr x) <= 2 * IZR l)%R /\
          exists z, nthZ (zscore RN copy) q = Some z /\ (Rabs (fr x - z) <= z_error l B (sdev RN copy))%R.
Proof.
  intros log2 log pow2 S rng RS V ex X y s h s' h' n nf cols v vl f m B N LA L HE HX Hn Hf Hy Hns Hty H4 Hml H Hsh Hmm H53 HB HM j chs vs l d thr Hj.
  destruct (C79_fit log2 log pow2 S rng RS V ex X y s h s' h' n nf cols v vl LA L HE HX Hn Hf Hy Hns Hty H4 Hml H) as (f0 & m0 & pmin & pmax & E1 & E2 & _ & _ & Hm & _ & _ & HS).
  assert (f0 = f) by congruence. assert (m0 = m) by congruence. subst f0 m0.
  destruct (HS _ _ _ _ _ _ _ Hj) as (A1 & A2 & A3 & _ & A4 & A5 & A6 & _ & (i & t & i' & Hi & Ht & Zv & Hcopy & (Hi' & _) & (mu & a & b & u & Hp & U0 & U1 & Hthr))). subst N.
  assert (Zc : zlen chs <= nf).
  { assert (Q : (length chs <= length (zrange 0 nf))%nat) by (apply NoDup_incl_length; [exact A5|]; intros ch Hch; apply in_zrange; specialize (A6 ch Hch); lia).
    pose proof (zlen_zrange 0 nf) as Q2. unfold zlen in *. lia. }
  assert (Hl40 : l <= 2 ^ 40) by (specialize (Hm i Hi); specialize (H4 i Hi); lia).
  assert (Hlc : l * zlen chs <= 2 ^ 53).
  { apply Z.le_trans with (cols i * nf); [|apply H53; exact Hi]. specialize (Hm i Hi). nia. }
  assert (HR : forall a ch, nthZ chs a = Some ch -> 0 <= ch < nf /\ exists row copy, nthZ vs a = Some row /\ zlen row = l /\ zlen copy = l /\
        (forall q, 0 <= q < l -> nthZ copy q = Some (fr (v i ch (pos (e_phase s) (cols i) (t + q * d))))) /\
        forall q x, nthZ row q = Some x -> finite x /\ (Rabs (fr x) <= 2 * IZR l)%R /\
          exists z, nthZ (zscore RN copy) q = Some z /\ (Rabs (fr x - z) <= z_error l B (sdev RN copy))%R).
  { intros a0 ch Hch. split; [apply A6, (nthZ_In _ _ _ Hch)|]. destruct (Hcopy a0 ch Hch) as (copy & Zcp & Hcp & Hrow). cbn iota in Hrow.
    exists (zscore (FN log2 log pow2) copy), (map fr copy). split; [exact Hrow|]. split; [unfold zscore; rewrite zlen_map; exact Zcp|]. split; [rewrite zlen_map; exact Zcp|].
    split; [intros q Hq; rewrite nthZ_map, (Hcp q Hq); reflexivity|]. intros q x Hx. rewrite <- Zcp in *.
    apply (C85_zscore log2 log pow2 B copy q x HB); [|lia|exact Hx]. intros w Hw. apply In_nthZ in Hw as (p & Hpw). pose proof (nthZ_range _ _ _ Hpw) as Rp.
    pose proof (Hcp p Rp) as Ep. assert (w = v i ch (pos (e_phase s) (cols i) (t + p * d))) by congruence. subst w. apply HM; [exact Hi|apply A6, (nthZ_In _ _ _ Hch)|].
    destruct (nth_window (FN log2 log pow2) (e_phase s) v i ch (cols i) (zlen copy) d t p ltac:(lia) Ht ltac:(lia)) as [Q _]. exact Q. }
  split; [exact A1|]. split; [exact A2|]. split; [exact A3|]. split; [exact Hlc|]. split; [|exists i, t; auto].
  assert (MV : forall r x, In r vs -> In x r -> moderate x).
  { intros r x Hr Hx. apply In_nthZ in Hr as (q & Hq). pose proof (nthZ_range _ _ _ Hq) as Rq. rewrite Zv in Rq. destruct (nthZ_some chs q Rq) as (ch & Hch).
    destruct (HR q ch Hch) as (_ & row & copy & Er & _ & _ & _ & Hx'). assert (r = row) by congruence. subst r. apply In_nthZ in Hx as (p & Hpx).
    destruct (Hx' p x Hpx) as (F & Bx & _). split; [exact F|]. apply Rle_trans with (1 := Bx). apply Rle_trans with (2 ^ 41)%R; [|apply Rle_pow; [lra|lia]].
    change (2 ^ 41)%R with (2 * 2 ^ 40)%R. apply Rmult_le_compat_l; [lra|]. rewrite (pow_IZR 2 40). apply IZR_le. exact Hl40. }
  assert (MP : forall ch, 0 <= ch < nf -> forall x, In x (points v i' ch (cols i')) -> within B x).
  { intros ch Hch x Hx. apply in_map_iff in Hx as (p & <- & Hp'). apply in_zrange in Hp'. apply HM; lia. }
  assert (MC : forall r x, In r (channels v nf (cols i') i') -> In x r -> within B x).
  { intros r x Hr. apply in_map_iff in Hr as (ch & <- & Hch). apply in_zrange in Hch. apply MP. lia. }
  apply is_finite_prim. rewrite Hthr. pose proof (H4 i' Hi') as H4'. pose proof (Hm i' Hi') as Hm'.
  assert (NW : 0 < nwin (e_phase s) (cols i') l d <= 2 ^ 40) by (unfold nwin; destruct (e_phase s); nia).
  assert (LB : forall n X chs vs x, (forall r a, In r X -> In a r -> within B a) -> (forall r a, In r vs -> In a r -> moderate a) -> l * zlen chs <= 2 ^ 53 ->
    In x (mdistances (FN log2 log pow2) (e_phase s) true n X chs vs l d) -> fin x /\ (Rabs (fr x) <= level 1014)%R).
  { intros n1 X1 chs1 vs1 x M1 M2 M3 Hx. apply In_nthZ in Hx as (q & Hq).
    destruct (ndistances_near log2 log pow2 B (usual_level B HB) (e_phase s) n1 X1 chs1 vs1 l d q x 0%R (fun r a Hr Ha => within_fin B a (M1 r a Hr Ha)) (fun r a Hr Ha => moderate_bounded a (M2 r a Hr Ha)) ltac:(lia) M3 (Rle_refl 0)
      (fun ch _ => sdev_nonneg _) Hq) as (r & r' & _ & Q & _ & Bx).
    split; [apply Q|]. rewrite Rabs_pos_eq by (apply near_nonneg in Q; exact Q). exact Bx. }
  apply (threshold_finite log2 log pow2 _ pmin pmax a b u 1014) with (4 := Hp); [|lia| |exact U0|exact U1].
  - unfold distances_to. destruct mu; [unfold mdistances|unfold distances]; rewrite zlen_map, zlen_zrange; [lia|]. rewrite zlen_points by lia. lia.
  - intros x Hx. unfold distances_to in Hx. destruct mu.
    + exact (LB _ _ _ _ x MC MV Hlc Hx).
    + assert (Fv : forall q, In q (nthd [] vs 0) -> moderate q) by (intros q Hq; unfold nthd in Hq; destruct (nthZ vs 0) as [r|] eqn:Er; [apply (MV r); [apply (nthZ_In _ _ _ Er)|exact Hq]|destruct Hq]).
      rewrite (ndistances_mdistances log2 log pow2 B (usual_level B HB)) in Hx.
      * apply (LB _ _ _ _ x) in Hx; [exact Hx| | |].
        -- intros r q [<-|[]]. apply MP. lia.
        -- intros r q [<-|[]]. apply Fv.
        -- change (zlen [0]) with 1. nia.
      * lia.
      * intros q Hq. apply within_fin. apply (MP 0 ltac:(lia) q Hq).
      * intros q Hq. apply is_finite_prim. apply (Fv q Hq).
Qed.
Print Assumptions C85_fit.

(** New series of values of at most [B] too: the cells of a normalised shapelet are the smallest distance, its first
    position and the number of distances at most the threshold, and close to those of the real distances. *)
Theorem C85_transform : forall log2 log pow2 S (rng : Rng float S) RS (V : pyenv RS) ex X y s h s' h' n nf cols v vl X' n' cols' v' f m B,
  let N := FN log2 log pow2 in
  libm_accurate log2 log pow2 -> RngLaws N rng -> real_executor ex -> passes (N := N) X n nf cols v vl -> 1 <= n -> 1 <= nf -> zlen y = n ->
  e_n_samples s = VNone -> (forall k, e_type s = TKind k -> kind_vl k = vl) -> (forall i, 0 <= i < n -> 4 <= cols i <= 2 ^ 40) ->
  (vl = true -> forall m, e_min_len s = Some m -> 4 <= m /\ forall i, 0 <= i < n -> m <= cols i) ->
  fit N rng V ex X y s h = (Ok tt, s', h') -> e_shapelets s' = Some f -> e_min_len s' = Some m ->
  passes (N := N) X' n' nf cols' v' vl -> 1 <= n' -> (forall i, 0 <= i < n' -> m <= cols' i) ->
  (forall i, 0 <= i < n -> cols i * nf <= 2 ^ 53) -> usual B ->
  (forall i ch j, 0 <= i < n -> 0 <= ch < nf -> 0 <= j < cols i -> within B (v i ch j)) ->
  (forall i ch j, 0 <= i < n' -> 0 <= ch < nf -> 0 <= j < cols' i -> within B (v' i ch j)) ->
  exists T, transform N s' X' = Ok T /\
    forall i j chs vs l d thr, 0 <= i < n' -> shapelet_of f j chs vs l d thr true ->
      let x := channels v' nf (cols' i) i in let rx := map (map fr) x in
      finite thr /\ exists a, cell3 T i j a /\ is_features N (mdistances N (e_phase s) true (cols' i) x chs vs l d) thr a /\
        forall sd, (0 <= sd)%R -> (forall ch w, In ch chs -> 0 <= w < nwin (e_phase s) (cols' i) l d -> (sd <= sdev RN (window RN (e_phase s) (nthd [] rx ch) l d w))%R) ->
          approximate_within (Z.to_nat (1 + l + zlen chs)) (tolerance (zlen chs) l B sd) (mdistances RN (e_phase s) true (cols' i) rx chs (map (map fr) vs) l d) (fr thr) a.
Proof.
  intros log2 log pow2 S rng RS V ex X y s h s' h' n nf cols v vl X' n' cols' v' f m B N LA L HE HX Hn Hf Hy Hns Hty H4 Hml H Hsh Hmm HX' Hn' Hlong H53 HB HM HM'.
  pose proof (C85_fit log2 log pow2 S rng RS V ex X y s h s' h' n nf cols v vl f m B LA L HE HX Hn Hf Hy Hns Hty H4 Hml H Hsh Hmm H53 HB HM) as HS.
  destruct (any_fit_sound (binary64_laws log2 log pow2 rng LA L) V ex X y s h s' h' n nf cols v vl HE HX Hn Hf Hy Hns Hty H4 Hml H) as (k & f0 & m0 & HF).
  assert (f0 = f) by (pose proof (fa_shapelets _ _ _ _ _ _ _ _ _ _ _ _ _ HF); congruence).
  assert (m0 = m) by (pose proof (fa_min_len _ _ _ _ _ _ _ _ _ _ _ _ _ HF); congruence). subst f0 m0.
  assert (Hm : 4 <= m).
  { pose proof (fa_points _ _ _ _ _ _ _ _ _ _ _ _ _ HF) as Q. unfold common_points in Q. destruct (e_min_len s) as [g|] eqn:Eg.
    - destruct vl; [destruct (Hml eq_refl g eq_refl); lia|]. rewrite (Q 0 ltac:(lia)). apply H4. lia.
    - destruct Q as [(i & Hi & ->) _]. apply H4. exact Hi. }
  assert (Hmc : m <= cols 0) by (apply (fa_enough _ _ _ _ _ _ _ _ _ _ _ _ _ HF); lia).
  destruct (any_fit_long rng vl n nf cols v y s s' k f m X' n' cols' v' HF Hf Hm HX' Hn' Hlong) as (T & ET & T1 & T2 & T3).
  exists T. split; [exact ET|]. intros i j chs vs l d thr Hi Hj x rx.
  destruct (HS j chs vs l d thr Hj) as (A1 & A2 & A3 & A4 & A5 & (i0 & t & Hi0 & Ht & HR)). split; [exact A5|]. eexists. split; [exact (T3 i j chs vs l d thr true Hi Hj)|].
  destruct HF as [_ _ _ _ _ _ _ _ Hform _ _ (pmin & pmax & _ & F14)].
  destruct (F14 _ _ _ _ _ _ _ Hj) as [(_ & _ & C & D & E & (i1 & t1 & i1' & Hi1 & Ht1 & Hvs & _)) _].
  assert (Zv : zlen vs = zlen chs) by (rewrite Hvs, zlen_map; reflexivity). clear Hvs. pose proof (H4 0 ltac:(lia)) as H40.
  assert (MV : forall r q, In r vs -> In q r -> moderate q).
  { intros r q Hr Hq. apply In_nthZ in Hr as (p & Hp). pose proof (nthZ_range _ _ _ Hp) as Rp. rewrite Zv in Rp. destruct (nthZ_some chs p Rp) as (ch & Hch).
    destruct (HR p ch Hch) as (_ & row & copy & Er & _ & _ & _ & Hx'). assert (r = row) by congruence. subst r. apply In_nthZ in Hq as (p' & Hpx).
    destruct (Hx' p' q Hpx) as (F & Bx & _). split; [exact F|]. apply Rle_trans with (1 := Bx). apply Rle_trans with (2 ^ 41)%R; [|apply Rle_pow; [lra|lia]].
    change (2 ^ 41)%R with (2 * 2 ^ 40)%R. apply Rmult_le_compat_l; [lra|]. rewrite (pow_IZR 2 40). apply IZR_le. lia. }
  assert (MC : forall r q, In r x -> In q r -> within B q).
  { intros r q Hr Hq. apply in_map_iff in Hr as (ch & <- & Hch). apply in_zrange in Hch. apply in_map_iff in Hq as (p & <- & Hp). apply in_zrange in Hp. apply HM'; lia. }
  assert (ED : distances_to N (multi k) (e_phase s) true nf cols' v' i chs vs l d = mdistances N (e_phase s) true (cols' i) x chs vs l d).
  { unfold distances_to. destruct (multi k) eqn:Ek; [reflexivity|]. clear HR. inversion Hj; subst; [|discriminate]. change (nthd [] [v0] 0) with v0. unfold N. rewrite (ndistances_mdistances log2 log pow2 B (usual_level B HB)).
    - rewrite zlen_points by (specialize (Hlong i Hi); lia). unfold mdistances. apply map_ext_in. intros w _. cbn [combine map fst snd]. unfold x. rewrite nthd_channels by lia. reflexivity.
    - lia.
    - intros q Hq. apply within_fin. apply in_map_iff in Hq as (p & <- & Hp). apply in_zrange in Hp. apply HM'; lia.
    - intros q Hq. apply is_finite_prim. apply (MV v0 q); [left; reflexivity|exact Hq]. }
  unfold N in ED |- *. rewrite ED.
  pose proof (norm_feats log2 log pow2 B (e_phase s) (cols' i) x chs vs l d thr HB ltac:(lia) MC (fun r a Hr Ha => proj1 (MV r a Hr Ha))) as HFT. cbv zeta in HFT.
  split; [exact HFT|]. intros sd Hsd HSD. specialize (Hlong i Hi). apply (features_within log2 log pow2 _ _ _ _ _ _) with (5 := HFT).
  - unfold mdistances. rewrite !zlen_map. reflexivity.
  - intros Q. apply (f_equal zlen) in Q. unfold mdistances in Q. rewrite zlen_map, zlen_zrange in Q. change (zlen (@nil float)) with 0 in Q. unfold nwin in Q. destruct (e_phase s); nia.
  - intros w q Hq. pose proof (nthZ_range _ _ _ Hq) as Rj. unfold mdistances in Rj. rewrite zlen_map, zlen_zrange in Rj.
    destruct (C85_distances log2 log pow2 (e_phase s) (cols' i) x chs vs l d w q B sd HB MC MV ltac:(lia) A4 Hsd (fun ch Hch => HSD ch w Hch ltac:(lia)) Hq) as (r & Er & Q & R1). eauto.
  - apply is_finite_prim. exact A5.
Qed.
Print Assumptions C85_transform.

(** ** Constant windows *)

(** On a constant window the real z-scores are 0, whatever the constant; in binary64 the rounding of the mean is divided by
    the rounding of the deviation: with 100000000.1 (the nearest binary64) three times every z-score is above 1/2, eleven times below -1/2, and the
    distance of that constant series to an all-zero normalised shapelet is above 1.79 instead of 0. *)
Theorem C85_constant_refuted : forall log2 log pow2, let N := FN log2 log pow2 in let c := 0x1.7d78400666666p+26%float in
  (forall w z, (forall x, In x w -> x = fr c) -> In z (zscore RN w) -> z = 0%R) /\
  Forall (fun x => (0.5 <? x)%float = true) (zscore N [c; c; c]) /\
  Forall (fun x => (x <? -0.5)%float = true) (zscore N [c; c; c; c; c; c; c; c; c; c; c]) /\
  mdistances RN false true 3 (map (map fr) [[c; c; c]]) [0] (map (map fr) [[0; 0; 0]]%float) 3 1 = [0%R] /\
  exists m, U_SL_apply N [[[c; c; c]]] (mkUshp [[0; 0; 0]%float] [3] [1] [0.5]%float [true]) false = Ok [[m; 0; 0]]%float /\ (1.79 <? m)%float = true.
Proof.
  intros log2 log pow2 N c. split; [|split; [|split; [|split]]].
  - intros w z Hw Hz. exact (zscore_const w (fr c) Hw z Hz).
  - vm_compute. repeat constructor.
  - vm_compute. repeat constructor.
  - unfold mdistances. change (zrange 0 (nwin false 3 3 1)) with [0]. cbn [map combine fst snd seen]. rewrite fr_0. apply f_equal2; [|reflexivity].
    change (window RN false (nthd [] [[fr c; fr c; fr c]] 0) 3 1 0) with [fr c; fr c; fr c].
    pose proof (zscore_const [fr c; fr c; fr c] (fr c)) as Z.
    assert (Hw : forall x, In x [fr c; fr c; fr c] -> x = fr c) by (intros x Hx; cbn [In] in Hx; intuition congruence). specialize (Z Hw). unfold zscore in *. cbn [map] in *.
    pose proof (Z _ (or_introl eq_refl)) as Z1. rewrite Z1. unfold l1, sumF. cbv -[IZR Rplus Rminus Rabs]. rewrite !Rminus_0_r, Rabs_R0, !Rplus_0_r. reflexivity.
  - exists 1.7952369061643552%float. split; vm_compute; reflexivity.
Qed.
Print Assumptions C85_constant_refuted.

(** ** Concrete cases *)

(** points 0, 200, 0, 200, 500 and a normalised shapelet of length 4: the deviation of each window is at least 100, and the
    features are those of the real distances up to less than 10^-10 and 6 roundings *)
Example C85_case : let N := FN fid fid fid in let x := map (map float_ofZ) [[0; 200; 0; 200; 500]] in let vs := [[-1; 1; -1; 1]]%float in
  let c := CallUS [x] (mkUshp vs [4] [1] [0.5]%float [true]) in
  (forall r a, In r x -> In a r -> within 500 a) /\ (forall r a, In r vs -> In a r -> moderate a) /\ usual 500 /\
  (forall ch j, In ch [0] -> 0 <= j < nwin false 5 4 1 -> (100 <= sdev RN (window RN false (nthd [] (map (map fr) x) ch) 4 1 j))%R) /\
  (tolerance 1 4 500 100 < / 10 ^ 10)%R /\ wf_call c /\ sample_at c 0 x /\ shapelet_at c 0 [0] vs 4 1 0.5%float true /\
  run N c false = Ok [[3.9999958900693855e-10; 0; 1]]%float.
Proof.
  intros N x vs c. assert (FZ : forall z, 0 <= z <= 500 -> within 500 (float_ofZ z)).
  { intros z Hz. destruct (fr_ofZ z ltac:(lia)) as [F E]. split; [apply is_finite_prim; exact F|]. rewrite E, <- abs_IZR. apply IZR_le. lia. }
  split.
  { intros r a Hr Ha. apply in_map_iff in Hr as (r0 & <- & [<-|[]]). apply in_map_iff in Ha as (z & <- & Hz). apply FZ. cbn [In] in Hz. intuition subst; lia. }
  split; [intros r a [<-|[]] Ha; cbn [In] in Ha; intuition subst; apply moderate_value; reflexivity|].
  split. { split; [|apply Rle_trans with (2 ^ 9)%R; [lra|apply Rle_pow; [lra|lia]]]. apply Rle_trans with (/ 1)%R; [|lra]. apply Rinv_le_contravar; [lra|]. apply pow_R1_Rle. lra. }
  split.
  { assert (EX : map (map fr) x = [[0; 200; 0; 200; 500]%R]) by (unfold x; cbn [map]; rewrite !(fun z H => proj2 (fr_ofZ z H)) by lia; reflexivity). rewrite EX.
    intros ch j [<-|[]] Hj. change (nwin false 5 4 1) with 2 in Hj. assert (Ej : j = 0 \/ j = 1) by lia.
    assert (SQ : forall q, (10000 <= q)%R -> (100 <= R_sqrt.sqrt q)%R) by (intros q Hq; rewrite <- (sqrt_square 100) by lra; apply sqrt_le_1_alt; lra).
    destruct Ej as [-> | ->]; unfold sdev, avg, sumF; cbv -[IZR Rplus Rminus Rabs Rdiv Rinv Rmult R_sqrt.sqrt Rle]; apply SQ; unfold Rdiv; lra. }
  split. { unfold tolerance, z_error. set (a := (/ 2 ^ 53)%R). assert (A : (a <= / 9000000000000000)%R) by (apply Rinv_le_contravar; lra). assert (A0 : (0 < a)%R) by (apply Rinv_0_lt_compat; lra). lra. }
  split.
  { split; [intros q [<-|[]]; discriminate|]. split; [reflexivity|]. split; [reflexivity|]. split; [reflexivity|]. split; [reflexivity|]. split.
    - intros k v l H H0. apply nthZ_In in H, H0. cbn [us_len us_values In] in H, H0. destruct H as [<-|[]]. destruct H0 as [<-|[]]. change (zlen [-1; 1; -1; 1]%float) with 4. lia.
    - intros k d H. apply nthZ_In in H. cbn [us_dil In] in H. destruct H as [<-|[]]. lia. }
  split; [exact (sample_US [x] (mkUshp vs [4] [1] [0.5]%float [true]) 0 x _ eq_refl eq_refl)|].
  split; [constructor; split; [exists [-1; 1; -1; 1]%float; split; reflexivity|repeat split; reflexivity]|]. vm_compute. reflexivity.
Qed.

(** the data of [C80_transform_case] meet the hypotheses of C85_fit and C85_transform *)
Example C85_transform_case : (forall log2 log pow2, passes (N := FN log2 log pow2) m64X 2 1 (fun _ => 4) m64v false) /\ usual (2 ^ 60) /\
  forall i ch j, 0 <= i < 2 -> 0 <= ch < 1 -> 0 <= j < 4 -> within (2 ^ 60) (m64v i ch j).
Proof.
  split; [exact (proj1 C80_transform_case)|]. split.
  { split; [|apply Rle_pow; [lra|lia]]. apply Rle_trans with (/ 1)%R; [apply Rinv_le_contravar; [lra|apply pow_R1_Rle; lra]|]. rewrite Rinv_1. apply pow_R1_Rle. lra. }
  assert (H8 : forall i j, 0 <= i < 2 -> 0 <= j < 4 -> i * 4 + j = 0 \/ i * 4 + j = 1 \/ i * 4 + j = 2 \/ i * 4 + j = 3 \/ i * 4 + j = 4 \/ i * 4 + j = 5 \/ i * 4 + j = 6 \/ i * 4 + j = 7) by (intros; lia).
  assert (W : forall x, finite x -> PrimFloat.leb (PrimFloat.abs x) 0x1p60 = true -> within (2 ^ 60) x).
  { intros x F H. split; [exact F|]. apply is_finite_prim in F. destruct (fr_abs x F) as [Fa Ea]. apply fr_leb in H; [|exact Fa|exact I]. rewrite Ea in H. apply Rle_trans with (1 := H). apply Req_le.
    rewrite fr_SF. change (Prim2SF 0x1p60) with (SpecFloat.S754_finite false 4503599627370496 8). unfold BinarySingleNaN.SF2R, Defs.F2R. cbn. lra. }
  intros i ch j Hi Hch Hj. unfold m64v. destruct (H8 i j Hi Hj) as [-> |[-> |[-> |[-> |[-> |[-> |[-> | ->]]]]]]]; apply W; reflexivity.
Qed.
