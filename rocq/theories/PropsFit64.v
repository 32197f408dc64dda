(** Property C79: R_DST.fit and transform in binary64, from the values the caller passes (infinities and NaN included)
    to the stored shapelets and the features.  libm's log2, log and 2**x are parameters, assumed accurate to 2^-45. *)
From Coq Require Import ZArith List Bool Reals Lra Lia Floats.
From Verif Require Import Prelude Num Kernel Spec KernelProofs Parallel Apply ApplyProofs ApplyUni ApplyMulti TransformProofs TransformLaws SampleLaws
  Gen GenSched GenBase GenUni GenDraw GenSpec GenUTop GenULaws GenUCase GenMTop GenMLaws Checks ChecksProofs Estimator EstimatorNum EstimatorLaws EstimatorCases
  GenAny FloatLaws FloatReal FitFloat FitAny FitAnyTop Libm PropsFloat.
Import ListNotations.
Open Scope Z_scope.

Lemma binary64_laws log2 log pow2 {S} (rng : Rng float S) : libm_accurate log2 log pow2 -> RngLaws (FN log2 log pow2) rng ->
  fit_laws (FN log2 log pow2) rng (2 ^ 40) percentile_ok.
Proof.
  intros LA L. constructor.
  - exact L.
  - reflexivity.
  - intros m Hm. apply (dilation_law_float log2 log pow2 (2 ^ 40)); [apply accurate_ok; exact LA|lia|exact L|exact Hm].
  - intros a q1 q2. apply (percentiles_float _ _ _ 0).
Qed.

Lemma nth_window {F} (N : NumOps F) ph v i ch c l d t j : 0 <= j < l -> 0 <= t < nwin ph c l d -> 0 <= d ->
  0 <= pos ph c (t + j * d) < c /\ nthZ (window N ph (points v i ch c) l d t) j = Some (v i ch (pos ph c (t + j * d))).
Proof.
  intros Hj Ht Hd. assert (R : 0 <= pos ph c (t + j * d) < c).
  { unfold pos, nwin in *. destruct ph; [apply Z.mod_pos_bound; lia|]. assert (0 <= j * d <= (l - 1) * d) by nia. lia. }
  split; [exact R|]. unfold window. rewrite nthZ_map, nthZ_zrange by lia. cbn [option_map]. f_equal. rewrite zlen_points by lia.
  replace (0 + j) with j by lia. unfold pt. apply nthd_some. unfold points. rewrite nthZ_map, nthZ_zrange by lia. cbn [option_map]. f_equal.
Qed.

(** ** fit does not fail *)

(** Series of 4 points to 2^40, whatever the values; integer lengths of at least 2; percentiles of 100 or at most 99.9. *)
Theorem C79_fit_total : forall log2 log pow2 S (rng : Rng float S) RS (V : pyenv RS) ex X y s h n nf cols v vl m ls pmin pmax,
  let N := FN log2 log pow2 in
  libm_accurate log2 log pow2 -> RngLaws N rng -> real_executor ex -> passes (N := N) X n nf cols v vl -> 1 <= n -> 1 <= nf -> zlen y = n ->
  (e_type s = TAuto \/ exists k, e_type s = TKind k /\ kind_vl k = vl) ->
  (forall sh dt cells, X = VArr sh dt cells -> dt = DInt64 \/ dt = DFloat64 \/ dt = DObject) ->
  4 <= m -> (forall i, 0 <= i < n -> m <= cols i <= 2 ^ 40) -> common_points vl (e_min_len s) n cols m ->
  e_n_samples s = VNone -> 1 <= e_n_shapelets s -> e_bounds s = None ->
  e_lengths s = VArr [zlen ls] DInt64 (map VInt ls) -> ls <> [] -> (forall l, In l ls -> 2 <= l) ->
  percentile_values N (e_percentiles s) = Ok (pmin, pmax) -> percentile_ok pmin -> percentile_ok pmax ->
  (exists a, as_F N (e_alpha s) = Ok a) -> (exists a, as_F N (e_proba_norm s) = Ok a) -> 0 <= e_rs s < zlen h ->
  (forall c, e_max_channels s = Some c -> 1 <= c <= nf) ->
  exists s' h', fit N rng V ex X y s h = (Ok tt, s', h').
Proof.
  intros log2 log pow2 S rng RS V ex X y s h n nf cols v vl m ls pmin pmax N LA L HE HX Hn Hf Hy Hty Hdt Hm4 Hmc Hcp Hns Hsh Hb Hls Hne Hl2 Hp Hp1 Hp2 Ha Hpr Hrs Hch.
  apply (any_fit_total (binary64_laws log2 log pow2 rng LA L) V ex X y s h n nf cols v vl m); auto.
  - intros k Hk. destruct Hty as [E|(k' & E & Q)]; congruence.
  - destruct Hty as [E|(k' & E & Q)]; congruence.
  - intros -> _. inversion HX as [dt t cells E Hd|]; subst X. destruct (Hdt _ _ _ eq_refl) as [Q|[Q|Q]]; auto. congruence.
  - constructor; auto; [|exists pmin, pmax; auto].
    exists (VArr [zlen ls] DInt64 (map VInt ls)). unfold set_lengths. rewrite Hb, Hls.
    assert (Hz : zlen ls <> 0) by (destruct ls; [congruence|rewrite zlen_cons; pose proof (zlen_nonneg ls); lia]).
    assert (E : check_lengths N (VArr [zlen ls] DInt64 (map VInt ls)) m = Ok (map (fun l => if m <? l then m / 2 else l) ls)).
    { assert (G : check_array_1D N (VArr [zlen ls] DInt64 (map VInt ls)) = Ok (VArr [zlen ls] DInt64 (map VInt ls))).
      { unfold check_array_1D. cbn [check_is_numpy bind shape]. change (guard (zlen [zlen ls] =? 1) ValueError) with (@Ok unit tt). cbn [bind].
        assert (G : guard (negb (prod [zlen ls] =? 0)) ValueError = Ok tt).
        { apply guard_ok. apply negb_true_iff. apply Z.eqb_neq. unfold prod. cbn [fold_left fold_right]. lia. }
        rewrite G. reflexivity. }
      unfold check_lengths. rewrite G. cbn [bind].
      replace (mapM (as_int N) (map VInt ls)) with (Ok ls) by (symmetry; clear; induction ls as [|a t IH]; [reflexivity|]; cbn [map mapM as_int bind]; rewrite IH; reflexivity).
      cbn [bind].
      assert (G2 : forallb (fun l => 1 <? l) ls = true) by (apply forallb_forall; intros l Hl; apply Z.ltb_lt; specialize (Hl2 l Hl); lia). rewrite G2. cbn [guard bind].
      destruct (forallb (fun l => l <=? m) ls) eqn:E.
      - f_equal. rewrite forallb_forall in E. rewrite <- (map_id ls) at 1. apply map_ext_in. intros l Hl. specialize (E l Hl). apply Z.leb_le in E. destruct (Z.ltb_spec m l); lia.
      - destruct (Z.ltb_spec m 3); [lia|]. reflexivity. }
    exists (map (fun l => if m <? l then m / 2 else l) ls). split; [reflexivity|]. split; [exact E|]. intros Q. apply map_eq_nil in Q. contradiction.
Qed.
Print Assumptions C79_fit_total.

(** ** What fit stores *)

(** Row [a] of a shapelet that is not normalised is a copy of points t, t + d, ..., t + (l-1)d of channel [a] of its list,
    in one training series; a normalised one is the z-score of that copy. *)
Theorem C79_fit : forall log2 log pow2 S (rng : Rng float S) RS (V : pyenv RS) ex X y s h s' h' n nf cols v vl,
  let N := FN log2 log pow2 in
  libm_accurate log2 log pow2 -> RngLaws N rng -> real_executor ex -> passes (N := N) X n nf cols v vl -> 1 <= n -> 1 <= nf -> zlen y = n ->
  e_n_samples s = VNone -> (forall k, e_type s = TKind k -> kind_vl k = vl) -> (forall i, 0 <= i < n -> 4 <= cols i <= 2 ^ 40) ->
  (vl = true -> forall m, e_min_len s = Some m -> 4 <= m /\ forall i, 0 <= i < n -> m <= cols i) ->
  fit N rng V ex X y s h = (Ok tt, s', h') ->
  exists f m pmin pmax, e_shapelets s' = Some f /\ e_min_len s' = Some m /\ percentile_values N (e_percentiles s) = Ok (pmin, pmax) /\
    common_points vl (e_min_len s) n cols m /\ (forall i, 0 <= i < n -> m <= cols i) /\
    count_of f <= e_n_shapelets s /\ (forall j, 0 <= j < count_of f -> exists chs vs l d thr nm, shapelet_of f j chs vs l d thr nm) /\
    forall j chs vs l d thr nm, shapelet_of f j chs vs l d thr nm ->
      2 <= l <= m /\ 1 <= d /\ (l - 1) * d <= m - 1 /\ (e_prime s = true -> d = 1 \/ Znumtheory.prime d) /\
      1 <= zlen chs /\ NoDup chs /\ (forall ch, In ch chs -> 0 <= ch < nf) /\ (forall c, e_max_channels s = Some c -> 1 <= c -> zlen chs <= c) /\
      exists i t i', 0 <= i < n /\ 0 <= t < nwin (e_phase s) (cols i) l d /\ zlen vs = zlen chs /\
        (forall a ch, nthZ chs a = Some ch -> exists copy, zlen copy = l /\
           (forall q, 0 <= q < l -> nthZ copy q = Some (v i ch (pos (e_phase s) (cols i) (t + q * d)))) /\
           nthZ vs a = Some (if nm then zscore N copy else copy)) /\
        same_class n y i i' /\
        exists mu a b u, percentiles N (distances_to N mu (e_phase s) nm nf cols v i' chs vs l d) pmin pmax = Ok (a, b) /\
          (0 <=? u)%float = true /\ (u <? 1)%float = true /\ thr = (a + (b - a) * u)%float.
Proof.
  intros log2 log pow2 S rng RS V ex X y s h s' h' n nf cols v vl N LA L HE HX Hn Hf Hy Hns Hty H4 Hml H.
  destruct (any_fit_sound (binary64_laws log2 log pow2 rng LA L) V ex X y s h s' h' n nf cols v vl HE HX Hn Hf Hy Hns Hty H4 Hml H) as (k & f & m & [F1 F2 F3 F4 F6 F7 F8 F9 F10 F11 F12 (pmin & pmax & F13 & F14)]).
  exists f, m, pmin, pmax. split; [exact F6|]. split; [exact F7|]. split; [exact F13|]. split; [exact F8|]. split; [exact F9|]. split; [exact F12|].
  split; [intros j Hj; apply (shapelet_exists nf); assumption|]. intros j chs vs l d thr nm Hj.
  destruct (F14 _ _ _ _ _ _ _ Hj) as [(A & (B1 & B2 & B3) & C & D & E & (i & t & i' & Hi & Ht & Hvs & Hcl & (a & b & s0 & Hp & Hthr))) I].
  split; [exact A|]. split; [exact B1|]. split; [exact B2|]. split; [exact B3|]. split; [exact C|]. split; [exact D|]. split; [exact E|].
  split; [intros c Hc Hc1; rewrite Hc in I; destruct (multi k); lia|].
  exists i, t, i'. split; [exact Hi|]. split; [exact Ht|]. split; [rewrite Hvs, zlen_map; reflexivity|]. split.
  - intros q ch Hch. exists (window N (e_phase s) (points v i ch (cols i)) l d t). split; [unfold window; rewrite zlen_map, zlen_zrange; lia|].
    split; [intros q' Hq'; apply nth_window; [exact Hq'|exact Ht|lia]|]. rewrite Hvs, nthZ_map, Hch. reflexivity.
  - split; [exact Hcl|]. exists (multi k), a, b, (fst (r_unif rng s0)). destruct (rl_unif L s0) as [U1 U2]. split; [exact Hp|]. split; [exact U1|]. split; [exact U2|]. exact Hthr.
Qed.
Print Assumptions C79_fit.

(** ** fit then transform *)

(** Series with at least as many points are transformed; every cell is computed from the distances to the shapelet, and for
    finite data and shapelets that are not normalised it is the smallest distance, its first position and the number of
    distances at most the threshold, in binary64 comparisons. *)
Theorem C79_transform : forall log2 log pow2 S (rng : Rng float S) RS (V : pyenv RS) ex X y s h s' h' n nf cols v vl X' n' cols' v' f m,
  let N := FN log2 log pow2 in
  libm_accurate log2 log pow2 -> RngLaws N rng -> real_executor ex -> passes (N := N) X n nf cols v vl -> 1 <= n -> 1 <= nf -> zlen y = n ->
  e_n_samples s = VNone -> (forall k, e_type s = TKind k -> kind_vl k = vl) -> (forall i, 0 <= i < n -> 4 <= cols i <= 2 ^ 40) ->
  (vl = true -> forall m, e_min_len s = Some m -> 4 <= m /\ forall i, 0 <= i < n -> m <= cols i) ->
  fit N rng V ex X y s h = (Ok tt, s', h') -> e_shapelets s' = Some f -> e_min_len s' = Some m ->
  passes (N := N) X' n' nf cols' v' vl -> 1 <= n' -> (forall i, 0 <= i < n' -> m <= cols' i) ->
  exists T, transform N s' X' = Ok T /\ zlen T = n' /\ (forall row, In row T -> zlen row = 3 * count_of f) /\
    ((forall i ch j, 0 <= i < n -> 0 <= ch < nf -> 0 <= j < cols i -> finite (v i ch j)) ->
     (forall i ch j, 0 <= i < n' -> 0 <= ch < nf -> 0 <= j < cols' i -> finite (v' i ch j)) ->
     forall i j chs vs l d thr, 0 <= i < n' -> shapelet_of f j chs vs l d thr false ->
       exists a, cell3 T i j a /\ is_features N (mdistances N (e_phase s) false (cols' i) (channels v' nf (cols' i) i) chs vs l d) thr a).
Proof.
  intros log2 log pow2 S rng RS V ex X y s h s' h' n nf cols v vl X' n' cols' v' f m N LA L HE HX Hn Hf Hy Hns Hty H4 Hml H Hsh Hmm HX' Hn' Hlong.
  destruct (any_fit_sound (binary64_laws log2 log pow2 rng LA L) V ex X y s h s' h' n nf cols v vl HE HX Hn Hf Hy Hns Hty H4 Hml H) as (k & f0 & m0 & HF).
  assert (f0 = f) by (pose proof (fa_shapelets _ _ _ _ _ _ _ _ _ _ _ _ _ HF); congruence).
  assert (m0 = m) by (pose proof (fa_min_len _ _ _ _ _ _ _ _ _ _ _ _ _ HF); congruence). subst f0 m0.
  assert (Hm : 4 <= m).
  { pose proof (fa_points _ _ _ _ _ _ _ _ _ _ _ _ _ HF) as Q. unfold common_points in Q. destruct (e_min_len s) as [g|] eqn:Eg.
    - destruct vl; [destruct (Hml eq_refl g eq_refl); lia|]. rewrite (Q 0 ltac:(lia)). apply H4. lia.
    - destruct Q as [(i & Hi & ->) _]. apply H4. exact Hi. }
  destruct (any_fit_long rng vl n nf cols v y s s' k f m X' n' cols' v' HF Hf Hm HX' Hn' Hlong) as (T & ET & T1 & T2 & T3).
  exists T. split; [exact ET|]. split; [exact T1|]. split; [exact T2|]. intros FX FX' i j chs vs l d thr Hi Hj.
  eexists. split; [exact (T3 i j chs vs l d thr false Hi Hj)|].
  destruct HF as [_ _ _ _ _ _ _ _ Hform _ _ (pmin & pmax & _ & F14)].
  destruct (F14 _ _ _ _ _ _ _ Hj) as [(A & (B1 & B2 & B3) & C & D & E & (i0 & t & i' & Hi0 & Ht & Hvs & _)) _].
  assert (Fvs : forall r, In r vs -> all_finite r).
  { intros r Hr x Hx. rewrite Hvs in Hr. apply in_map_iff in Hr as (ch & <- & Hch). cbn [seen] in Hx. apply In_nthZ in Hx as (q & Hq).
    assert (Hql : 0 <= q < l). { apply nthZ_range in Hq. unfold window in Hq. rewrite zlen_map, zlen_zrange in Hq. lia. }
    destruct (nth_window N (e_phase s) v i0 ch (cols i0) l d t q Hql Ht ltac:(lia)) as [R Q].
    assert (x = v i0 ch (pos (e_phase s) (cols i0) (t + q * d))) by (assert (EQ : Some x = Some (v i0 ch (pos (e_phase s) (cols i0) (t + q * d)))) by (rewrite <- Hq; exact Q); injection EQ as ->; reflexivity). subst x. apply FX; auto. }
  assert (Fch : forall ch, 0 <= ch < nf -> all_finite (points v' i ch (cols' i))).
  { intros ch Hch x Hx. apply in_map_iff in Hx as (q & <- & Hq). apply in_zrange in Hq. apply FX'; lia. }
  assert (Fr : forall r, In r (channels v' nf (cols' i) i) -> all_finite r).
  { intros r Hr. apply in_map_iff in Hr as (ch & <- & Hch). apply in_zrange in Hch. apply Fch. lia. }
  assert (ED : distances_to N (multi k) (e_phase s) false nf cols' v' i chs vs l d = mdistances N (e_phase s) false (cols' i) (channels v' nf (cols' i) i) chs vs l d).
  { clear Hvs. unfold distances_to. destruct (multi k) eqn:Ek; [reflexivity|]. inversion Hj; subst; [|discriminate]. change (nthd [] [v0] 0) with v0. unfold N. rewrite float_distances_mdistances.
    - rewrite zlen_points by (specialize (Hlong i Hi); lia). unfold mdistances. apply map_ext_in. intros w _. cbn [combine map fst snd]. rewrite nthd_channels by lia. reflexivity.
    - apply all_finite_iff. apply Fch. lia.
    - apply all_finite_iff. apply Fvs. left. reflexivity. }
  unfold N in ED |- *. rewrite ED. apply (feats_spec (FN log2 log pow2) is_number); [apply float_ord_laws|]. intros x Hx.
  destruct (C58_multivariate_distances log2 log pow2 _ _ _ _ _ _ _ x Fr Fvs Hx) as [P1 P2]. split; [apply is_number_nan; exact P1|exact P2].
Qed.
Print Assumptions C79_transform.

(** ** Percentiles just below 100 *)

(** 100 - 2^-46 is accepted as a percentile, but on two distances the rank is rounded to 2 and the element after the last is read (numba does not check the index). *)
Theorem C79_percentile_refuted : forall log2 log pow2, let N := FN log2 log pow2 in let q := 0x1.8ffffffffffffp+6%float in
  (0 <=? q)%float = true /\ (q <? 100)%float = true /\ percentiles N [1; 2]%float q q = Err OutOfBounds.
Proof. intros log2 log pow2. split; [reflexivity|]. split; [reflexivity|]. vm_compute. reflexivity. Qed.
Print Assumptions C79_percentile_refuted.

(** ** Concrete case: correctly rounded functions, two series of 4 and 5 points with an infinity and a NaN *)

Definition f64X : pyv float := VList [VArr [1; 4] DFloat64 (map VFloat [1; 0x1p1023; infinity; 2]%float); VArr [1; 5] DFloat64 (map VFloat [nan; 0; 3; 1; 0.5]%float)].
Definition f64v (i ch j : Z) : float := nthd 0%float (nthd [] [[1; 0x1p1023; infinity; 2]; [nan; 0; 3; 1; 0.5]]%float i) j.
Definition f64s : @est float := mkEst TAuto false (VFloat 0.5%float) false VNone 10 (ints [2; 11]) None (VFloat 0.5%float) false (VFloat 0%float)
  (VArr [2] DInt64 [VInt 5; VInt 10]) 0 (VBool false) None None None None.
Definition f64V : pyenv Z := mkEnv Z (fun s => s) (fun g => (g, g + 1)) (fun g n r k y => (Ok [0], g + 1)) 4 4.

Lemma f64_passes log2 log pow2 : passes (N := FN log2 log pow2) f64X 2 1 (fun i => nthd 0 [4; 5] i) f64v true.
Proof.
  assert (H4 : forall j, 0 <= j < 4 -> j = 0 \/ j = 1 \/ j = 2 \/ j = 3) by (intros; lia). assert (H5 : forall j, 0 <= j < 5 -> j = 0 \/ j = 1 \/ j = 2 \/ j = 3 \/ j = 4) by (intros; lia).
  eapply passes_collection; [left; reflexivity|reflexivity|]. intros i x Hx. pose proof (nthZ_range _ _ _ Hx) as R.
  assert (E : i = 0 \/ i = 1) by (change (0 <= i < 2) in R; lia). destruct E as [-> | ->]; injection Hx as <-.
  - split; [lia|]. split; [change (nthd 0 [4; 5] 0) with 4; lia|]. eexists. eexists. split; [reflexivity|]. split; [reflexivity|]. intros a j Ha Hj. assert (a = 0) by lia. subst a.
    destruct (H4 j Hj) as [-> |[-> |[-> | ->]]]; eexists; split; reflexivity.
  - split; [lia|]. split; [change (nthd 0 [4; 5] 1) with 5; lia|]. eexists. eexists. split; [reflexivity|]. split; [reflexivity|]. intros a j Ha Hj. assert (a = 0) by lia. subst a.
    destruct (H5 j Hj) as [-> |[-> |[-> |[-> | ->]]]]; eexists; split; reflexivity.
Qed.

Lemma frng_laws log2 log pow2 : RngLaws (FN log2 log pow2) frng.
Proof. constructor; [intros n s Hn; apply Z.mod_pos_bound; exact Hn|intros s; split; reflexivity]. Qed.

Example C79_case : exists log2 log pow2 s' h' T, libm_accurate log2 log pow2 /\ RngLaws (FN log2 log pow2) frng /\
  fit (FN log2 log pow2) frng f64V (fun ST => exec_seq) f64X [0; 1] f64s [7] = (Ok tt, s', h') /\ transform (FN log2 log pow2) s' f64X = Ok T /\ zlen T = 2.
Proof.
  exists (fun x => to_float (ln (fr x) / ln 2)), (fun x => to_float (ln (fr x))), (fun x => to_float (Rpower 2 (fr x))).
  pose proof rounded_accurate as LA. revert LA. generalize (fun x => to_float (ln (fr x) / ln 2)), (fun x => to_float (ln (fr x))), (fun x => to_float (Rpower 2 (fr x))). intros log2 log pow2 LA.
  pose proof (frng_laws log2 log pow2) as L. pose proof (f64_passes log2 log pow2) as HX.
  assert (H2 : forall i, 0 <= i < 2 -> i = 0 \/ i = 1) by (intros; lia).
  assert (HC : forall i, 0 <= i < 2 -> 4 <= nthd 0 [4; 5] i <= 2 ^ 40) by (intros i Hi; destruct (H2 i Hi) as [-> | ->]; split; apply Z.leb_le; reflexivity).
  assert (EF : exists s' h', fit (FN log2 log pow2) frng f64V (fun ST => exec_seq) f64X [0; 1] f64s [7] = (Ok tt, s', h')).
  { apply (C79_fit_total log2 log pow2 Z frng Z f64V (fun ST => exec_seq) f64X [0; 1] f64s [7] 2 1 (fun i => nthd 0 [4; 5] i) f64v true 4 [2; 11] 5%float 10%float LA L).
    - left. reflexivity.
    - exact HX.
    - lia.
    - lia.
    - reflexivity.
    - left. reflexivity.
    - discriminate.
    - lia.
    - exact HC.
    - split; [exists 0; split; [lia|reflexivity]|]. intros i Hi. destruct (HC i Hi); lia.
    - reflexivity.
    - apply Z.leb_le. reflexivity.
    - reflexivity.
    - reflexivity.
    - discriminate.
    - intros l [<-|[<-|[]]]; lia.
    - reflexivity.
    - split; [reflexivity|]. right. reflexivity.
    - split; [reflexivity|]. right. reflexivity.
    - eexists. reflexivity.
    - eexists. reflexivity.
    - split; [apply Z.leb_le|apply Z.ltb_lt]; reflexivity.
    - discriminate. }
  destruct EF as (s' & h' & EF).
  destruct (C79_fit log2 log pow2 Z frng Z f64V (fun ST => exec_seq) f64X [0; 1] f64s [7] s' h' 2 1 (fun i => nthd 0 [4; 5] i) f64v true LA L (or_introl eq_refl) HX ltac:(lia) ltac:(lia) eq_refl eq_refl
      ltac:(discriminate) HC ltac:(discriminate) EF) as (f & m & pmin & pmax & E1 & E2 & _ & _ & Hm & _).
  destruct (C79_transform log2 log pow2 Z frng Z f64V (fun ST => exec_seq) f64X [0; 1] f64s [7] s' h' 2 1 (fun i => nthd 0 [4; 5] i) f64v true f64X 2 (fun i => nthd 0 [4; 5] i) f64v f m LA L (or_introl eq_refl) HX ltac:(lia) ltac:(lia) eq_refl eq_refl
      ltac:(discriminate) HC ltac:(discriminate) EF E1 E2 HX ltac:(lia) Hm) as (T & ET & HT & _).
  exists s', h', T. split; [exact LA|]. split; [exact L|]. split; [exact EF|]. split; [exact ET|exact HT].
Qed.
