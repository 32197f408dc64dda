(** Properties of univariate shapelet generation (R_DST.fit on univariate data). *)
From Coq Require Import ZArith Znumtheory List Bool Reals Lra Lia Permutation.
From Coq Require Import Floats.
From Verif Require Import Prelude Num Kernel Spec KernelProofs RealBase Apply ApplyUni TransformProofs TransformLaws RealProofs SampleLaws Gen GenSched GenBase
  GenDraw GenSpec GenUFinal GenUTop GenULaws GenUCase.
Import ListNotations.
Open Scope Z_scope.

(** ** C22 *)

Theorem C22_univariate_draws_fit : forall S (rng : Rng R S) n sizes n_ts p_norm prime_scheme s values dr thr s',
  RngLaws RN rng -> (forall l, In l sizes -> 2 <= l <= n_ts) ->
  U_init RN rng n sizes n_ts p_norm prime_scheme s = Ok (values, dr, thr, s') ->
  zlen (dr_len dr) = n /\ zlen (dr_dil dr) = n /\
  forall i l d, nthZ (dr_len dr) i = Some l -> nthZ (dr_dil dr) i = Some d ->
    In l sizes /\ 1 <= d /\ (l - 1) * d <= n_ts - 1 /\ (prime_scheme = true -> d = 1 \/ prime d) /\
    forall m, n_ts <= m -> 1 <= nwin false m l d /\ 1 <= nwin true m l d.
Proof.
  intros S rng n sizes n_ts p_norm prime_scheme s values dr thr s' L HS H. destruct (U_init_inv rng L _ _ _ _ _ _ _ _ _ _ HS H) as (Hn & HD & _).
  split; [apply HD|]. split; [apply HD|]. intros i l d Hl Hd. pose proof (nthZ_range _ _ _ Hl) as Hi. rewrite (do_len _ _ _ _ _ HD) in Hi.
  pose proof (do_size _ _ _ _ _ HD i Hi) as A. pose proof (do_fit _ _ _ _ _ HD i Hi) as B. unfold GenUni.dlen, GenUni.ddil, nthd in *. rewrite Hl, Hd in *.
  destruct B as (B1 & B2 & B3). pose proof (HS l A). split; [exact A|]. split; [exact B1|]. split; [exact B2|]. split; [exact B3|]. intros m Hm. unfold nwin. nia.
Qed.
Print Assumptions C22_univariate_draws_fit.

Theorem C22_multivariate_draws_fit : forall S (rng : Rng R S) n sizes n_ts p_norm max_channels prime_scheme s values dr thr nch chan s',
  RngLaws RN rng -> (forall l, In l sizes -> 2 <= l <= n_ts) ->
  M_init RN rng n sizes n_ts p_norm max_channels prime_scheme s = Ok (values, dr, thr, nch, chan, s') ->
  zlen (dr_len dr) = n /\ zlen (dr_dil dr) = n /\ zlen nch = n /\ (forall c, In c nch -> 1 <= c <= max_channels) /\
  forall i l d, nthZ (dr_len dr) i = Some l -> nthZ (dr_dil dr) i = Some d ->
    In l sizes /\ 1 <= d /\ (l - 1) * d <= n_ts - 1 /\ (prime_scheme = true -> d = 1 \/ prime d) /\
    forall m, n_ts <= m -> 1 <= nwin false m l d /\ 1 <= nwin true m l d.
Proof.
  intros S rng n sizes n_ts p_norm mc prime_scheme s values dr thr nch chan s' L HS H. destruct (M_init_inv rng L _ _ _ _ _ _ _ _ _ _ _ _ _ HS H) as (Hn & HD & HC & HC2 & _).
  split; [apply HD|]. split; [apply HD|]. split; [exact HC|]. split; [exact HC2|]. intros i l d Hl Hd. pose proof (nthZ_range _ _ _ Hl) as Hi. rewrite (do_len _ _ _ _ _ HD) in Hi.
  pose proof (do_size _ _ _ _ _ HD i Hi) as A. pose proof (do_fit _ _ _ _ _ HD i Hi) as B. unfold GenUni.dlen, GenUni.ddil, nthd in *. rewrite Hl, Hd in *.
  destruct B as (B1 & B2 & B3). pose proof (HS l A). split; [exact A|]. split; [exact B1|]. split; [exact B2|]. split; [exact B3|]. intros m Hm. unfold nwin. nia.
Qed.
Print Assumptions C22_multivariate_draws_fit.

(** The draws always succeed on such sizes, so the hypotheses can be met: here 5 shapelets of lengths 2, 3 or 5 on 9 points. *)
Example C22_case : exists r, U_init RN crng 5 [2; 3; 5] 9 (1/2)%R true 3 = Ok r.
Proof. apply U_init_total; [exact crng_laws|discriminate| |lia]. intros l [<-|[<-|[<-|[]]]]; lia. Qed.

(** ** C23 *)

(** [points_of r n ph l d t w]: the values [w] are the points of the series at positions t, t+d, ..., t+(l-1)d (modulo
    [n] with phase invariance).  [seen RN nm w] is [w] or its z-normalisation. *)
Theorem C23_fitted_univariate_subsequences : forall S (rng : Rng R S) X y P T,
  RngLaws RN rng -> train_u (n_timestamps X) X y -> (forall l, In l (g_sizes P) -> 2 <= l <= n_timestamps X) ->
  fitted RN rng P (TrSL X y) T ->
  zlen (us_len T) <= g_n P /\ wf_ushp T /\
  forall k v l d thr nm, ushp_at T k v l d thr nm ->
    In l (g_sizes P) /\ 1 <= d /\ (l - 1) * d <= n_timestamps X - 1 /\
    (exists i x r t w, nthZ X i = Some x /\ nthZ x 0 = Some r /\ points_of r (n_timestamps X) (g_phase P) l d t w /\ v = seen RN nm w) /\
    (exists row, nthZ (us_values T) k = Some row /\ v = slice row 0 l /\ forall j x, l <= j -> nthZ row j = Some x -> x = 0%R).
Proof.
  intros S rng X y P T L HX HL HF. destruct (fitted_wf rng L P (TrSL X y) T HX HL HF) as [HW HZ]. split; [exact HZ|]. split; [exact HW|].
  intros k v l d thr nm HK. destruct (fitted_origin rng L P (TrSL X y) T k v l d thr nm HX HL HF HK) as (A & (B1 & B2 & _) & _).
  split; [exact A|]. split; [exact B1|]. split; [exact B2|]. split.
  - destruct (fitted_raw rng L P (TrSL X y) T k v l d thr nm HX HL HF HK) as (i & x & r & n & t & w & H1 & H2 & H3 & H4 & H5). cbn in H1, H3. subst n. eauto 10.
  - destruct HK as ((row & K1 & K2) & K3 & _). exists row. split; [exact K1|]. split; [exact K2|]. apply (fitted_rows rng L P (TrSL X y) T k row l HX HL HF K1 K3).
Qed.
Print Assumptions C23_fitted_univariate_subsequences.

(** On two series 1,2 and 3,5 a request of length 2 gives one of the two series, whatever the draws and the schedule. *)
Example C23_case : (exists T, fitted RN crng caseP caseTr T) /\
  forall T, fitted RN crng caseP caseTr T -> us_len T = [2] /\ us_dil T = [1] /\ (us_values T = [[1; 2]]%R \/ us_values T = [[3; 5]]%R).
Proof.
  destruct caseTr_ok as (HO & HL & HP). split.
  - destruct (fit_total crng crng_laws caseP caseTr HO HL HP ltac:(discriminate) ltac:(cbn; lia)) as [(T & HT) _]. exists T. apply fit_seq_fitted. exact HT.
  - intros T HT. destruct (caseTr_fit T HT) as (A & B & _ & _ & D). auto.
Qed.

(** The same, computed on integers: three series of 5 points, two shapelets of lengths 3 and 2. *)
Example C23_case_computed : U_SL_generate ZN zrng [[[1; 2; 4; 8; 3]]; [[3; 5; 1; 2; 2]]; [[0; 1; 0; 2; 7]]] [0; 1; 0] (mkG 2 [2; 3] 1 0 0 100 0 false false)
  = Ok (mkUshp [[0; 2; 7]; [1; 2; 0]] [3; 2] [1; 1] [4; 1] [false; false]).
Proof. vm_compute. reflexivity. Qed.

(** ** C24 *)

Theorem C24_fitted_variable_length_subsequences : forall S (rng : Rng R S) X X_len y min_len P T,
  RngLaws RN rng -> train_uv min_len X X_len y -> (forall l, In l (g_sizes P) -> 2 <= l <= min_len) ->
  fitted RN rng P (TrVL X X_len y min_len) T ->
  zlen (us_len T) <= g_n P /\ wf_ushp T /\
  forall k v l d thr nm, ushp_at T k v l d thr nm ->
    In l (g_sizes P) /\ 1 <= d /\ (l - 1) * d <= min_len - 1 /\
    (exists i x r n t w, nthZ X i = Some x /\ nthZ x 0 = Some r /\ nthZ X_len i = Some n /\ points_of r n (g_phase P) l d t w /\ v = seen RN nm w) /\
    (exists row, nthZ (us_values T) k = Some row /\ v = slice row 0 l /\ forall j x, l <= j -> nthZ row j = Some x -> x = 0%R).
Proof.
  intros S rng X X_len y ml P T L HX HL HF. destruct (fitted_wf rng L P (TrVL X X_len y ml) T HX HL HF) as [HW HZ]. split; [exact HZ|]. split; [exact HW|].
  intros k v l d thr nm HK. destruct (fitted_origin rng L P (TrVL X X_len y ml) T k v l d thr nm HX HL HF HK) as (A & (B1 & B2 & _) & _).
  split; [exact A|]. split; [exact B1|]. split; [exact B2|]. split.
  - destruct (fitted_raw rng L P (TrVL X X_len y ml) T k v l d thr nm HX HL HF HK) as (i & x & r & n & t & w & H1 & H2 & H3 & H4 & H5). cbn in H1, H3. exists i, x, r, n, t, w. auto.
  - destruct HK as ((row & K1 & K2) & K3 & _). exists row. split; [exact K1|]. split; [exact K2|]. apply (fitted_rows rng L P (TrVL X X_len y ml) T k row l HX HL HF K1 K3).
Qed.
Print Assumptions C24_fitted_variable_length_subsequences.

Example C24_case : tr_ok caseTv /\ lengths_ok casePv (tr_points caseTv) /\ exists T, fitted RN crng casePv caseTv T.
Proof.
  destruct caseTv_ok as (HO & HL & HP). split; [exact HO|]. split; [exact HL|].
  destruct (fit_total crng crng_laws casePv caseTv HO HL HP ltac:(discriminate) ltac:(cbn; lia)) as [(T & HT) _]. exists T. apply fit_seq_fitted. exact HT.
Qed.

(** computed on integers, padding 99 *)
Example C24_case_computed : U_VL_generate ZN zrng [[[1; 2; 4; 8; 99]]; [[3; 5; 1; 99; 99]]; [[0; 1; 0; 2; 7]]] [4; 3; 5] [0; 1; 0] 3 (mkG 3 [2; 3] 1 0 0 100 0 false false)
  = Ok (mkUshp [[3; 5; 1]; [5; 1; 0]; [2; 4; 8]] [3; 2; 3] [1; 1; 1] [0; 0; 5] [false; false; false]).
Proof. vm_compute. reflexivity. Qed.

(** ** C16, from fit to transform *)

Theorem C16_fit_then_transform : forall S (rng : Rng R S) c P T D,
  RngLaws RN rng -> tr_ok c -> lengths_ok P (tr_points c) -> fitted RN rng P c T -> run RN (tr_call c T) (g_phase P) = Ok D ->
  forall k v l d thr nm, ushp_at T k v l d thr nm ->
    exists s t a cnt, 0 <= s < tr_samples c /\ 0 <= t < zlen (tr_series c s) /\ v = seen RN nm (window RN (g_phase P) (tr_series c s) l d t) /\
      cell3 D s k (0%R, a, cnt) /\ exists q, a = IZR q /\ 0 <= q <= t.
Proof.
  intros S rng c P T D L HO HL HF HD k v l d thr nm HK. destruct (fitted_origin rng L P c T k v l d thr nm HO HL HF HK) as (Hl & (D1 & D2 & _) & s & t & s' & (C1 & C2 & C3) & _).
  destruct (train_features rng L P c T k v l d thr nm D s HO HL HF HD HK C1) as ([[m a] cnt] & Hc & Hf). pose proof (HL l Hl).
  assert (H0 : nthZ (distances RN (g_phase P) nm (tr_series c s) v l d) t = Some 0%R).
  { rewrite distances_mdistances. apply mdistances_self. split; [exact C2|]. rewrite C3. reflexivity. }
  destruct (features_self _ _ t (fun x Hx => distances_nonneg _ _ _ _ _ _ _ Hx) H0 m a cnt Hf) as [-> Ha].
  exists s, t, a, cnt. split; [exact C1|]. split; [unfold nwin in C2; destruct (g_phase P); nia|]. auto.
Qed.
Print Assumptions C16_fit_then_transform.

(** ** C27 *)

Theorem C27_thresholds : forall S (rng : Rng R S) c P T,
  RngLaws RN rng -> tr_ok c -> lengths_ok P (tr_points c) -> (0 <= g_pmin P <= g_pmax P)%R -> (g_pmax P <= 100)%R -> fitted RN rng P c T ->
  forall k v l d thr nm, ushp_at T k v l d thr nm ->
    exists s t s' a b, comes_from P c v l d nm s t /\
      0 <= s' < tr_samples c /\ nthZ (tr_labels c) s' = nthZ (tr_labels c) s /\
      (s' = s -> forall j, 0 <= j < tr_samples c -> nthZ (tr_labels c) j = nthZ (tr_labels c) s -> j = s) /\
      is_percentile (distances RN (g_phase P) nm (tr_series c s') v l d) (g_pmin P) a /\
      is_percentile (distances RN (g_phase P) nm (tr_series c s') v l d) (g_pmax P) b /\ (a <= thr <= b)%R /\
      forall D, run RN (tr_call c T) (g_phase P) = Ok D -> exists m arg q, cell3 D s' k (m, arg, IZR q) /\ 1 <= q.
Proof.
  intros S rng c P T L HO HL Hp1 Hp2 HF k v l d thr nm HK.
  destruct (fitted_origin rng L P c T k v l d thr nm HO HL HF HK) as (Hl & (D1 & D2 & _) & s & t & s' & HC & (A1 & A2 & A3) & HT). pose proof (HL l Hl) as Hl2.
  destruct (threshold_range _ _ _ _ (distances_ne (g_phase P) nm (tr_series c s') v l d ltac:(pose proof (tr_series_len c s' HO A1); unfold nwin; destruct (g_phase P); nia)) Hp1 Hp2 HT)
    as (a & b & P1 & P2 & P3 & P4).
  exists s, t, s', a, b. split; [exact HC|]. split; [exact A1|]. split; [exact A2|]. split; [exact A3|]. split; [exact P1|]. split; [exact P2|]. split; [exact P3|].
  intros D HD. destruct (train_features rng L P c T k v l d thr nm D s' HO HL HF HD HK A1) as ([[m arg] cnt] & Hc & Hf).
  destruct (features_count _ _ _ _ _ P4 Hf) as (q & -> & Hq). eauto.
Qed.
Print Assumptions C27_thresholds.

(** series 1,2 and 3,5 of the same class: the threshold is the distance between them *)
Example C27_case : forall T, fitted RN crng caseP caseTr T -> us_thr T = [5%R].
Proof. intros T HT. destruct (caseTr_fit T HT) as (_ & _ & _ & A & _). exact A. Qed.

(** ** C28 *)

(** There is an assignment [src] of a training series and a start to every returned shapelet, and for every dilation a
    requested length [ml] not above the lengths of the shapelets of that dilation, such that: *)
Theorem C28_starts_kept_apart : forall S (rng : Rng R S) c P T,
  RngLaws RN rng -> tr_ok c -> lengths_ok P (tr_points c) -> fitted RN rng P c T ->
  exists src ml, sources P c T src /\
    (forall k v l d thr nm, ushp_at T k v l d thr nm -> In (ml d) (g_sizes P) /\ ml d <= l) /\
    forall k k' v v' l l' d thr thr' nm s t t', k < k' -> ushp_at T k v l d thr nm -> ushp_at T k' v' l' d thr' nm ->
      nthZ src k = Some (s, t) -> nthZ src k' = Some (s, t') ->
      (forall j, 0 <= j < l - Z.max 1 (Rfloor ((1 - g_alpha P) * IZR (ml d))) ->
        t' <> (t - j * d) mod zlen (tr_series c s) /\ t' <> (t + j * d) mod zlen (tr_series c s)) /\
      (g_phase P = false -> l' = l -> forall ps, NoDup ps -> (forall p, In p ps -> time_point t l d p /\ time_point t' l d p) ->
        zlen ps <= Z.max 1 (Rfloor ((1 - g_alpha P) * IZR (ml d)))).
Proof.
  intros S rng c P T L HO HL HF. destruct (fitted_pruned rng L P c T HO HL HF) as (src & ml & A & B & D). exists src, ml. split; [exact A|]. split; [exact B|].
  intros k k' v v' l l' d thr thr' nm s t t' Hk HK HK' Hs Hs'. pose proof (D k k' v v' l l' d thr thr' nm s t t' Hk HK HK' Hs Hs') as HJ. split; [exact HJ|].
  intros Hph -> ps ND HP. destruct A as [_ A]. destruct (A _ _ _ _ _ _ _ _ HK' Hs') as (_ & Ht' & _). rewrite Hph in Ht'. unfold nwin in Ht'.
  destruct (fitted_origin rng L P c T k' v' l d thr' nm HO HL HF HK') as (Hl & (D1 & _) & _). pose proof (HL l Hl).
  apply (shared_points (zlen (tr_series c s)) t t' l d (Z.max 1 (Rfloor ((1 - g_alpha P) * IZR (ml d)))) D1); [lia|nia|exact HJ|exact ND|exact HP].
Qed.
Print Assumptions C28_starts_kept_apart.

(** With [0 <= alpha <= 1] the bound is at most the fraction [1 - alpha] of the points of the shapelet (and at least 1). *)
Theorem C28_overlap_fraction : forall S (rng : Rng R S) c P T,
  RngLaws RN rng -> tr_ok c -> lengths_ok P (tr_points c) -> fitted RN rng P c T -> g_phase P = false -> (0 <= g_alpha P <= 1)%R ->
  exists src, sources P c T src /\
    forall k k' v v' l d thr thr' nm s t t', k <> k' -> ushp_at T k v l d thr nm -> ushp_at T k' v' l d thr' nm ->
      nthZ src k = Some (s, t) -> nthZ src k' = Some (s, t') ->
      forall ps, NoDup ps -> (forall p, In p ps -> time_point t l d p /\ time_point t' l d p) ->
        (IZR (zlen ps) <= Rmax 1 ((1 - g_alpha P) * IZR l))%R.
Proof.
  intros S rng c P T L HO HL HF Hph Ha. destruct (C28_starts_kept_apart S rng c P T L HO HL HF) as (src & ml & A & B & D). exists src. split; [exact A|].
  assert (BND : forall k v l d thr nm n, ushp_at T k v l d thr nm -> n <= Z.max 1 (Rfloor ((1 - g_alpha P) * IZR (ml d))) -> (IZR n <= Rmax 1 ((1 - g_alpha P) * IZR l))%R).
  { intros k v l d thr nm n HK Hn. destruct (B _ _ _ _ _ _ HK) as [_ Hml]. apply IZR_le in Hml. apply IZR_le in Hn. eapply Rle_trans; [exact Hn|].
    destruct (Z.max_spec 1 (Rfloor ((1 - g_alpha P) * IZR (ml d)))) as [[_ ->]|[_ ->]]; [|apply Rmax_l].
    eapply Rle_trans; [|apply Rmax_r]. pose proof (Rfloor_spec ((1 - g_alpha P) * IZR (ml d))) as [F _]. nra. }
  intros k k' v v' l d thr thr' nm s t t' Hk HK HK' Hs Hs' ps ND HP. destruct (Z_lt_le_dec k k').
  - destruct (D k k' v v' l l d thr thr' nm s t t' l0 HK HK' Hs Hs') as [_ E]. eapply BND; [exact HK|]. apply (E Hph eq_refl ps ND HP).
  - destruct (D k' k v' v l l d thr' thr nm s t' t ltac:(lia) HK' HK Hs' Hs) as [_ E]. eapply BND; [exact HK|]. apply (E Hph eq_refl ps ND).
    intros p Hp. destruct (HP p Hp). auto.
Qed.
Print Assumptions C28_overlap_fraction.


(** alpha = 1, length 3, one series of 7 points, 5 requests: the starts are 2, 0 and 4 (one shared point each); no start is
    left for the last two. *)
Example C28_case : U_SL_generate ZN zrng [[[1; 2; 4; 8; 3; 6; 5]]] [0] (mkG 5 [3] 1 0 0 100 1 false false)
  = Ok (mkUshp [[4; 8; 3]; [1; 2; 4]; [3; 6; 5]] [3; 3; 3] [1; 1; 1] [0; 0; 0] [false; false; false]).
Proof. vm_compute. reflexivity. Qed.

(** ** C29 *)

(** The requests [hs] of a fit, in order; the result holds exactly the requests that are [kept]; a request is not kept
    exactly when no start was free for it or when the values sampled for it are all zero. *)
Theorem C29_missing_shapelets : forall S (rng : Rng R S) c P T,
  RngLaws RN rng -> tr_ok c -> lengths_ok P (tr_points c) -> fitted RN rng P c T ->
  exists hs W,
    account (g_phase P) (g_alpha P) (g_pmin P) (g_pmax P) (g_prime P) (g_sizes P) (tr_points c) (g_n P) (tr_samples c) (tr_series c) (tr_labels c) hs /\
    returned (tr_series c) P W hs T /\ zlen hs = g_n P /\
    forall i q, nthZ hs i = Some q ->
      (kept (g_phase P) (tr_series c) q = false <->
       (forall s t, ~ free_start (g_phase P) (g_alpha P) (tr_samples c) (tr_series c) hs i s t) \/
       (exists v, q_values (g_phase P) (tr_series c) q = Some v /\ forall x, In x v -> x = 0%R)).
Proof.
  intros S rng c P T L HO HL HF. destruct (fitted_sound rng L P c T HO HL HF) as (values & dr & th & s1 & hs & W & Hi & HA & _ & _ & _ & _ & HR).
  exists hs, W. split; [exact HA|]. split; [exact HR|]. split; [apply (ac_n _ _ _ _ _ _ _ _ _ _ _ _ HA)|]. intros i q Hq. apply account_missing; assumption.
Qed.
Print Assumptions C29_missing_shapelets.

(** On constant series fit returns no normalised shapelet. *)
Theorem C29_constant_series : forall S (rng : Rng R S) c P T,
  RngLaws RN rng -> tr_ok c -> lengths_ok P (tr_points c) -> fitted RN rng P c T ->
  (forall s, 0 <= s < tr_samples c -> exists a, forall x, In x (tr_series c s) -> x = a) ->
  forall nm, In nm (us_norm T) -> nm = false.
Proof.
  intros S rng c P T L HO HL HF HC nm Hnm. destruct (fitted_wf rng L P c T HO HL HF) as [(W1 & W2 & W3 & W4 & _) _]. apply In_nthZ in Hnm as (k & Hk). pose proof (nthZ_range _ _ _ Hk).
  assert (HK : ushp_at T k (slice (nthd [] (us_values T) k) 0 (nthd 0 (us_len T) k)) (nthd 0 (us_len T) k) (nthd 0 (us_dil T) k) (nthd 0%R (us_thr T) k) nm).
  { split; [exists (nthd [] (us_values T) k); split; [apply nthZ_nthd; lia|reflexivity]|]. split; [apply nthZ_nthd; lia|]. split; [apply nthZ_nthd; lia|]. split; [apply nthZ_nthd; lia|exact Hk]. }
  destruct (fitted_nonzero rng L P c T _ _ _ _ _ _ HO HL HF HK) as (x & Hx & Hx0). destruct (fitted_origin rng L P c T _ _ _ _ _ _ HO HL HF HK) as (Hl & (D1 & D2 & _) & s & t & s' & (C1 & C2 & C3) & _).
  destruct nm; [|reflexivity]. exfalso. apply Hx0. rewrite C3 in Hx. destruct (HC s C1) as (a & Ha). pose proof (HL _ Hl) as Hl2. eapply (zscore_const _ a); [|exact Hx].
  intros z Hz. apply Ha. apply In_nthZ in Hz as (j & Hz). pose proof (nthZ_range _ _ _ Hz) as Rj. rewrite zlen_window in Rj by lia.
  rewrite nthZ_window in Hz; [eapply nthZ_In; exact Hz| |exact C2|exact Rj]. unfold fits, nwin in *. destruct (g_phase P); [lia|]. nia.
Qed.
Print Assumptions C29_constant_series.

(** all zeros: both series of the class give only zero windows, and nothing is returned *)
Example C29_case : U_SL_generate ZN zrng [[[0; 0; 0]]; [[0; 0; 0]]] [0; 1] (mkG 3 [2] 1 0 0 100 1 false false) = Ok (mkUshp [] [] [] [] []).
Proof. vm_compute. reflexivity. Qed.

Example C29_constant_case : tr_ok (TrSL [[[4; 4; 4]]; [[7; 7; 7]]]%R [0; 1]) /\
  forall s, 0 <= s < 2 -> exists a, forall x, In x (tr_series (TrSL [[[4; 4; 4]]; [[7; 7; 7]]]%R [0; 1]) s) -> x = a.
Proof.
  split.
  - split; [discriminate|]. split; [intros x [<-|[<-|[]]]; discriminate|]. split; [reflexivity|]. split; [|reflexivity]. intros x r [<-|[<-|[]]] [<-|[]]; reflexivity.
  - intros s Hs. assert (s = 0 \/ s = 1) as [-> | ->] by lia; [exists 4%R|exists 7%R]; intros x [<-|[<-|[<-|[]]]]; reflexivity.
Qed.

(** ** C30 *)

Theorem C30_univariate_fit_total : forall S (rng : Rng R S) c P,
  RngLaws RN rng -> tr_ok c -> lengths_ok P (tr_points c) -> percentiles_ok P -> g_sizes P <> [] -> 1 <= g_n P ->
  (exists T, fit_seq rng P c = Ok T) /\ (forall rs sched, scheduler sched -> exists T, fit_par rng P rs sched c = Ok T).
Proof.
  intros S rng c P L HO HL HP Hs Hn. destruct (fit_total rng L P c HO HL HP Hs Hn) as [A B]. split; [exact A|]. intros rs sched HS. destruct (B rs) as (T & HT). eauto.
Qed.
Print Assumptions C30_univariate_fit_total.

(** and the result can be applied to the training data *)
Theorem C30_univariate_fit_then_transform : forall S (rng : Rng R S) c P T,
  RngLaws RN rng -> tr_ok c -> lengths_ok P (tr_points c) -> fitted RN rng P c T -> exists D, run RN (tr_call c T) (g_phase P) = Ok D.
Proof. intros S rng c P T L. apply fitted_transform. exact L. Qed.
Print Assumptions C30_univariate_fit_then_transform.

Example C30_case : RngLaws RN crng /\ tr_ok caseTv /\ lengths_ok casePv (tr_points caseTv) /\ percentiles_ok casePv /\ g_sizes casePv <> [] /\ 1 <= g_n casePv.
Proof. split; [exact crng_laws|]. destruct caseTv_ok as (A & B & D). split; [exact A|]. split; [exact B|]. split; [exact D|]. split; [discriminate|cbn; lia]. Qed.

(** ** C32 *)

(** The (length, dilation, normalise) of the requests are determined by the seed: the list [ps] below is the same for all
    training sets with [n] points, schedules and random states; a fit returns a subsequence of it. *)
Theorem C32_parameters_determined_by_seed : forall S (rng : Rng R S) P n, RngLaws RN rng ->
  exists ps, forall c T, tr_ok c -> tr_points c = n -> lengths_ok P n -> fitted RN rng P c T -> zlen ps = g_n P /\ subseq (parameters T) ps.
Proof. intros S rng P n L. apply fitted_parameters. exact L. Qed.
Print Assumptions C32_parameters_determined_by_seed.

(** But the shapelets themselves are not determined by the seed when iterations run on threads with other random states:
    here the same call, on the same data with the same seed, returns either series. *)
Theorem C32_reproducible_refuted : forall log2 log pow2, log2 1%float = 0%float -> pow2 0%float = 1%float ->
  exists (rng : Rng float Z) X y P (rs rs' : Z -> Z) sched T T', scheduler sched /\
    U_SL_generate_par (FN log2 log pow2) rng rs sched X y P = Ok T /\ U_SL_generate_par (FN log2 log pow2) rng rs' sched X y P = Ok T' /\
    us_values T = [[1; 2]]%float /\ us_values T' = [[3; 5]]%float.
Proof.
  intros log2 log pow2 H1 H2. destruct (U_init_case log2 log pow2 H1 H2) as (s & E).
  exists frng, [[[1; 2]]; [[3; 5]]]%float, [0; 0], casePf, (fun _ => 0), (fun _ => 1), seq_sched, (mkUshp [[1; 2]]%float [2] [1] [5]%float [false]), (mkUshp [[3; 5]]%float [2] [1] [5]%float [false]).
  split; [apply seq_sched_scheduler|].
  unfold U_SL_generate_par, U_SL_generate_with. change (g_n casePf) with 1. change (g_sizes casePf) with [2]. change (g_pnorm casePf) with 0%float. change (g_prime casePf) with false.
  change (r_seed frng (g_seed casePf)) with 7. change (n_timestamps [[[1; 2]]; [[3; 5]]]%float) with 2. rewrite E. cbn [bind]. split; [vm_compute; reflexivity|]. split; [vm_compute; reflexivity|]. auto.
Qed.
Print Assumptions C32_reproducible_refuted.

Example C32_case : subseq (parameters (mkUshp [[1; 2]; [3; 5]] [2; 2] [1; 3] [5; 5] [false; true])) [(2, 1, false); (2, 2, true); (2, 3, true)].
Proof. apply sub_take, sub_skip, sub_take, sub_nil. Qed.

(** ** C60 *)

(** Given the random states, the result of a parallel execution does not depend on the interleaving. *)
Theorem C60_univariate_schedule_independent : forall S (rng : Rng R S) c P,
  RngLaws RN rng -> tr_ok c -> lengths_ok P (tr_points c) -> percentiles_ok P -> g_sizes P <> [] -> 1 <= g_n P ->
  forall rs, exists T, forall sched, scheduler sched -> fit_par rng P rs sched c = Ok T.
Proof. intros S rng c P L HO HL HP Hs Hn. apply (fit_total rng L P c HO HL HP Hs Hn). Qed.
Print Assumptions C60_univariate_schedule_independent.

(** [C30_case] meets the hypotheses.  Computed on integers: dilations 8, 1, 8, so two groups, in both orders. *)
Example C60_univariate_case : scheduler seq_sched /\ scheduler back_sched /\ seq_sched [8; 1; 8] = [(0, 1); (1, 0); (1, 2)] /\ back_sched [8; 1; 8] = [(1, 0); (1, 2); (0, 1)] /\
  let X := [[[1; 2; 4; 8; 3; 5; 7; 6; 1]]; [[3; 5; 1; 2; 2; 9; 0; 8; 3]]; [[0; 1; 0; 2; 7; 4; 4; 1; 6]]] in
  let P := mkG 3 [2; 3] 0 0 0 100 0 false false in
  forall sched, sched = seq_sched \/ sched = back_sched -> U_SL_generate_par ZN z2rng (fun i => 10 + 3 * i) sched X [0; 1; 0] P = Ok (mkUshp [[3; 3; 0]; [3; 5; 1]; [3; 3; 0]] [2; 3; 2] [8; 1; 8] [0; 18; 0] [false; false; false]).
Proof.
  split; [exact seq_sched_scheduler|]. split; [exact back_sched_scheduler|]. split; [reflexivity|]. split; [reflexivity|].
  intros X P sched [->| ->]; vm_compute; reflexivity.
Qed.

(** ** C61 *)

Theorem C61_normalisation_proportion_ends : forall S (rng : Rng R S) c P T,
  RngLaws RN rng -> tr_ok c -> lengths_ok P (tr_points c) -> fitted RN rng P c T ->
  ((g_pnorm P <= 0)%R -> forall nm, In nm (us_norm T) -> nm = false) /\ ((1 <= g_pnorm P)%R -> forall nm, In nm (us_norm T) -> nm = true).
Proof.
  intros S rng c P T L HO HL HF. destruct (fitted_wf rng L P c T HO HL HF) as [(W1 & W2 & W3 & W4 & _) _].
  assert (H : forall nm, In nm (us_norm T) -> exists u, (0 <= u < 1)%R /\ (nm = true <-> (u < g_pnorm P)%R)).
  { intros nm Hnm. apply In_nthZ in Hnm as (k & Hk). pose proof (nthZ_range _ _ _ Hk).
    eapply (fitted_flags rng L P c T k (slice (nthd [] (us_values T) k) 0 (nthd 0 (us_len T) k)) (nthd 0 (us_len T) k) (nthd 0 (us_dil T) k) (nthd 0%R (us_thr T) k) nm HO HL HF).
    split; [exists (nthd [] (us_values T) k); split; [apply nthZ_nthd; lia|reflexivity]|]. split; [apply nthZ_nthd; lia|]. split; [apply nthZ_nthd; lia|]. split; [apply nthZ_nthd; lia|exact Hk]. }
  split; intros Hp nm Hnm; destruct (H nm Hnm) as (u & Hu & E).
  - destruct nm; [|reflexivity]. assert (u < g_pnorm P)%R by (apply E; reflexivity). lra.
  - apply E. lra.
Qed.
Print Assumptions C61_normalisation_proportion_ends.

Example C61_case : forall T, fitted RN crng caseP caseTr T -> g_pnorm caseP = 0%R /\ us_norm T = [false].
Proof. intros T HT. destruct (caseTr_fit T HT) as (_ & _ & A & _). split; [reflexivity|exact A]. Qed.
