(** Properties of multivariate shapelet generation (R_DST.fit on multivariate data). *)
From Coq Require Import ZArith Znumtheory List Bool Reals Lra Lia Permutation.
From Verif Require Import Prelude Num Kernel Spec KernelProofs RealBase Apply ApplyUni ApplyMulti TransformProofs TransformLaws RealProofs SampleLaws Gen GenSched GenBase
  GenDraw GenSpec GenUFinal GenUTop GenULaws GenUCase GenMSpec GenMFinal GenMTop GenMLaws GenMCase.
Import ListNotations.
Open Scope Z_scope.

(** ** C25 *)

(** [packed_at T k ...] reads shapelet [k] out of the flat arrays; [points_of] is as in C23. *)
Theorem C25_fitted_multivariate_subsequences : forall S (rng : Rng R S) X y P mc T,
  RngLaws RN rng -> train_m (n_features X) (n_timestamps X) X y -> (forall l, In l (g_sizes P) -> 2 <= l <= n_timestamps X) ->
  mfitted RN rng P mc (TrMSL X y) T ->
  zlen (ms_len T) <= g_n P /\
  (forall k, 0 <= k < zlen (ms_len T) -> exists chs vs l d thr nm, packed_at T k chs vs l d thr nm) /\
  forall k chs vs l d thr nm, packed_at T k chs vs l d thr nm ->
    In l (g_sizes P) /\ 1 <= d /\ (l - 1) * d <= n_timestamps X - 1 /\
    1 <= zlen chs <= mc /\ NoDup chs /\ (forall ch, In ch chs -> 0 <= ch < n_features X) /\
    exists i x t ws, nthZ X i = Some x /\ vs = map (seen RN nm) ws /\
      Forall2 (fun ch w => exists r, nthZ x ch = Some r /\ points_of r (n_timestamps X) (g_phase P) l d t w) chs ws.
Proof.
  intros S rng X y P mc T L HX HL HF. destruct (mfitted_packed rng L P mc (TrMSL X y) T HX HL HF) as [(Lg & HP & _) HZ]. split; [exact HZ|].
  split; [intros k Hk; eapply packed_exists; eauto|]. intros k chs vs l d thr nm HK.
  destruct (mfitted_origin rng L P mc (TrMSL X y) T k chs vs l d thr nm HX HL HF HK) as (A & (B1 & B2 & _) & D1 & D2 & D3 & _).
  split; [exact A|]. split; [exact B1|]. split; [exact B2|]. split; [exact D1|]. split; [exact D2|]. split; [exact D3|].
  destruct (mfitted_raw rng L P mc (TrMSL X y) T k chs vs l d thr nm HX HL HF HK) as (i & x & n & t & ws & H1 & -> & H3 & H4). exists i, x, t, ws. auto.
Qed.
Print Assumptions C25_fitted_multivariate_subsequences.

Example C25_case : RngLaws RN crng /\ mt_ok caseMr /\ lengths_ok caseMP (mt_points caseMr) /\ exists T, mfitted RN crng caseMP 2 caseMr T.
Proof.
  destruct caseMr_ok as (HO & HL & HP & HC). split; [exact crng_laws|]. split; [exact HO|]. split; [exact HL|].
  destruct (mfit_total crng crng_laws caseMP 2 caseMr HO HL HP HC ltac:(discriminate) ltac:(cbn; lia)) as [(T & HT) _]. exists T. apply mfit_seq_fitted. exact HT.
Qed.

(** computed on integers: 3 requests; the first has channels 0 and 1 of the second series *)
Example C25_case_computed :
  let T := mkMshp [3; 5; 1; 0; 1; 2; 2; 2; 1; 2; 2; 2; 3; 4] [3; 2; 3] [1; 1; 1] [0; 0; 0] [false; false; false] [2; 1; 2] [0; 1; 0; 0; 1] in
  M_SL_generate ZN zrng [[[1; 2; 4; 8; 3]; [9; 8; 7; 6; 5]]; [[3; 5; 1; 2; 2]; [0; 1; 2; 3; 4]]; [[0; 1; 0; 2; 7]; [11; 12; 13; 14; 15]]] [0; 1; 0] 2 (mkG 3 [2; 3] 1 0 0 100 0 false false) = Ok T /\
  packed_at T 0 [0; 1] [[3; 5; 1]; [0; 1; 2]] 3 1 0 false /\ packed_at T 1 [0] [[2; 2]] 2 1 0 false /\ packed_at T 2 [0; 1] [[1; 2; 2]; [2; 3; 4]] 3 1 0 false.
Proof. split; [vm_compute; reflexivity|]. split; [exists 2|split; [exists 1|exists 2]]; repeat split; reflexivity. Qed.

(** ** C26 *)

Theorem C26_fitted_multivariate_variable_length : forall S (rng : Rng R S) X X_len y min_len P mc T,
  RngLaws RN rng -> train_mv (n_features X) min_len X X_len y -> (forall l, In l (g_sizes P) -> 2 <= l <= min_len) ->
  mfitted RN rng P mc (TrMVL X X_len y min_len) T ->
  zlen (ms_len T) <= g_n P /\
  (forall k, 0 <= k < zlen (ms_len T) -> exists chs vs l d thr nm, packed_at T k chs vs l d thr nm) /\
  forall k chs vs l d thr nm, packed_at T k chs vs l d thr nm ->
    In l (g_sizes P) /\ 1 <= d /\ (l - 1) * d <= min_len - 1 /\
    1 <= zlen chs <= mc /\ NoDup chs /\ (forall ch, In ch chs -> 0 <= ch < n_features X) /\
    exists i x n t ws, nthZ X i = Some x /\ nthZ X_len i = Some n /\ vs = map (seen RN nm) ws /\
      Forall2 (fun ch w => exists r, nthZ x ch = Some r /\ points_of r n (g_phase P) l d t w) chs ws.
Proof.
  intros S rng X X_len y ml P mc T L HX HL HF. destruct (mfitted_packed rng L P mc (TrMVL X X_len y ml) T HX HL HF) as [(Lg & HP & _) HZ]. split; [exact HZ|].
  split; [intros k Hk; eapply packed_exists; eauto|]. intros k chs vs l d thr nm HK.
  destruct (mfitted_origin rng L P mc (TrMVL X X_len y ml) T k chs vs l d thr nm HX HL HF HK) as (A & (B1 & B2 & _) & D1 & D2 & D3 & _).
  split; [exact A|]. split; [exact B1|]. split; [exact B2|]. split; [exact D1|]. split; [exact D2|]. split; [exact D3|].
  destruct (mfitted_raw rng L P mc (TrMVL X X_len y ml) T k chs vs l d thr nm HX HL HF HK) as (i & x & n & t & ws & H1 & H2 & H3 & H4). exists i, x, n, t, ws. auto.
Qed.
Print Assumptions C26_fitted_multivariate_variable_length.

Example C26_case : RngLaws RN crng /\ mt_ok caseMv /\ lengths_ok caseMP (mt_points caseMv) /\ exists T, mfitted RN crng caseMP 2 caseMv T.
Proof.
  destruct caseMv_ok as (HO & HL & HP & HC). split; [exact crng_laws|]. split; [exact HO|]. split; [exact HL|].
  destruct (mfit_total crng crng_laws caseMP 2 caseMv HO HL HP HC ltac:(discriminate) ltac:(cbn; lia)) as [(T & HT) _]. exists T. apply mfit_seq_fitted. exact HT.
Qed.

(** computed on integers, padding 99 *)
Example C26_case_computed :
  M_VL_generate ZN zrng [[[1; 2; 4; 8; 99]; [9; 8; 7; 6; 99]]; [[3; 5; 1; 99; 99]; [0; 1; 2; 99; 99]]; [[0; 1; 0; 2; 7]; [11; 12; 13; 14; 15]]] [4; 3; 5] [0; 1; 0] 2 3 (mkG 3 [2; 3] 1 0 0 100 0 false false)
  = Ok (mkMshp [1; 0; 2; 12; 13; 14; 0; 1; 12; 13; 14; 1; 0; 2] [3; 2; 3] [1; 1; 1] [19; 0; 19] [false; false; false] [2; 1; 2] [0; 1; 1; 1; 0]).
Proof. vm_compute. reflexivity. Qed.

(** ** C31 *)

(** Whatever the requests and whatever the subset removed: the arrays returned, read through the offsets the transform
    computes, give back the channels and values of each remaining request. *)
Theorem C31_packing_round_trip : forall F (N : NumOps F) masks (rs : list (stored F)), (forall r, In r rs -> stored_ok r) ->
  exists T, M_finish N (flat_drawn rs) (map (fun r => zlen (sd_chs r)) rs) (flat_state masks rs) = Ok T /\
    zlen (ms_len T) = zlen (filter sd_kept rs) /\
    forall k r, nthZ (filter sd_kept rs) k = Some r ->
      packed_at T k (sd_chs r) (sd_vals r) (sd_len r) (sd_dil r) (sd_thr r) (sd_norm r) /\
      forall strides, m_one N T strides k (sd_len r) = (let* sel := mapM (get strides) (sd_chs r) in apply_one_multivariate N sel (sd_vals r) (sd_thr r)).
Proof.
  intros F N masks rs HR. destruct (finish_flat N masks rs HR) as (T & HT & HP & E1 & E2 & E3 & E4). exists T. split; [exact HT|]. split; [rewrite E1, zlen_map; reflexivity|].
  intros k r Hk.
  assert (HM : mshp_at T (map (fun r => (sd_chs r, sd_vals r)) (filter sd_kept rs)) k (sd_chs r) (sd_vals r) (sd_len r) (sd_dil r) (sd_thr r) (sd_norm r)).
  { unfold mshp_at. rewrite E1, E2, E3, E4, !nthZ_map, Hk. auto. }
  split; [eapply mshp_packed; eauto|]. intros strides. destruct HM as (M1 & M2 & M3 & M4 & M5). eapply m_one_unpack; eauto.
Qed.
Print Assumptions C31_packing_round_trip.

(** three requests with 2, 1 and 2 channels, the second removed *)
Example C31_case : let rs := [mkStored 2 1 false [1; 0] [[10; 11]; [12; 13]] 1 true; mkStored 3 2 true [2] [[0; 0; 0]] 0 false; mkStored 3 1 true [0; 2] [[1; 2; 3]; [4; 5; 6]] 7 true] in
  (forall r, In r rs -> stored_ok r) /\
  M_finish ZN (flat_drawn rs) [2; 1; 2] (flat_state [] rs) = Ok (mkMshp [10; 11; 12; 13; 1; 2; 3; 4; 5; 6] [2; 3] [1; 1] [1; 7] [false; true] [2; 2] [1; 0; 0; 2]).
Proof.
  split; [|vm_compute; reflexivity]. intros r [<-|[<-|[<-|[]]]]; unfold stored_ok; cbn [sd_len sd_dil sd_chs sd_vals];
  (split; [lia|]; split; [lia|]; split; [cbn; lia|]; split; [reflexivity|]; intros w [<-|Hw]; [reflexivity|]); try (destruct Hw as [<-|[]]; reflexivity); destruct Hw.
Qed.

(** ** C16, from fit to transform *)

Theorem C16_multivariate_fit_then_transform : forall S (rng : Rng R S) c P mc T D,
  RngLaws RN rng -> mt_ok c -> lengths_ok P (mt_points c) -> mfitted RN rng P mc c T -> mt_run RN c T (g_phase P) = Ok D ->
  forall k chs vs l d thr nm, packed_at T k chs vs l d thr nm ->
    exists s t a cnt, 0 <= s < mt_samples c /\ 0 <= t < mt_len c s /\
      vs = map (fun ch => seen RN nm (window RN (g_phase P) (nthd [] (mt_series c s) ch) l d t)) chs /\
      cell3 D s k (0%R, a, cnt) /\ exists q, a = IZR q /\ 0 <= q <= t.
Proof.
  intros S rng c P mc T D L HO HL HF HD k chs vs l d thr nm HK.
  destruct (mfitted_origin rng L P mc c T k chs vs l d thr nm HO HL HF HK) as (Hl & (D1 & D2 & _) & _ & _ & _ & s & t & s' & (C1 & C2 & C3) & _).
  destruct (mtrain_features rng L P mc c T k chs vs l d thr nm D s HO HL HF HD HK C1) as ([[m a] cnt] & Hc & Hf). pose proof (HL l Hl).
  assert (H0 : nthZ (mdistances RN (g_phase P) nm (mt_len c s) (mt_series c s) chs vs l d) t = Some 0%R) by (apply mdistances_self; split; [exact C2|exact C3]).
  destruct (features_self _ _ t (fun x Hx => mdistances_nonneg _ _ _ _ _ _ _ _ _ Hx) H0 m a cnt Hf) as [-> Ha].
  exists s, t, a, cnt. split; [exact C1|]. split; [unfold nwin in C2; destruct (g_phase P); nia|]. auto.
Qed.
Print Assumptions C16_multivariate_fit_then_transform.

(** ** C27 *)

Theorem C27_multivariate_thresholds : forall S (rng : Rng R S) c P mc T,
  RngLaws RN rng -> mt_ok c -> lengths_ok P (mt_points c) -> (0 <= g_pmin P <= g_pmax P)%R -> (g_pmax P <= 100)%R -> mfitted RN rng P mc c T ->
  forall k chs vs l d thr nm, packed_at T k chs vs l d thr nm ->
    exists s t s' a b, mcomes_from P c chs vs l d nm s t /\
      0 <= s' < mt_samples c /\ nthZ (mt_labels c) s' = nthZ (mt_labels c) s /\
      (s' = s -> forall j, 0 <= j < mt_samples c -> nthZ (mt_labels c) j = nthZ (mt_labels c) s -> j = s) /\
      is_percentile (mdistances RN (g_phase P) nm (mt_len c s') (mt_series c s') chs vs l d) (g_pmin P) a /\
      is_percentile (mdistances RN (g_phase P) nm (mt_len c s') (mt_series c s') chs vs l d) (g_pmax P) b /\ (a <= thr <= b)%R /\
      forall D, mt_run RN c T (g_phase P) = Ok D -> exists m arg q, cell3 D s' k (m, arg, IZR q) /\ 1 <= q.
Proof.
  intros S rng c P mc T L HO HL Hp1 Hp2 HF k chs vs l d thr nm HK.
  destruct (mfitted_origin rng L P mc c T k chs vs l d thr nm HO HL HF HK) as (Hl & (D1 & D2 & _) & _ & _ & _ & s & t & s' & HC & (A1 & A2 & A3) & HT). pose proof (HL l Hl) as Hl2.
  destruct (threshold_range _ _ _ _ (mdistances_ne (g_phase P) nm (mt_len c s') (mt_series c s') chs vs l d ltac:(pose proof (mt_len_ok c s' HO A1); unfold nwin; destruct (g_phase P); nia)) Hp1 Hp2 HT)
    as (a & b & P1 & P2 & P3 & P4).
  exists s, t, s', a, b. split; [exact HC|]. split; [exact A1|]. split; [exact A2|]. split; [exact A3|]. split; [exact P1|]. split; [exact P2|]. split; [exact P3|].
  intros D HD. destruct (mtrain_features rng L P mc c T k chs vs l d thr nm D s' HO HL HF HD HK A1) as ([[m arg] cnt] & Hc & Hf).
  destruct (features_count _ _ _ _ _ P4 Hf) as (q & -> & Hq). eauto.
Qed.
Print Assumptions C27_multivariate_thresholds.

Example C27_multivariate_case : (0 <= g_pmin caseMP <= g_pmax caseMP)%R /\ (g_pmax caseMP <= 100)%R /\ exists T, mfitted RN crng caseMP 2 caseMr T.
Proof. split; [cbn; lra|]. split; [cbn; lra|]. apply C25_case. Qed.

(** ** C28 *)

(** There is an assignment [src] of a training series and a start to every returned shapelet, and for every dilation a
    requested length [ml], such that at most the fraction [1 - alpha] of the channels of a shapelet is [covered] there by
    earlier shapelets of the same dilation and normalisation. *)
Theorem C28_multivariate_channels_kept_apart : forall S (rng : Rng R S) c P mc T,
  RngLaws RN rng -> mt_ok c -> lengths_ok P (mt_points c) -> mfitted RN rng P mc c T ->
  exists src ml, msources P c T src /\
    (forall k chs vs l d thr nm, packed_at T k chs vs l d thr nm -> In (ml d) (g_sizes P) /\ ml d <= l) /\
    forall k chs vs l d thr nm s t, packed_at T k chs vs l d thr nm -> nthZ src k = Some (s, t) ->
      forall cs, NoDup cs -> (forall ch, In ch cs -> In ch chs /\ covered P (mt_len c s) T src ml k s t d nm ch) ->
      (IZR (zlen cs) <= (1 - g_alpha P) * IZR (zlen chs))%R.
Proof. intros S rng c P mc T L. apply mfitted_pruned. exact L. Qed.
Print Assumptions C28_multivariate_channels_kept_apart.

(** alpha = 1, one series of 7 points and 2 channels, 6 requests of length 3: the starts are 2, 4 (channel 0 only) and 0 (both
    channels); no start is left for the others. *)
Example C28_multivariate_case : M_SL_generate ZN zrng [[[1; 2; 4; 8; 3; 6; 5]; [9; 8; 7; 6; 5; 4; 3]]] [0] 2 (mkG 6 [3] 1 0 0 100 1 false false)
  = Ok (mkMshp [4; 8; 3; 7; 6; 5; 3; 6; 5; 1; 2; 4; 9; 8; 7] [3; 3; 3] [1; 1; 1] [0; 0; 0] [false; false; false] [2; 1; 2] [0; 1; 0; 0; 1]).
Proof. vm_compute. reflexivity. Qed.

(** ** C29 *)

(** On multivariate data a request is missing from the result exactly when no start was free for it. *)
Theorem C29_multivariate_missing_shapelets : forall S (rng : Rng R S) c P mc T,
  RngLaws RN rng -> mt_ok c -> lengths_ok P (mt_points c) -> mfitted RN rng P mc c T ->
  exists hs,
    maccount (g_phase P) (g_alpha P) (g_pmin P) (g_pmax P) (g_prime P) (g_sizes P) (mt_points c) (g_n P) mc (mt_nf c) (mt_samples c) (mt_series c) (mt_len c) (mt_labels c) hs /\
    mreturned (mt_series c) P hs T /\ zlen hs = g_n P /\
    forall i q, nthZ hs i = Some q ->
      (mkept q = false <-> forall s t, ~ mfree_start (g_phase P) (g_alpha P) (mt_samples c) (mt_len c) hs i s t).
Proof.
  intros S rng c P mc T L HO HL HF. destruct (mfitted_sound rng L P mc c T HO HL HF) as (values & dr & th & nch & chan & s1 & hs & Hi & HA & _ & _ & _ & _ & HR).
  exists hs. split; [exact HA|]. split; [exact HR|]. split; [apply (mac_n _ _ _ _ _ _ _ _ _ _ _ _ _ _ _ HA)|]. intros i q Hq. eapply maccount_missing; eauto.
Qed.
Print Assumptions C29_multivariate_missing_shapelets.

(** Unlike the univariate case, zero shapelets stay: compare C29_case. *)
Example C29_multivariate_case : M_SL_generate ZN zrng [[[0; 0; 0]; [0; 0; 0]]; [[0; 0; 0]; [0; 0; 0]]] [0; 1] 1 (mkG 2 [2] 1 0 0 100 1 false false)
  = Ok (mkMshp [0; 0; 0; 0] [2; 2] [1; 1] [0; 0] [false; false] [1; 1] [0; 0]).
Proof. vm_compute. reflexivity. Qed.

(** ** C30 *)

Theorem C30_multivariate_fit_total : forall S (rng : Rng R S) c P mc,
  RngLaws RN rng -> mt_ok c -> lengths_ok P (mt_points c) -> percentiles_ok P -> 1 <= mc <= mt_nf c -> g_sizes P <> [] -> 1 <= g_n P ->
  (exists T, mfit_seq rng P mc c = Ok T) /\ (forall rs sched, scheduler sched -> exists T, mfit_par rng P mc rs sched c = Ok T).
Proof.
  intros S rng c P mc L HO HL HP HC Hs Hn. destruct (mfit_total rng L P mc c HO HL HP HC Hs Hn) as [A B]. split; [exact A|]. intros rs sched HS. destruct (B rs) as (T & HT). eauto.
Qed.
Print Assumptions C30_multivariate_fit_total.

Theorem C30_multivariate_fit_then_transform : forall S (rng : Rng R S) c P mc T,
  RngLaws RN rng -> mt_ok c -> lengths_ok P (mt_points c) -> mfitted RN rng P mc c T -> exists D, mt_run RN c T (g_phase P) = Ok D.
Proof. intros S rng c P mc T L. apply mfitted_transform. exact L. Qed.
Print Assumptions C30_multivariate_fit_then_transform.

Example C30_multivariate_case : RngLaws RN crng /\ mt_ok caseMv /\ lengths_ok caseMP (mt_points caseMv) /\ percentiles_ok caseMP /\ 1 <= 2 <= mt_nf caseMv /\ g_sizes caseMP <> [] /\ 1 <= g_n caseMP.
Proof. split; [exact crng_laws|]. destruct caseMv_ok as (A & B & D & E). split; [exact A|]. split; [exact B|]. split; [exact D|]. split; [exact E|]. split; [discriminate|cbn; lia]. Qed.

(** The condition on the number of channels is needed: asking for more channels than the data has can fail. *)
Example C30_too_many_channels : M_SL_generate ZN zrng [[[1; 2; 3]]; [[4; 5; 6]]] [0; 0] 2 (mkG 2 [2] 1 0 0 100 0 false false) = Err ValueError.
Proof. vm_compute. reflexivity. Qed.

(** ** C32 *)

Theorem C32_multivariate_parameters_determined_by_seed : forall S (rng : Rng R S) P mc n, RngLaws RN rng ->
  exists ps, forall c T, mt_ok c -> mt_points c = n -> lengths_ok P n -> mfitted RN rng P mc c T -> zlen ps = g_n P /\ subseq (mparameters T) ps.
Proof. intros S rng P mc n L. apply mfitted_parameters. exact L. Qed.
Print Assumptions C32_multivariate_parameters_determined_by_seed.

(** ** C60 *)

Theorem C60_multivariate_schedule_independent : forall S (rng : Rng R S) c P mc,
  RngLaws RN rng -> mt_ok c -> lengths_ok P (mt_points c) -> percentiles_ok P -> 1 <= mc <= mt_nf c -> g_sizes P <> [] -> 1 <= g_n P ->
  forall rs, exists T, forall sched, scheduler sched -> mfit_par rng P mc rs sched c = Ok T.
Proof. intros S rng c P mc L HO HL HP HC Hs Hn. apply (mfit_total rng L P mc c HO HL HP HC Hs Hn). Qed.
Print Assumptions C60_multivariate_schedule_independent.

(** [C30_multivariate_case] meets the hypotheses.  Computed on integers, with the two groups in both orders: *)
Example C60_multivariate_case :
  let X := [[[1; 2; 4; 8; 3; 5; 7; 6; 1]; [3; 5; 1; 2; 2; 9; 0; 8; 3]]; [[0; 1; 0; 2; 7; 4; 4; 1; 6]; [2; 2; 1; 0; 5; 4; 1; 3; 9]]] in
  let P := mkG 3 [2; 3] 0 0 0 100 1 false false in
  forall sched, sched = seq_sched \/ sched = back_sched -> M_SL_generate_par ZN z2rng (fun i => 10 + 3 * i) sched X [0; 1] 2 P = Ok (mkMshp [2; 9; 2; 4; 8; 5; 1; 2; 3; 3] [2; 3; 2] [8; 1; 8] [0; 0; 0] [false; false; false] [1; 2; 1] [1; 0; 1; 1]).
Proof. intros X P sched [->| ->]; vm_compute; reflexivity. Qed.

(** ** C61 *)

Theorem C61_multivariate_normalisation_proportion_ends : forall S (rng : Rng R S) c P mc T,
  RngLaws RN rng -> mt_ok c -> lengths_ok P (mt_points c) -> mfitted RN rng P mc c T ->
  ((g_pnorm P <= 0)%R -> forall nm, In nm (ms_norm T) -> nm = false) /\ ((1 <= g_pnorm P)%R -> forall nm, In nm (ms_norm T) -> nm = true).
Proof.
  intros S rng c P mc T L HO HL HF. split; intros Hp nm Hnm; destruct (mfitted_flags rng L P mc c T nm HO HL HF Hnm) as (u & Hu & E).
  - destruct nm; [|reflexivity]. assert (u < g_pnorm P)%R by (apply E; reflexivity). lra.
  - apply E. lra.
Qed.
Print Assumptions C61_multivariate_normalisation_proportion_ends.
