(** Properties C57 and C69: R_DST from the arguments of the constructor, fit and transform to the features, in the real
    numbers.  The data are described by [passes]: what the caller's Python value contains. *)
From Coq Require Import ZArith String List Bool Reals Lra Lia.
From Verif Require Import Prelude Num Kernel Spec KernelProofs RealBase Parallel Apply ApplyProofs ApplyUni ApplyMulti TransformProofs TransformLaws
  RealProofs SampleLaws Gen GenSched GenBase GenUni GenDraw GenSpec GenUTop GenULaws GenUCase GenMTop GenMLaws Checks ChecksProofs Estimator
  EstimatorNum EstimatorLaws EstimatorCases PropsEstimator Preproc PropsPreproc PropsClassifiers EndToEnd.
Import ListNotations.
Open Scope Z_scope.

(** ** C69.  What fit stores *)

Theorem C69_fit : forall S (rng : Rng R S) RS (V : pyenv RS) ex X y s h s' h' n nf cols v vl,
  RngLaws RN rng -> real_executor ex -> passes X n nf cols v vl -> 1 <= n -> 1 <= nf -> zlen y = n ->
  e_n_samples s = VNone -> (forall k, e_type s = TKind k -> kind_vl k = vl) -> (forall i, 0 <= i < n -> 4 <= cols i) ->
  (vl = true -> forall m, e_min_len s = Some m -> 4 <= m /\ forall i, 0 <= i < n -> m <= cols i) ->
  fit RN rng V ex X y s h = (Ok tt, s', h') ->
  exists f m pmin pmax, e_shapelets s' = Some f /\ e_min_len s' = Some m /\ percentile_values RN (e_percentiles s) = Ok (pmin, pmax) /\
    (* the number of points used to choose the dilations *)
    common_points vl (e_min_len s) n cols m /\ (forall i, 0 <= i < n -> m <= cols i) /\
    (* at most the requested number of shapelets *)
    count_of f <= e_n_shapelets s /\ (forall j, 0 <= j < count_of f -> exists chs vs l d thr nm, shapelet_of f j chs vs l d thr nm) /\
    forall j chs vs l d thr nm, shapelet_of f j chs vs l d thr nm ->
      (* length, dilation, channels *)
      2 <= l <= m /\ 1 <= d /\ (l - 1) * d <= m - 1 /\ (e_prime s = true -> d = 1 \/ Znumtheory.prime d) /\
      1 <= zlen chs /\ NoDup chs /\ (forall ch, In ch chs -> 0 <= ch < nf) /\ (forall c, e_max_channels s = Some c -> 1 <= c -> zlen chs <= c) /\
      (* a window of a training series, and a threshold computed on a series of its class *)
      exists i t i', 0 <= i < n /\ 0 <= t < nwin (e_phase s) (cols i) l d /\
        vs = map (fun ch => seen RN nm (window RN (e_phase s) (points v i ch (cols i)) l d t)) chs /\
        same_class n y i i' /\
        threshold_between pmin pmax (mdistances RN (e_phase s) nm (cols i') (channels v nf (cols i') i') chs vs l d) thr.
Proof.
  intros S rng RS V ex X y s h s' h' n nf cols v vl L HE HX Hn Hf Hy Hns Hty H4 Hml H.
  destruct (fit_sound rng V ex X y s h s' h' n nf cols v vl L HE HX Hn Hf Hy Hns Hty H4 Hml H) as (k & f & m & [F1 F2 F3 F4 F5 F6 F7 F8 F9 F10 F11 F12 (pmin & pmax & F13 & F14)]).
  exists f, m, pmin, pmax. split; [exact F6|]. split; [exact F7|]. split; [exact F13|]. split; [exact F8|]. split; [exact F9|]. split; [exact F12|].
  split; [intros j Hj; apply (shapelet_exists nf); assumption|]. intros j chs vs l d thr nm Hj. destruct (F14 _ _ _ _ _ _ _ Hj) as [(A & (B1 & B2 & B3) & C & D & E & G) I].
  split; [exact A|]. split; [exact B1|]. split; [exact B2|]. split; [exact B3|]. split; [exact C|]. split; [exact D|]. split; [exact E|]. split; [|exact G].
  intros c Hc Hc1. rewrite Hc in I. destruct (multi k); lia.
Qed.
Print Assumptions C69_fit.

(** transform of the fitted estimator: three features per series and shapelet, computed from the distances of the
    shapelet to the windows of the series, or ValueError when a shapelet does not fit in a series *)
Theorem C69_transform : forall S (rng : Rng R S) RS (V : pyenv RS) ex X y s h s' h' n nf cols v vl X' n' cols' v',
  RngLaws RN rng -> real_executor ex -> passes X n nf cols v vl -> 1 <= n -> 1 <= nf -> zlen y = n ->
  e_n_samples s = VNone -> (forall k, e_type s = TKind k -> kind_vl k = vl) -> (forall i, 0 <= i < n -> 4 <= cols i) ->
  (vl = true -> forall m, e_min_len s = Some m -> 4 <= m /\ forall i, 0 <= i < n -> m <= cols i) ->
  fit RN rng V ex X y s h = (Ok tt, s', h') ->
  passes X' n' nf cols' v' vl -> 1 <= n' -> (exists i, 0 <= i < n' /\ 3 <= cols' i) ->
  exists f, e_shapelets s' = Some f /\
  ((forall j chs vs l d thr nm i, shapelet_of f j chs vs l d thr nm -> 0 <= i < n' -> fits (e_phase s) (cols' i) l d) ->
   exists T, transform RN s' X' = Ok T /\ zlen T = n' /\ (forall row, In row T -> zlen row = 3 * count_of f) /\
     forall i j chs vs l d thr nm, 0 <= i < n' -> shapelet_of f j chs vs l d thr nm ->
       exists a, cell3 T i j a /\ is_features RN (mdistances RN (e_phase s) nm (cols' i) (channels v' nf (cols' i) i) chs vs l d) thr a) /\
  (forall j chs vs l d thr nm i, shapelet_of f j chs vs l d thr nm -> 0 <= i < n' -> ~ fits (e_phase s) (cols' i) l d ->
   transform RN s' X' = Err ValueError).
Proof.
  intros S rng RS V ex X y s h s' h' n nf cols v vl X' n' cols' v' L HE HX Hn Hf Hy Hns Hty H4 Hml H HX' Hn' H3.
  destruct (fit_sound rng V ex X y s h s' h' n nf cols v vl L HE HX Hn Hf Hy Hns Hty H4 Hml H) as (k & f & m & [F1 F2 F3 F4 F5 F6 F7 F8 F9 F10 F11 F12 F13]).
  exists f. split; [exact F6|]. rewrite <- F5. rewrite <- F3 in HX'.
  destruct (transform_sound s' k f X' n' nf cols' v' F1 F2 F6 F10 F11 HX' Hn' Hf H3) as [[A (T & B & C1 & C2 & C3 & C9)]|[A B]]; split.
  - intros _. exists T. auto.
  - intros j chs vs l d thr nm i Hj Hi Q. exfalso. apply Q. eapply A; eauto.
  - intros Q. exfalso. apply A. intros j chs vs l d thr nm i Hj Hi. eapply Q; eauto.
  - intros. exact B.
Qed.
Print Assumptions C69_transform.

(** ** C69.  fit does not fail: data of at least 4 points, integer lengths of at least 2 *)

Theorem C69_fit_total : forall S (rng : Rng R S) RS (V : pyenv RS) ex X y s h n nf cols v vl m ls pmin pmax,
  RngLaws RN rng -> real_executor ex -> passes X n nf cols v vl -> 1 <= n -> 1 <= nf -> zlen y = n ->
  (* the type is "auto" or suits the data *)
  (e_type s = TAuto \/ exists k, e_type s = TKind k /\ kind_vl k = vl) ->
  (forall sh dt cells, X = VArr sh dt cells -> dt = DInt64 \/ dt = DFloat64 \/ dt = DObject) ->
  (forall i, 0 <= i < n -> 4 <= cols i) -> 4 <= m -> (forall i, 0 <= i < n -> m <= cols i) -> common_points vl (e_min_len s) n cols m ->
  e_n_samples s = VNone -> 1 <= e_n_shapelets s -> e_bounds s = None ->
  e_lengths s = VArr [zlen ls] DInt64 (map VInt ls) -> ls <> [] -> (forall l, In l ls -> 2 <= l) ->
  percentile_values RN (e_percentiles s) = Ok (pmin, pmax) -> (0 <= pmin <= 100)%R -> (0 <= pmax <= 100)%R ->
  numeric (e_alpha s) -> numeric (e_proba_norm s) -> 0 <= e_rs s < zlen h ->
  (forall c, e_max_channels s = Some c -> 1 <= c <= nf) ->
  exists s' h', fit RN rng V ex X y s h = (Ok tt, s', h').
Proof.
  intros S rng RS V ex X y s h n nf cols v vl m ls pmin pmax L HE HX Hn Hf Hy Hty Hdt H4 Hm4 Hmc Hcp Hns Hsh Hb Hls Hne Hl2 Hp Hp1 Hp2 Ha Hpr Hrs Hch.
  assert (NUM : forall x : pyv R, numeric x -> exists a, as_F RN x = Ok a) by (intros x [(z & ->)|(z & ->)]; eexists; reflexivity).
  apply (fit_never_fails rng V ex X y s h n nf cols v vl m); auto.
  - intros k Hk. destruct Hty as [E|(k' & E & Q)]; congruence.
  - destruct Hty as [E|(k' & E & Q)]; congruence.
  - intros -> _. inversion HX as [dt t cells E Hd|]; subst X. destruct (Hdt _ _ _ eq_refl) as [Q|[Q|Q]]; auto. congruence.
  - constructor; auto; [|exists pmin, pmax; auto].
    exists (VArr [zlen ls] DInt64 (map VInt ls)). unfold set_lengths. rewrite Hb, Hls.
    assert (Hz : zlen ls <> 0) by (destruct ls; [congruence|rewrite zlen_cons; pose proof (zlen_nonneg ls); lia]).
    assert (E : check_lengths RN (VArr [zlen ls] DInt64 (map VInt ls)) m = Ok (map (fun l => if m <? l then m / 2 else l) ls)).
    { assert (G : check_array_1D RN (VArr [zlen ls] DInt64 (map VInt ls)) = Ok (VArr [zlen ls] DInt64 (map VInt ls))).
      { unfold check_array_1D. cbn [check_is_numpy bind shape]. change (guard (zlen [zlen ls] =? 1) ValueError) with (@Ok unit tt). cbn [bind].
        assert (G : guard (negb (prod [zlen ls] =? 0)) ValueError = Ok tt).
        { apply guard_ok. apply negb_true_iff. apply Z.eqb_neq. unfold prod. cbn [fold_left fold_right]. lia. }
        rewrite G. reflexivity. }
      unfold check_lengths. rewrite G. cbn [bind].
      replace (mapM (as_int RN) (map VInt ls)) with (Ok ls) by (symmetry; clear; induction ls as [|a t IH]; [reflexivity|]; cbn [map mapM as_int bind]; rewrite IH; reflexivity).
      cbn [bind].
      assert (G2 : forallb (fun l => 1 <? l) ls = true) by (apply forallb_forall; intros l Hl; apply Z.ltb_lt; specialize (Hl2 l Hl); lia). rewrite G2. cbn [guard bind].
      destruct (forallb (fun l => l <=? m) ls) eqn:E.
      - f_equal. rewrite forallb_forall in E. rewrite <- (map_id ls) at 1. apply map_ext_in. intros l Hl. specialize (E l Hl). apply Z.leb_le in E. destruct (Z.ltb_spec m l); lia.
      - destruct (Z.ltb_spec m 3); [lia|]. reflexivity. }
    exists (map (fun l => if m <? l then m / 2 else l) ls). split; [reflexivity|]. split; [exact E|]. intros Q. apply map_eq_nil in Q. contradiction.
Qed.
Print Assumptions C69_fit_total.

(** The constructor without arguments (rdst.py 115-133), on any dataset of at least 4 points: R_DST().fit(X, y) succeeds
    and transform(X) then gives three features per shapelet.  Reference 0 of [h] is numpy's global generator. *)
Definition default_args : @rargs R :=
  mkArgs (VStr "auto") (VBool false) (VFloat (1/2)%R) (VBool false) VNone (VInt 10000) (VList [VInt 11]) VNone (VFloat (1/2)%R) (VBool false)
    (VFloat (8/10)%R) (VList [VInt 5; VInt 10]) VNone None None (VInt 1).

Theorem C69_defaults : forall S (rng : Rng R S) RS (V : pyenv RS) ex X y h n nf cols v vl,
  RngLaws RN rng -> real_executor ex -> passes X n nf cols v vl -> 1 <= n -> 1 <= nf -> zlen y = n -> (forall i, 0 <= i < n -> 4 <= cols i) ->
  (forall sh dt cells, X = VArr sh dt cells -> dt = DInt64 \/ dt = DFloat64 \/ dt = DObject) ->
  h <> [] -> 1 <= v_cpus V -> 1 <= v_threads V ->
  exists s s' h' f T, init RN V default_args h = (Ok s, h) /\ fit RN rng V ex X y s h = (Ok tt, s', h') /\
    e_shapelets s' = Some f /\ transform RN s' X = Ok T /\ features_table false n nf cols v f T.
Proof.
  intros S rng RS V ex X y h n nf cols v vl L HE HX Hn Hf Hy H4 Hdt Hh Hcpu Hth.
  set (s := mkEst TAuto false (VFloat (1/2)%R) false VNone 10000 (VArr [1] DInt64 [VInt 11]) None (VFloat (1/2)%R) false (VFloat (8/10)%R)
    (VArr [2] DInt64 [VInt 5; VInt 10]) 0 (VInt 1) None None None None).
  assert (EI : init RN V default_args h = (Ok s, h)).
  { unfold init, default_args. cbn [p_transform_type p_phase_invariance p_alpha p_normalize_output p_n_samples p_n_shapelets p_shapelet_lengths p_bounds
      p_reduction p_prime_dilations p_proba_norm p_percentiles p_random_state p_max_channels p_min_len p_n_jobs
      validate_transform_type check_is_boolean check_is_numeric bind as_int as_F].
    change (validate_transform_type (VStr "auto")) with (@Ok ttype TAuto). cbn [bind].
    change (check_array_1D RN (VList [VInt 11])) with (@Ok (pyv R) (VArr [1] DInt64 [VInt 11])). cbn [bind].
    replace (nleb RN (n1 RN) (1/2)%R) with false by (symmetry; apply Rleb_false; change (n1 RN) with 1%R; lra). cbn [negb guard bind].
    replace (validate_percentiles RN (VList [VInt 5; VInt 10])) with (@Ok (pyv R) (VArr [2] DInt64 [VInt 5; VInt 10])).
    2:{ unfold validate_percentiles. change (check_array_1D RN (VList [VInt 5; VInt 10])) with (@Ok (pyv R) (VArr [2] DInt64 [VInt 5; VInt 10])).
        cbn [bind dtype_eqb orb get nthZ]. change (get [VInt 5; VInt 10] 0) with (@Ok (pyv R) (VInt 5)). change (get [VInt 5; VInt 10] 1) with (@Ok (pyv R) (VInt 10)).
        cbn [bind as_F]. replace (nleb RN (nofZ RN 5) (nofZ RN 10)) with true by (symmetry; apply Rleb_true; change (nofZ RN) with IZR; lra). reflexivity. }
    cbn [bind check_random_state]. unfold init_n_jobs, check_n_jobs, set_num_threads. cbn [bind Z.ltb Z.compare].
    replace (Z.min 1 (v_cpus V)) with 1 by lia. replace ((1 <=? 1) && (1 <=? v_threads V)) with true by (symmetry; apply andb_true_iff; split; apply Z.leb_le; lia).
    reflexivity. }
  assert (HM : exists m, common_points vl None n cols m).
  { destruct (min_list (map cols (zrange 0 n))) as [m|] eqn:E.
    - apply min_list_spec in E as [A B]. apply in_map_iff in A as (i & <- & Hi). apply in_zrange in Hi. exists (cols i). split; [exists i; split; [lia|reflexivity]|].
      intros i' Hi'. apply B. apply in_map. apply in_zrange. lia.
    - exfalso. rewrite zrange_cons in E by lia. discriminate E. }
  destruct HM as (m & HM). pose proof HM as [(i & Hi & Em) Hmc]. assert (4 <= m) by (rewrite Em; apply H4; exact Hi).
  destruct (C69_fit_total S rng RS V ex X y s h n nf cols v vl m [11] 5%R 10%R) as (s' & h' & EF); auto; try (cbn; lia); try lra; try reflexivity; try discriminate.
  { right. eexists. reflexivity. }
  { right. eexists. reflexivity. }
  { cbn [s e_rs]. destruct h; [congruence|]. rewrite zlen_cons. pose proof (zlen_nonneg h). lia. }
  assert (Hty : forall k, e_type s = TKind k -> kind_vl k = vl) by discriminate.
  assert (Hml : vl = true -> forall m, e_min_len s = Some m -> 4 <= m /\ forall i, 0 <= i < n -> m <= cols i) by discriminate.
  destruct (fit_sound rng V ex X y s h s' h' n nf cols v vl L HE HX Hn Hf Hy eq_refl Hty H4 Hml EF) as (k & f & m' & HF).
  assert (E : m' = m).
  { destruct (ff_points _ _ _ _ _ _ _ _ _ _ _ HF) as [(i2 & Hi2 & A) B]. specialize (B i Hi). specialize (Hmc i2 Hi2). lia. }
  subst m'. destruct (fit_long _ _ _ _ _ _ _ _ _ _ _ X n cols v HF Hf) as (T & E1 & E2 & _); auto.
  exists s, s', h', f, T. split; [exact EI|]. split; [exact EF|]. split; [apply (ff_shapelets _ _ _ _ _ _ _ _ _ _ _ HF)|]. split; [exact E1|exact E2].
Qed.
Print Assumptions C69_defaults.

(** ** C57.  min_len protects the series it was computed on *)

(** fit with min_len on variable-length data: every series of at least min_len points is transformed, each shapelet has
    a window in it and the features are a distance, a position among the windows and a number of windows (never the
    sentinel -1). *)
Theorem C57_min_len : forall S (rng : Rng R S) RS (V : pyenv RS) ex X y s h s' h' n nf cols v m X' n' cols' v',
  RngLaws RN rng -> real_executor ex -> passes X n nf cols v true -> 1 <= n -> 1 <= nf -> zlen y = n -> e_n_samples s = VNone ->
  (forall k, e_type s = TKind k -> kind_vl k = true) -> e_min_len s = Some m -> 4 <= m -> (forall i, 0 <= i < n -> m <= cols i) ->
  passes X' n' nf cols' v' true -> 1 <= n' -> (forall i, 0 <= i < n' -> m <= cols' i) ->
  fit RN rng V ex X y s h = (Ok tt, s', h') ->
  exists f T, e_shapelets s' = Some f /\ transform RN s' X' = Ok T /\ zlen T = n' /\ (forall row, In row T -> zlen row = 3 * count_of f) /\
    forall i j chs vs l d thr nm, 0 <= i < n' -> shapelet_of f j chs vs l d thr nm ->
      (l - 1) * d < cols' i /\
      exists mn a c, cell3 T i j (mn, IZR a, IZR c) /\ (0 <= mn)%R /\
        0 <= a < (if e_phase s then cols' i else cols' i - (l - 1) * d) /\ 0 <= c <= (if e_phase s then cols' i else cols' i - (l - 1) * d).
Proof.
  intros S rng RS V ex X y s h s' h' n nf cols v m X' n' cols' v' L HE HX Hn Hf Hy Hns Hty Hml Hm Hmc HX' Hn' Hmc' H.
  destruct (fit_sound rng V ex X y s h s' h' n nf cols v true L HE HX Hn Hf Hy Hns Hty) as (k & f & m' & HF); auto.
  { intros i Hi. specialize (Hmc i Hi). lia. }
  { intros _ g Eg. assert (g = m) by congruence. subst g. auto. }
  assert (m' = m) by (pose proof (ff_points _ _ _ _ _ _ _ _ _ _ _ HF) as Q; rewrite Hml in Q; exact Q). subst m'.
  destruct (fit_long _ _ _ _ _ _ _ _ _ _ _ X' n' cols' v' HF Hf Hm HX' Hn' Hmc') as (T & E1 & (E2 & E3 & _) & E4).
  exists f, T. split; [apply (ff_shapelets _ _ _ _ _ _ _ _ _ _ _ HF)|]. split; [exact E1|]. split; [exact E2|]. split; [exact E3|].
  intros i j chs vs l d thr nm Hi Hj. split; [|eapply E4; eauto].
  destruct (ff_origin _ _ _ _ _ _ _ _ _ _ _ HF) as (pmin & pmax & _ & Q). destruct (Q _ _ _ _ _ _ _ Hj) as [(_ & (_ & B & _) & _) _]. specialize (Hmc' i Hi). lia.
Qed.
Print Assumptions C57_min_len.

(** A dataset of the model as the list of arrays given to fit and transform. *)
Definition as_series (x : list (list R)) : pyv R := VArr [zlen x; zlen (nthd [] x 0)] DFloat64 (map VFloat (concat x)).
Definition as_list (X : dataset R) : pyv R := VList (map as_series X).

Lemma nthZ_concat {A} c (x : list (list A)) i r j a : KernelProofs.regular c x -> nthZ x i = Some r -> nthZ r j = Some a -> nthZ (concat x) (i * c + j) = Some a.
Proof.
  intros Hr Hi Hj. revert i Hi. induction x as [|q t IH]; intros i Hi; [unfold nthZ in Hi; destruct (i <? 0); [discriminate|]; destruct (Z.to_nat i); discriminate|].
  pose proof (nthZ_range _ _ _ Hi) as Ri. pose proof (nthZ_range _ _ _ Hj) as Rj.
  assert (Hq : zlen q = c) by (apply Hr; left; reflexivity). cbn [concat].
  rewrite nthZ_cons in Hi. rewrite nthZ_app, Hq. destruct (Z.eqb_spec i 0) as [Hz|Hne].
  - injection Hi as <-. rewrite Hz. replace (0 * c + j) with j by lia. destruct (Z.ltb_spec j c); [exact Hj|lia].
  - assert (Hc : zlen r = c) by (apply Hr; right; eapply nthZ_In; eauto).
    specialize (IH (fun z Hz => Hr z (or_intror Hz)) _ Hi). destruct (Z.ltb_spec (i * c + j) c) as [Q|Q].
    + exfalso. pose proof (nthZ_range _ _ _ Hi). clear - Q H Rj Hc. nia.
    + replace (i * c + j - c) with ((i - 1) * c + j) by lia. exact IH.
Qed.

Lemma as_list_passes (X : dataset R) nf : 1 <= nf -> (forall x, In x X -> zlen x = nf /\ KernelProofs.regular (zlen (nthd [] x 0)) x) ->
  passes (as_list X) (zlen X) nf (fun i => zlen (nthd [] (nthd [] X i) 0)) (fun i ch j => nthd 0%R (nthd [] (nthd [] X i) ch) j) true.
Proof.
  intros Hf HX. apply (passes_collection _ _ _ _ _ (map as_series X)); [left; reflexivity|apply zlen_map|].
  intros i z Hz. rewrite nthZ_map in Hz. destruct (nthZ X i) as [x|] eqn:Ex; [|discriminate]. injection Hz as <-.
  rewrite (nthd_some [] X i x Ex). destruct (HX x (nthZ_In _ _ _ Ex)) as [H1 H2]. split; [lia|]. split; [apply zlen_nonneg|].
  exists DFloat64, (map VFloat (concat x)). unfold as_series. rewrite H1. split; [reflexivity|]. split; [rewrite zlen_map, (concat_regular_len x _ H2), H1; reflexivity|].
  intros ch j Hch Hj. destruct (nthZ_some x ch) as (r & Hr); [lia|]. rewrite (nthd_some [] x ch r Hr).
  assert (Er : zlen r = zlen (nthd [] x 0)) by (apply H2; eapply nthZ_In; eauto). destruct (nthZ_some r j) as (a & Ha); [lia|].
  exists (VFloat a). rewrite nthZ_map, (nthZ_concat _ x ch r j a H2 Hr Ha). rewrite (nthd_some 0%R r j a Ha). split; reflexivity.
Qed.

(** Lists returned by the loader with its min_len (at least 4): fit on the training part, transform of either part. *)
Theorem C57_loader : forall S (rng : Rng R S) RS (V : pyenv RS) ex (Xtr Xte : dataset R) ytr yte nrm A B y1 y2 m nf s h s' h',
  RngLaws RN rng -> real_executor ex -> 1 <= nf ->
  (forall x, In x Xtr \/ In x Xte -> zlen x = nf /\ KernelProofs.regular (zlen (nthd [] x 0)) x) -> zlen ytr = zlen Xtr ->
  load_split RN (CList Xtr) (CList Xte) ytr yte nrm = Ok (CList A, CList B, y1, y2, m) -> 4 <= m ->
  e_n_samples s = VNone -> (forall k, e_type s = TKind k -> kind_vl k = true) -> e_min_len s = Some m ->
  fit RN rng V ex (as_list A) y1 s h = (Ok tt, s', h') ->
  forall X', X' = A \/ X' = B -> 
  exists f T, e_shapelets s' = Some f /\ transform RN s' (as_list X') = Ok T /\ zlen T = zlen X' /\ (forall row, In row T -> zlen row = 3 * count_of f) /\
    forall i j chs vs l d thr nm, 0 <= i < zlen X' -> shapelet_of f j chs vs l d thr nm ->
      exists mn a c, cell3 T i j (mn, IZR a, IZR c) /\ (0 <= mn)%R /\ 0 <= a /\ 0 <= c.
Proof.
  intros S rng RS V ex Xtr Xte ytr yte nrm A B y1 y2 m nf s h s' h' L HE Hf HX Hy HL Hm Hns Hty Hml HF X' HX'.
  assert (LD := C62_loader R RN (CList Xtr) (CList Xte) ytr yte nrm (CList A) (CList B) y1 y2 m I I HL). cbn [items] in LD.
  destruct LD as (Y1 & _ & _ & M1 & _ & NO).
  (* the parts returned have the shape of the parts read *)
  assert (SH : forall X Z : dataset R, (X = Xtr \/ X = Xte) -> (if nrm then normalised RN X Z else Z = X) -> zlen Z = zlen X /\
     (forall x, In x Z -> zlen x = nf /\ KernelProofs.regular (zlen (nthd [] x 0)) x) /\ forall i, 0 <= i < zlen Z -> m <= zlen (nthd [] (nthd [] Z i) 0)).
  { intros X Z HXX HZ. destruct nrm.
    - destruct HZ as [Z1 Z2]. split; [exact Z1|].
      assert (G : forall i z, nthZ Z i = Some z -> exists x, nthZ X i = Some x /\ zlen z = zlen x /\
         forall j x1, nthZ x j = Some x1 -> exists z1, nthZ z j = Some z1 /\ zlen z1 = zlen x1).
      { intros i z Hz. pose proof (nthZ_range _ _ _ Hz). destruct (nthZ_some X i) as (x & Hx); [lia|]. destruct (Z2 i x Hx) as (z' & Q1 & Q2 & Q3).
        assert (z' = z) by congruence. subst z'. exists x. split; [exact Hx|]. split; [exact Q2|]. intros j x1 Hx1. destruct (Q3 j x1 Hx1) as (z1 & R1 & R2 & _). eauto. }
      assert (G2 : forall i z, nthZ Z i = Some z -> zlen z = nf /\ KernelProofs.regular (zlen (nthd [] z 0)) z /\ m <= zlen (nthd [] z 0)).
      { intros i z Hz. destruct (G i z Hz) as (x & Q1 & Q2 & Q3). destruct (HX x) as [P1 P2].
        { pose proof (nthZ_In _ _ _ Q1). destruct HXX as [-> | ->]; auto. }
        split; [congruence|]. destruct (nthZ_some x 0) as (x0 & Hx0); [lia|]. destruct (Q3 0 x0 Hx0) as (z0 & R1 & R2).
        rewrite (nthd_some [] z 0 z0 R1). rewrite (nthd_some [] x 0 x0 Hx0) in P2. split.
        - intros w Hw. apply In_nthZ in Hw as (j & Hj). pose proof (nthZ_range _ _ _ Hj). destruct (nthZ_some x j) as (xj & Hxj); [lia|].
          destruct (Q3 j xj Hxj) as (w' & R3 & R4). assert (w' = w) by congruence. subst w'. rewrite R4, R2. apply P2. eapply nthZ_In; eauto.
        - rewrite R2. apply (M1 x x0); [pose proof (nthZ_In _ _ _ Q1); destruct HXX as [-> | ->]; auto|exact Hx0]. }
      split.
      + intros z Hz. apply In_nthZ in Hz as (i & Hi). destruct (G2 i z Hi) as (Q1 & Q2 & _). auto.
      + intros i Hi. destruct (nthZ_some Z i Hi) as (z & Hz). rewrite (nthd_some [] Z i z Hz). apply (G2 i z Hz).
    - subst Z. split; [reflexivity|]. split; [intros x Hx; apply HX; destruct HXX as [-> | ->]; auto|]. intros i Hi. destruct (nthZ_some X i Hi) as (x & Hx).
      rewrite (nthd_some [] X i x Hx). pose proof (nthZ_In _ _ _ Hx) as Ix. destruct (HX x) as [P1 _]; [destruct HXX as [-> | ->]; auto|].
      destruct (nthZ_some x 0) as (x0 & Hx0); [lia|]. rewrite (nthd_some [] x 0 x0 Hx0). apply (M1 x x0); [destruct HXX as [-> | ->]; auto|exact Hx0]. }
  assert (NA : if nrm then normalised RN Xtr A else A = Xtr) by (destruct nrm; destruct NO as [Q _]; [exact Q|congruence]).
  assert (NB : if nrm then normalised RN Xte B else B = Xte) by (destruct nrm; destruct NO as [_ Q]; [exact Q|congruence]).
  destruct (SH Xtr A (or_introl eq_refl) NA) as (A1 & A2 & A3). destruct (SH Xte B (or_intror eq_refl) NB) as (B1 & B2 & B3).
  assert (NE : 1 <= zlen A /\ 1 <= zlen X').
  { unfold load_split in HL. apply bind_inv in HL as (? & _ & HL). apply bind_inv in HL as (? & _ & HL). apply bind_inv in HL as (m1 & S1 & HL). apply bind_inv in HL as (m2 & S2 & _).
    cbn [items] in S1, S2. assert (P : forall (X : dataset R) k, shortest X = Ok k -> 1 <= zlen X).
    { intros X k HS. destruct X; [discriminate|]. rewrite zlen_cons. pose proof (zlen_nonneg X). lia. }
    apply P in S1, S2. destruct HX' as [-> | ->]; lia. }
  destruct NE as [NA1 NX].
  assert (X'ok : (forall x, In x X' -> zlen x = nf /\ KernelProofs.regular (zlen (nthd [] x 0)) x) /\ forall i, 0 <= i < zlen X' -> m <= zlen (nthd [] (nthd [] X' i) 0)) by (destruct HX' as [-> | ->]; auto).
  destruct X'ok as [X1 X2].
  assert (Y2 : zlen y1 = zlen A) by congruence.
  destruct (C57_min_len S rng RS V ex (as_list A) y1 s h s' h' (zlen A) nf _ _ m (as_list X') (zlen X') _ _ L HE (as_list_passes A nf Hf A2) NA1 Hf Y2 Hns Hty Hml Hm A3
    (as_list_passes X' nf Hf X1) NX X2 HF) as (f & T & E1 & E2 & E3 & E4 & E5).
  exists f, T. split; [exact E1|]. split; [exact E2|]. split; [exact E3|]. split; [exact E4|]. intros i j chs vs l d thr nm Hi Hj.
  destruct (E5 _ _ _ _ _ _ _ _ Hi Hj) as (_ & mn & a & c & C1 & C2 & C3 & C4). exists mn, a, c. split; [exact C1|]. split; [exact C2|]. lia.
Qed.
Print Assumptions C57_loader.

(** For a 3D array the given min_len is replaced by the number of points of the array (rdst.py 210) ... *)
Theorem C57_arrays_overwritten : forall S (rng : Rng R S) RS (V : pyenv RS) ex X y s h s' h' n nf cols v,
  RngLaws RN rng -> real_executor ex -> passes X n nf cols v false -> 1 <= n -> 1 <= nf -> zlen y = n ->
  e_n_samples s = VNone -> (forall k, e_type s = TKind k -> kind_vl k = false) -> (forall i, 0 <= i < n -> 4 <= cols i) ->
  fit RN rng V ex X y s h = (Ok tt, s', h') -> forall i, 0 <= i < n -> e_min_len s' = Some (cols i).
Proof.
  intros S rng RS V ex X y s h s' h' n nf cols v L HE HX Hn Hf Hy Hns Hty H4 H i Hi.
  destruct (C69_fit S rng RS V ex X y s h s' h' n nf cols v false L HE HX Hn Hf Hy Hns Hty H4) as (f & m & a & b & _ & Em & _ & Hc & Hle & _); [discriminate|exact H|].
  rewrite Em. f_equal. unfold common_points in Hc. destruct (e_min_len s); [auto|]. destruct Hc as [(j & Hj & ->) Hc].
  inversion HX as [dt t cells E1 E2 E3 E4 E5 E6|]. rewrite !E5 by assumption. reflexivity.
Qed.
Print Assumptions C57_arrays_overwritten.

(** ... so the claim fails on arrays: with min_len=4, fitted on an array of 10 points, an array of 4 points is refused. *)
Definition c57s : @est Z := caseE TAuto VNone (ints [6]) None (Some 4).
Definition c57X : pyv Z := VArr [2; 1; 10] DInt64 (intcells [1; 2; 3; 4; 3; 2; 1; 0; 5; 7;  2; 1; 0; 5; 1; 1; 4; 2; 9; 1]).
Definition c57Y : pyv Z := VArr [1; 1; 4] DInt64 (intcells [1; 2; 3; 4]).
Theorem C57_arrays_refuted : exists s', e_min_len c57s = Some 4 /\ shape c57X = [2; 1; 10] /\ shape c57Y = [1; 1; 4] /\
  fit ZN zrng caseV in_order c57X [0; 0] c57s [7] = (Ok tt, s', [8]) /\ e_min_len s' = Some 10 /\ transform ZN s' c57Y = Err ValueError.
Proof. eexists. split; [reflexivity|]. split; [reflexivity|]. split; [reflexivity|]. split; [vm_compute; reflexivity|]. split; vm_compute; reflexivity. Qed.
Print Assumptions C57_arrays_refuted.

(** ** Concrete data meeting the hypotheses *)

Definition cA : dataset R := [[[1; 2; 3; 4]; [0; 1; 0; 1]]; [[2; 1; 0; 5; 6]; [3; 3; 1; 1; 2]]]%R.
Definition cB : dataset R := [[[7; 1; 0; 2; 2; 8]; [1; 1; 0; 0; 2; 2]]]%R.
Definition cS (m : option Z) : @est R := caseE TAuto VNone (ints [3; 11]) None m.

Lemma cAB_shape x : In x cA \/ In x cB -> zlen x = 2 /\ KernelProofs.regular (zlen (nthd [] x 0)) x.
Proof.
  intros [[<-|[<-|[]]]|[<-|[]]]; (split; [reflexivity|]); intros r [<-|[<-|[]]]; reflexivity.
Qed.

(** fit succeeds on the list cA, without and with the min_len of the loader *)
Example C69_case : forall m, m = None \/ m = Some 4 -> exists s' h', fit RN crng caseV in_order (as_list cA) [0; 1] (cS m) [7] = (Ok tt, s', h').
Proof.
  intros m Hm. pose proof (as_list_passes cA 2 ltac:(lia) (fun x Hx => cAB_shape x (or_introl Hx))) as HX.
  assert (HC : forall i, 0 <= i < 2 -> i = 0 \/ i = 1) by (intros; lia).
  refine (C69_fit_total Z crng Z caseV in_order (as_list cA) [0; 1] (cS m) [7] 2 2 _ _ true 4 [3; 11] 5%R 10%R crng_laws (or_introl eq_refl) HX _ _ _ _ _ _ _ _ _ _ _ _ _ _ _ _ _ _ _ _ _ _);
    try reflexivity; try lia; try lra; try discriminate.
  - left. reflexivity.
  - intros i Hi. destruct (HC i Hi) as [-> | ->]; apply Z.leb_le; reflexivity.
  - intros i Hi. destruct (HC i Hi) as [-> | ->]; apply Z.leb_le; reflexivity.
  - destruct Hm as [-> | ->]; [|reflexivity]. split; [exists 0; split; [lia|reflexivity]|]. intros i Hi. destruct (HC i Hi) as [-> | ->]; apply Z.leb_le; reflexivity.
  - intros l [<-|[<-|[]]]; lia.
  - left. eexists. reflexivity.
  - left. eexists. reflexivity.
  - cbn. unfold zlen. cbn. lia.
Qed.

(** the loader on cA and cB returns them with min_len = 4; the fit with min_len = 4 then transforms cA and cB *)
Example C57_case : load_split RN (CList cA) (CList cB) [5; 9] [9] false = Ok (CList cA, CList cB, [0; 1], [1], 4) /\
  exists s' h' f T, fit RN crng caseV in_order (as_list cA) [0; 1] (cS (Some 4)) [7] = (Ok tt, s', h') /\
    e_shapelets s' = Some f /\ transform RN s' (as_list cB) = Ok T /\ zlen T = 1.
Proof.
  assert (EL : load_split RN (CList cA) (CList cB) [5; 9] [9] false = Ok (CList cA, CList cB, [0; 1], [1], 4)) by reflexivity.
  split; [exact EL|]. destruct (C69_case (Some 4)) as (s' & h' & EF); [right; reflexivity|].
  destruct (C57_loader Z crng Z caseV in_order cA cB [5; 9] [9] false cA cB [0; 1] [1] 4 2 (cS (Some 4)) [7] s' h' crng_laws (or_introl eq_refl) ltac:(lia) cAB_shape
    eq_refl EL ltac:(lia) eq_refl ltac:(discriminate) eq_refl EF cB (or_intror eq_refl)) as (f & T & E1 & E2 & E3 & _).
  exists s', h', f, T. auto.
Qed.
