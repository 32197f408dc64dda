(** R_DST built with the default parameters, as the two classifiers build it. *)
From Coq Require Import String ZArith List Bool Reals Lra Lia.
From Verif Require Import Prelude Num Kernel Spec KernelProofs RealBase Apply ApplyProofs ApplyUni ApplyMulti TransformProofs TransformLaws RealProofs SampleLaws Gen GenSched GenBase GenUni GenDraw GenSpec GenMRun Checks ChecksProofs Estimator EstimatorNum EstimatorLaws
  Classifiers EndToEnd PropsEstimator PropsEndToEnd.
Import ListNotations.
Open Scope Z_scope.

(** The object: proba_norm, generator and n_jobs vary. *)
Definition default_est (pn : pyv R) (rs : Z) (nj : pyv R) : @est R :=
  mkEst TAuto false (VFloat (1/2)%R) false VNone 10000 (VArr [1] DInt64 [VInt 11]) None (VFloat (1/2)%R) false pn
    (VArr [2] DInt64 [VInt 5; VInt 10]) rs nj None None None None.

(** init of the default arguments; the lengths may be the list [11] or the array of it, the generator None or an object *)
Lemma init_default {RS} (V : pyenv RS) sl pn rnd id h : sl = VList [VInt 11] \/ sl = VArr [1] DInt64 [VInt 11] ->
  numeric pn -> (rnd = VNone /\ id = 0) \/ rnd = VRng id ->
  init RN V (mkArgs (VStr "auto") (VBool false) (VFloat (1/2)%R) (VBool false) VNone (VInt 10000) sl VNone (VFloat (1/2)%R) (VBool false)
    pn (VList [VInt 5; VInt 10]) rnd None None (VBool false)) h = (Ok (default_est pn id (VBool false)), h).
Proof.
  intros Hsl Hpn Hr.
  assert (E0 : check_array_1D RN sl = Ok (VArr [1] DInt64 [VInt 11])) by (destruct Hsl; subst; reflexivity).
  assert (E1 : check_is_numeric pn = Ok pn) by (destruct Hpn as [(z & ->)|(z & ->)]; reflexivity).
  assert (E2 : check_random_state V rnd h = (Ok id, h)) by (destruct Hr as [[-> ->]| ->]; reflexivity).
  unfold init. cbn [p_transform_type p_phase_invariance p_alpha p_normalize_output p_n_samples p_n_shapelets p_shapelet_lengths p_bounds
      p_reduction p_prime_dilations p_proba_norm p_percentiles p_random_state p_max_channels p_min_len p_n_jobs].
  rewrite E0, E1, E2. cbn [check_is_boolean check_is_numeric bind as_int as_F].
  change (validate_transform_type (VStr "auto")) with (@Ok ttype TAuto). cbn [bind].
  replace (nleb RN (n1 RN) (1/2)%R) with false by (symmetry; apply Rleb_false; change (n1 RN) with 1%R; lra). cbn [negb guard bind].
  replace (validate_percentiles RN (VList [VInt 5; VInt 10])) with (@Ok (pyv R) (VArr [2] DInt64 [VInt 5; VInt 10])).
  2:{ unfold validate_percentiles. change (check_array_1D RN (VList [VInt 5; VInt 10])) with (@Ok (pyv R) (VArr [2] DInt64 [VInt 5; VInt 10])).
      cbn [bind dtype_eqb orb get nthZ]. change (get [VInt 5; VInt 10] 0) with (@Ok (pyv R) (VInt 5)). change (get [VInt 5; VInt 10] 1) with (@Ok (pyv R) (VInt 10)).
      cbn [bind as_F]. replace (nleb RN (nofZ RN 5) (nofZ RN 10)) with true by (symmetry; apply Rleb_true; change (nofZ RN) with IZR; lra). reflexivity. }
  cbn [bind init_n_jobs]. reflexivity.
Qed.

(** fit succeeds and transform then works on all data with at least as many points *)
Lemma default_fit {S} (rng : Rng R S) {RS} (V : pyenv RS) ex X y pn rs nj h n nf cols v vl :
  RngLaws RN rng -> real_executor ex -> passes X n nf cols v vl -> 1 <= n -> 1 <= nf -> zlen y = n -> (forall i, 0 <= i < n -> 4 <= cols i) ->
  (forall sh dt cells, X = VArr sh dt cells -> dt = DInt64 \/ dt = DFloat64 \/ dt = DObject) -> numeric pn -> 0 <= rs < zlen h ->
  exists s' h' f m, fit RN rng V ex X y (default_est pn rs nj) h = (Ok tt, s', h') /\ zlen h' = zlen h /\ e_shapelets s' = Some f /\
    common_points vl None n cols m /\
    forall X' n' cols' v', passes X' n' nf cols' v' vl -> 1 <= n' -> (forall i, 0 <= i < n' -> m <= cols' i) ->
      exists T, transform RN s' X' = Ok T /\ features_table false n' nf cols' v' f T.
Proof.
  intros L HE HX Hn Hf Hy H4 Hdt Hpn Hrs. set (s := default_est pn rs nj).
  assert (HM : exists m, common_points vl None n cols m).
  { destruct (min_list (map cols (zrange 0 n))) as [m|] eqn:E.
    - apply min_list_spec in E as [A B]. apply in_map_iff in A as (i & <- & Hi). apply in_zrange in Hi. exists (cols i). split; [exists i; split; [lia|reflexivity]|].
      intros i' Hi'. apply B. apply in_map. apply in_zrange. lia.
    - exfalso. rewrite zrange_cons in E by lia. discriminate E. }
  destruct HM as (m & HM). pose proof HM as [(i & Hi & Em) Hmc]. assert (4 <= m) by (rewrite Em; apply H4; exact Hi).
  destruct (C69_fit_total S rng RS V ex X y s h n nf cols v vl m [11] 5%R 10%R) as (s' & h' & EF); auto; try (cbn; lia); try lra; try reflexivity; try discriminate.
  { right. eexists. reflexivity. }
  assert (Hty : forall k, e_type s = TKind k -> kind_vl k = vl) by discriminate.
  assert (Hml : vl = true -> forall m, e_min_len s = Some m -> 4 <= m /\ forall i, 0 <= i < n -> m <= cols i) by discriminate.
  destruct (fit_sound rng V ex X y s h s' h' n nf cols v vl L HE HX Hn Hf Hy eq_refl Hty H4 Hml EF) as (k & f & m' & HF).
  assert (E : m' = m).
  { destruct (ff_points _ _ _ _ _ _ _ _ _ _ _ HF) as [(i2 & Hi2 & A) B]. specialize (B i Hi). specialize (Hmc i2 Hi2). lia. }
  subst m'. exists s', h', f, m. split; [exact EF|]. split.
  - destruct (fit_ok _ _ _ _ _ _ _ _ _ _ _ EF) as (q & s1 & f1 & HP & _).
    destruct (prepare_ok _ _ _ _ _ _ _ _ _ HP) as (k0 & D & sh & lens & m0 & ls & D' & y' & sizes & seed & pc & al & pn' & _ & _ & _ & _ & _ & _ & Hs & _).
    destruct (Hs eq_refl) as (g & _ & _ & G). apply set_inv_at in G; [apply G|]. cbn. lia.
  - split; [apply (ff_shapelets _ _ _ _ _ _ _ _ _ _ _ HF)|]. split; [exact HM|]. intros X' n' cols' v' HX' Hn' Hc'.
    destruct (fit_long _ _ _ _ _ _ _ _ _ _ _ X' n' cols' v' HF Hf) as (T & E1 & E2 & _); auto. exists T. auto.
Qed.
