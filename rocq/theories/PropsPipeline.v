(** Properties C73 and C74: the two classifiers from their constructors without argument to the predictions, in the real
    numbers.  sklearn's scaler and ridge classifier are arguments ([K]). *)
From Coq Require Import String ZArith List Bool Reals Lra Lia Permutation.
From Verif Require Import Prelude Num Kernel Spec KernelProofs RealBase Parallel Apply ApplyProofs ApplyUni ApplyMulti TransformProofs TransformLaws
  RealProofs SampleLaws Gen GenSched GenBase GenUni GenDraw GenSpec GenUCase GenMRun Checks ChecksProofs Estimator EstimatorNum EstimatorLaws
  EstimatorCases PropsEstimator Preproc PreprocProofs PropsPreproc Classifiers ClassifierProofs EnsembleProofs PropsClassifiers InputTrans PropsInput EndToEnd PropsEndToEnd Defaults.
Import ListNotations.
Open Scope Z_scope.

(** ** C73.  R_DST_Ridge() *)

(** [atts]: the positions below [w] of the columns of [T] that are not constant, in increasing order *)
Definition varying (w : Z) (T : list (list R)) (atts : list Z) : Prop :=
  incr atts /\ forall j, In j atts <-> 0 <= j < w /\ exists r s, In r T /\ In s T /\ nthZ r j <> nthZ s j.
(** [Q] holds the columns [atts] of [T] *)
Definition columns (atts : list Z) (T Q : list (list R)) : Prop :=
  Forall2 (fun row row' => Forall2 (fun j x => nthZ row j = Some x) atts row') T Q.

Lemma take_columns w atts (T : list (list R)) : (forall j, In j atts -> 0 <= j < w) -> (forall r, In r T -> zlen r = w) ->
  exists Q, take_cols T atts = Ok Q /\ columns atts T Q.
Proof.
  intros HA HT. unfold take_cols.
  assert (G : forall r, zlen r = w -> exists q, mapM (get r) atts = Ok q /\ Forall2 (fun j (x : R) => nthZ r j = Some x) atts q).
  { intros r Hr. revert HA. induction atts as [|j t IH]; intros HA; [exists []; split; [reflexivity|constructor]|].
    destruct IH as (q & E1 & E2); [intros j' Hj'; apply HA; right; exact Hj'|]. destruct (nthZ_some r j) as (x & Hx); [rewrite Hr; apply HA; left; reflexivity|].
    exists (x :: q). cbn [mapM]. rewrite (proj2 (get_nthZ r j x ltac:(apply HA; left; reflexivity)) Hx). cbn [bind]. rewrite E1. split; [reflexivity|]. constructor; assumption. }
  induction T as [|r T IH]; [exists []; split; [reflexivity|constructor]|].
  destruct IH as (Q & E1 & E2); [intros r' Hr'; apply HT; right; exact Hr'|]. destruct (G r (HT r (or_introl eq_refl))) as (q & F1 & F2).
  exists (q :: Q). cbn [mapM]. rewrite F1. cbn [bind]. rewrite E1. split; [reflexivity|]. constructor; assumption.
Qed.

(** R_DST_Ridge().fit(X, y) on any dataset of at least 4 points: the features are those of R_DST (C69), the classifier
    sees the features that vary over the training series, scaled; fit fails only if sklearn refuses these.  Afterwards
    predict on any dataset with no shorter series gives what the classifier says of the same features of that dataset, and
    score is the proportion of the labels that agree. *)
Theorem C73_ridge : forall S (rng : Rng R S) RS (V : pyenv RS) SC P M (K : sklearn R SC P M) ex X y p h n nf cols v vl,
  RngLaws RN rng -> real_executor ex -> passes X n nf cols v vl -> 1 <= n -> 1 <= nf -> zlen y = n -> (forall i, 0 <= i < n -> 4 <= cols i) ->
  (forall sh dt cells, X = VArr sh dt cells -> dt = DInt64 \/ dt = DFloat64 \/ dt = DObject) ->
  h <> [] -> 1 <= v_cpus V -> 1 <= v_threads V ->
  exists r r' u h' f T atts Q, ridge_init (SC := SC) (M := M) V default_args p = Ok r /\ ridge_fit RN rng V K ex X y r h = (u, r', h') /\
    features_table false n nf cols v f T /\ varying (3 * count_of f) T atts /\ columns atts T Q /\
    match (let* sc := k_scale_fit K Q in let* Qs := k_scale K sc Q in let* c := k_ridge_fit K p Qs y in Ok (sc, c)) with
    | Err er => u = Err er
    | Ok (sc, c) =>
        u = Ok tt /\
        forall X' n' cols' v', passes X' n' nf cols' v' vl -> 1 <= n' -> (forall i', 0 <= i' < n' -> exists i, 0 <= i < n /\ cols i <= cols' i') ->
        exists T' Q', features_table false n' nf cols' v' f T' /\ columns atts T' Q' /\
          ridge_predict RN K r' X' = (let* Qs := k_scale K sc Q' in k_ridge_predict K c Qs) /\
          forall l y', ridge_predict RN K r' X' = Ok l -> y' <> [] ->
            ridge_score RN K r' X' y' = if zlen y' =? zlen l then Ok (IZR (agreements y' l) / IZR (zlen y'))%R else Err ValueError
    end.
Proof.
  intros S rng RS V SC P M K ex X y p h n nf cols v vl L HE HX Hn Hf Hy H4 Hdt Hh Hcpu Hth.
  set (r := mkRidge (SC := SC) (M := M) default_args p (VInt 1) None None).
  assert (EI : ridge_init (SC := SC) (M := M) V default_args p = Ok r).
  { unfold ridge_init, default_args. cbn [p_n_jobs]. unfold init_n_jobs, check_n_jobs, set_num_threads. cbn [bind Z.ltb Z.compare].
    replace (Z.min 1 (v_cpus V)) with 1 by lia. replace ((1 <=? 1) && (1 <=? v_threads V)) with true by (symmetry; apply andb_true_iff; split; apply Z.leb_le; lia).
    reflexivity. }
  assert (Hpn : numeric (VFloat (8/10)%R)) by (right; eexists; reflexivity).
  assert (Hrs : 0 <= 0 < zlen h) by (destruct h; [congruence|rewrite zlen_cons; pose proof (zlen_nonneg h); lia]).
  destruct (default_fit rng V ex X y (VFloat (8/10)%R) 0 (VBool false) h n nf cols v vl L HE HX Hn Hf Hy H4 Hdt Hpn Hrs) as (s' & h' & f & m & EF & _ & Es & Hm & HT).
  pose proof Hm as [(i0 & Hi0 & Em) Hmc].
  destruct (HT X n cols v HX Hn Hmc) as (T & ET & FT). pose proof FT as (FT1 & FT2 & _).
  assert (Hw : 0 <= 3 * count_of f).
  { destruct (nthZ_some T 0) as (row & Hrow); [lia|]. apply nthZ_In in Hrow. rewrite <- (FT2 row Hrow). apply zlen_nonneg. }
  destruct (C47_kept_columns (3 * count_of f) T (conj Hw FT2)) as (atts & Ea & Hincr & Hin).
  assert (HA : forall j, In j atts -> 0 <= j < 3 * count_of f) by (intros j Hj; apply Hin in Hj; tauto).
  destruct (take_columns _ _ T HA FT2) as (Q & EQ & CQ).
  assert (En : ncols T = 3 * count_of f) by (destruct T as [|row T']; [change (zlen (@nil (list R))) with 0 in FT1; lia|apply FT2; left; reflexivity]).
  assert (EP : pipe_fit RN K p T y = (let* sc := k_scale_fit K Q in let* Qs := k_scale K sc Q in let* c := k_ridge_fit K p Qs y in Ok (mkScaler atts sc, c))).
  { unfold pipe_fit, c_fit. rewrite En, Ea. cbn [bind]. rewrite EQ. cbn [bind]. destruct (k_scale_fit K Q) as [sc|er]; [|reflexivity]. cbn [bind].
    unfold c_transform. cbn [sc_atts sc_inner]. rewrite EQ. reflexivity. }
  assert (EI2 : init RN V (ridge_rdst_args default_args) h = (Ok (default_est (VFloat (8/10)%R) 0 (VBool false)), h)).
  { unfold ridge_rdst_args, default_args. cbn [p_transform_type p_phase_invariance p_alpha p_normalize_output p_n_samples p_n_shapelets p_shapelet_lengths p_bounds
      p_reduction p_prime_dilations p_proba_norm p_percentiles p_random_state p_max_channels p_min_len p_n_jobs].
    apply init_default; auto. }
  assert (ER : ridge_fit RN rng V K ex X y r h = match pipe_fit RN K p T y with
     | Ok c => (Ok tt, mkRidge default_args p (VInt 1) (Some (Some c)) (Some s'), h')
     | Err er => (Err er, mkRidge default_args p (VInt 1) (Some None) (Some s'), h') end).
  { unfold ridge_fit. cbn [r rd_args rd_hyper rd_n_jobs rd_transformer]. rewrite EI2, EF. cbn [bind]. rewrite ET. cbn [bind]. reflexivity. }
  exists r. rewrite EP in ER. revert ER.
  destruct (k_scale_fit K Q) as [sc|er] eqn:E1; cbn [bind]; intros ER.
  2:{ do 3 eexists. exists f, T, atts, Q. split; [exact EI|]. split; [exact ER|]. split; [exact FT|]. split; [split; assumption|]. split; [exact CQ|]. rewrite E1. reflexivity. }
  destruct (k_scale K sc Q) as [Qs|er] eqn:E2; cbn [bind] in ER.
  2:{ do 3 eexists. exists f, T, atts, Q. split; [exact EI|]. split; [exact ER|]. split; [exact FT|]. split; [split; assumption|]. split; [exact CQ|]. rewrite E1. cbn [bind]. rewrite E2. reflexivity. }
  destruct (k_ridge_fit K p Qs y) as [c|er] eqn:E3; cbn [bind] in ER.
  2:{ do 3 eexists. exists f, T, atts, Q. split; [exact EI|]. split; [exact ER|]. split; [exact FT|]. split; [split; assumption|]. split; [exact CQ|]. rewrite E1. cbn [bind]. rewrite E2. cbn [bind]. rewrite E3. reflexivity. }
  do 3 eexists. exists f, T, atts, Q. split; [exact EI|]. split; [exact ER|]. split; [exact FT|]. split; [split; assumption|]. split; [exact CQ|]. rewrite E1. cbn [bind]. rewrite E2. cbn [bind]. rewrite E3. cbn [bind].
  split; [reflexivity|]. intros X' n' cols' v' HX' Hn' Hc'.
  destruct (HT X' n' cols' v' HX' Hn') as (T' & ET' & FT').
  { intros i' Hi'. destruct (Hc' i' Hi') as (i & Hi & Hle). specialize (Hmc i Hi). lia. }
  destruct (take_columns _ _ T' HA (proj1 (proj2 FT'))) as (Q' & EQ' & CQ').
  exists T', Q'. split; [exact FT'|]. split; [exact CQ'|].
  split.
  - unfold ridge_predict. cbn [rd_classifier rd_transformer]. rewrite ET'. cbn [bind]. unfold pipe_predict, c_transform. cbn [fst snd sc_atts sc_inner]. rewrite EQ'. reflexivity.
  - intros l y' El Hy'. unfold ridge_score. rewrite El. cbn [bind]. unfold accuracy. destruct (zlen y' =? zlen l); reflexivity.
Qed.
Print Assumptions C73_ridge.

(** ** C74.  R_DST_Ensemble() *)

(** What member [i] of the default ensemble sees of [n] series of [nf] channels of [t] points with values [v]: the series,
    their first differences, their periodograms. *)
Definition sees (pg : string -> list R -> res (list R)) (i n nf t : Z) (v : Z -> Z -> Z -> R) (t1 : Z) (v1 : Z -> Z -> Z -> R) : Prop :=
  (i = 0 /\ t1 = t /\ v1 = v) \/
  (i = 1 /\ t1 = t - 1 /\ v1 = fun s ch j => (v s ch (j + 1)%Z - v s ch j)%R) \/
  (i = 2 /\ t1 = t / 2 + 1 /\ forall s ch, 0 <= s < n -> 0 <= ch < nf -> pg "boxcar"%string (points v s ch t) = Ok (points v1 s ch t1)).

(** scipy's periodogram: t // 2 + 1 values for t points *)
Definition periodogram_law (pg : string -> list R -> res (list R)) : Prop :=
  forall x, x <> [] -> exists p, pg "boxcar"%string x = Ok p /\ zlen p = zlen x / 2 + 1.

Lemma sees_total pg i tr X n nf t v : periodogram_law pg -> numeric_array X n nf t v -> 1 <= n -> 1 <= nf -> 6 <= t ->
  nthZ (default_transformers RN pg) i = Some tr ->
  exists X1 t1 v1, tr X = Ok X1 /\ numeric_array X1 n nf t1 v1 /\ sees pg i n nf t v t1 v1.
Proof.
  intros Hpg HX Hn Hf Ht Hi. pose proof (nthZ_range _ _ _ Hi) as Ri. change (zlen (default_transformers RN pg)) with 3 in Ri.
  assert (C : i = 0 \/ i = 1 \/ i = 2) by lia. destruct C as [->|[->| ->]]; injection Hi as <-.
  - exists X, t, v. split; [reflexivity|]. split; [exact HX|]. left. auto.
  - destruct (C75_derivate 1 0 X n nf t v HX ltac:(lia) ltac:(lia) ltac:(lia)) as (X1 & E & H1). exists X1, (t - 1). eexists. split; [exact E|]. split; [exact H1|]. right. left. auto.
  - destruct (C75_periodigram pg "boxcar" X n nf t v HX Hn Hf ltac:(lia) Hpg) as (X1 & v1 & E & H1 & H2). exists X1, (t / 2 + 1), v1. split; [exact E|]. split; [exact H1|]. right. right. auto.
Qed.
Lemma sees_points pg i n nf t v t1 v1 t' v' t1' v1' n' : sees pg i n nf t v t1 v1 -> sees pg i n' nf t' v' t1' v1' -> 6 <= t <= t' -> 4 <= t1 <= t1'.
Proof. intros [(A & B & _)|[(A & B & _)|(A & B & _)]] [(A' & B' & _)|[(A' & B' & _)|(A' & B' & _)]] H; lia. Qed.

Definition ensemble_args : @rargs R :=
  mkArgs (VStr "auto") (VBool false) (VFloat (1/2)%R) (VBool false) VNone (VInt 10000) (VList [VInt 11]) VNone (VFloat (1/2)%R) (VBool false)
    VNone (VList [VInt 5; VInt 10]) VNone None None (VInt 1).
(** R_DST_Ensemble() *)
Definition default_ensemble {RS} (V : pyenv RS) {SC P M} (pg : string -> list R -> res (list R)) (p : P) (h : @heap RS) : res (@ens R SC P M) * heap :=
  ens_init RN V ensemble_args p (VInt 4) (VList [VFloat (8/10)%R; VFloat (8/10)%R; VFloat (8/10)%R]) (default_transformers RN pg) h.

(** What a fitted member [m] of rank [i] knows: its shapelets; the ridge classifier trained on their scaled features over what it
    sees of the training data; and it computes the same features of whatever data with at least as many points. *)
Definition member_of {SC P M} (K : sklearn R SC P M) pg (p : P) (n nf t : Z) (v : Z -> Z -> Z -> R) (y : list Z) (i : Z) (m : @member R SC M) : Prop :=
  exists f, e_shapelets (m_rdst m) = Some f /\
    (exists t1 v1 T, sees pg i n nf t v t1 v1 /\ features_table false n nf (fun _ => t1) v1 f T /\ ridge_trained K p T y (m_ridge m)) /\
    forall X' n' t' v', numeric_array X' n' nf t' v' -> 1 <= n' -> t <= t' ->
      exists X1 t1 v1 T, m_in m X' = Ok X1 /\ sees pg i n' nf t' v' t1 v1 /\ transform RN (m_rdst m) X1 = Ok T /\ features_table false n' nf (fun _ => t1) v1 f T.

(** R_DST_Ensemble().fit(X, y) on an int64 or float64 array of at least 6 points, whatever the order in which the
    threads fit the members: it fails only where sklearn fails, on the features of one of the members or on the
    leave-one-out accuracies; otherwise the three members are as described. *)
Theorem C74_fit : forall S (rng : Rng R S) RS (V : pyenv RS) SC P M (K : sklearn R SC P M) ex pg sched X y p h n nf t v,
  RngLaws RN rng -> real_executor ex -> periodogram_law pg -> Permutation sched [0; 1; 2] ->
  numeric_array X n nf t v -> 1 <= n -> 1 <= nf -> 6 <= t -> zlen y = n -> h <> [] -> 1 <= v_cpus V -> 1 <= v_threads V ->
  exists e u e' h', default_ensemble (SC := SC) (M := M) V pg p h = (Ok e, h) /\ ens_fit RN rng V K ex sched X y e h = (u, e', h') /\
    ((u = Ok tt /\ exists models ws, en_fitted e' = Some (models, ws) /\ zlen models = 3 /\ zlen ws = 3 /\
        forall i m, nthZ models i = Some m -> member_of K pg p n nf t v y i m) \/
     (exists i t1 v1 f T er, u = Err er /\ 0 <= i < 3 /\ sees pg i n nf t v t1 v1 /\ features_table false n nf (fun _ => t1) v1 f T /\ ridge_refuses K p T y er) \/
     (exists i m er, u = Err er /\ member_of K pg p n nf t v y i m /\ loocv_acc RN K (m_ridge m) y = Err er)).
Proof.
  intros S rng RS V SC P M K ex pg sched X y p h n nf t v L HE Hpg Hsch HX Hn Hf Ht Hy Hh Hcpu Hth.
  set (a := mkArgs (VStr "auto") (VBool false) (VFloat (1/2)%R) (VBool false) VNone (VInt 10000) (VArr [1] DInt64 [VInt 11]) VNone (VFloat (1/2)%R) (VBool false)
    VNone (VList [VInt 5; VInt 10]) (VRng 0) None None VNone).
  set (e := mkEns (SC := SC) (M := M) a p (VInt 4) [VFloat (8/10)%R; VFloat (8/10)%R; VFloat (8/10)%R] (default_transformers RN pg) 0 (VInt 1) None None).
  exists e.
  set (e1 := mkEns (SC := SC) (M := M) a p (VInt 4) [VFloat (8/10)%R; VFloat (8/10)%R; VFloat (8/10)%R] (default_transformers RN pg) 0 (VInt 1) (Some 1) None).
  assert (Emj : manage_n_jobs V e = (Ok 1, e1)).
  { unfold manage_n_jobs. cbn [e en_n_jobs check_n_jobs Z.ltb Z.compare en_trans]. replace (Z.min 1 (v_cpus V)) with 1 by lia. reflexivity. }
  assert (Est : set_num_threads V 1 = Ok tt) by (unfold set_num_threads; apply guard_ok; apply andb_true_iff; split; apply Z.leb_le; lia).
  (* one member *)
  assert (HMF : forall i h, 0 <= i < 3 -> h <> [] ->
    (exists m h', member_fit RN rng V K ex e1 X y i h = (Ok m, h') /\ h' <> [] /\ member_of K pg p n nf t v y i m) \/
    (exists er h', member_fit RN rng V K ex e1 X y i h = (Err er, h') /\
       exists t1 v1 f T, sees pg i n nf t v t1 v1 /\ features_table false n nf (fun _ => t1) v1 f T /\ ridge_refuses K p T y er)).
  { clear h Hh. intros i h Hi Hh. destruct (nthZ_some (default_transformers RN pg) i) as (tr & Htr); [exact Hi|].
    destruct (sees_total pg i tr X n nf t v Hpg HX Hn Hf Ht Htr) as (X1 & t1 & v1 & E1 & HX1 & Hs).
    assert (Ht1 : 4 <= t1) by (destruct (sees_points _ _ _ _ _ _ _ _ _ _ _ _ _ Hs Hs ltac:(lia)); assumption).
    assert (Hpn : numeric (VFloat (8/10)%R)) by (right; eexists; reflexivity).
    assert (Hrs : 0 <= 0 < zlen h) by (destruct h; [congruence|rewrite zlen_cons; pose proof (zlen_nonneg h); lia]).
    pose proof (numeric_passes X1 n nf t1 v1 HX1 ltac:(lia)) as HP1.
    assert (Hdt : forall sh dt cells, X1 = VArr sh dt cells -> dt = DInt64 \/ dt = DFloat64 \/ dt = DObject).
    { intros sh dt cells Q. destruct HX1 as (dt0 & c0 & EQ & Hd & _). assert (dt = dt0) by congruence. subst. tauto. }
    destruct (default_fit rng V ex X1 y (VFloat (8/10)%R) 0 (VBool false) h n nf (fun _ => t1) v1 false L HE HP1 Hn Hf Hy (fun _ _ => Ht1) Hdt Hpn Hrs)
      as (s' & h' & f & mm & EF & Eh & Es & Hm & HT).
    pose proof Hm as [(i0 & Hi0 & Em) _]. cbn beta in Em. subst mm.
    destruct (HT X1 n (fun _ => t1) v1 HP1 Hn ltac:(intros; apply Z.le_refl)) as (T & ET & FT).
    assert (EM : member_fit RN rng V K ex e1 X y i h = ((let* c := iridge_fit K p T y in Ok (mkMember tr s' c)), h')).
    { unfold member_fit. cbn [e1 en_trans en_probas]. rewrite (proj2 (get_nthZ _ i tr ltac:(lia)) Htr). cbn [bind].
      assert (EP : get [VFloat (8/10)%R; VFloat (8/10)%R; VFloat (8/10)%R] i = Ok (VFloat (8/10)%R)).
      { assert (C : i = 0 \/ i = 1 \/ i = 2) by lia. destruct C as [->|[->| ->]]; reflexivity. }
      rewrite EP. cbn [bind].
      assert (EI : init RN V (member_args e1 (VFloat (8/10)%R)) h = (Ok (default_est (VFloat (8/10)%R) 0 (VBool false)), h)).
      { unfold member_args. cbn [e1 a en_args en_rs p_transform_type p_phase_invariance p_alpha p_normalize_output p_n_samples p_n_shapelets p_shapelet_lengths p_bounds
          p_reduction p_prime_dilations p_proba_norm p_percentiles p_random_state p_max_channels p_min_len p_n_jobs]. apply init_default; auto. }
      rewrite EI, E1, EF. cbn [bind]. rewrite ET. reflexivity. }
    rewrite EM. destruct (iridge_fit K p T y) as [c|er] eqn:EC.
    - left. do 2 eexists. split; [reflexivity|]. split; [intros Q; rewrite Q in Eh; change (zlen (@nil RS)) with 0 in Eh; lia|].
      exists f. split; [exact Es|]. split; [apply iridge_ok in EC; exists t1, v1, T; auto|]. intros X' n' t' v' HX' Hn' Ht'. cbn [m_in m_rdst].
      destruct (sees_total pg i tr X' n' nf t' v' Hpg HX' Hn' Hf ltac:(lia) Htr) as (X1' & t1' & v1' & E1' & HX1' & Hs').
      assert (Hle : t1 <= t1') by (destruct (sees_points _ _ _ _ _ _ _ _ _ _ _ _ _ Hs Hs' ltac:(lia)); assumption).
      destruct (HT X1' n' (fun _ => t1') v1' (numeric_passes X1' n' nf t1' v1' HX1' ltac:(lia)) Hn' ltac:(intros; exact Hle)) as (T' & ET' & FT').
      exists X1', t1', v1', T'. auto.
    - right. apply iridge_err in EC. do 2 eexists. split; [reflexivity|]. exists t1, v1, f, T. auto. }
  (* the members in the order of the schedule *)
  assert (HRM : forall sched h, (forall i, In i sched -> 0 <= i < 3) -> h <> [] ->
    (exists ms h', run_members RN rng V K ex e1 X y sched h = (Ok ms, h') /\ map fst ms = sched /\ forall i m, In (i, m) ms -> member_of K pg p n nf t v y i m) \/
    (exists er h', run_members RN rng V K ex e1 X y sched h = (Err er, h') /\
       exists i t1 v1 f T, 0 <= i < 3 /\ sees pg i n nf t v t1 v1 /\ features_table false n nf (fun _ => t1) v1 f T /\ ridge_refuses K p T y er)).
  { clear h Hh sched Hsch. induction sched as [|i q IH]; intros h Hin Hh; cbn [run_members].
    - left. exists [], h. split; [reflexivity|]. split; [reflexivity|]. intros i m [].
    - destruct (HMF i h (Hin i (or_introl eq_refl)) Hh) as [(m & h1 & EM & Hh1 & Hm)|(er & h1 & EM & t1 & v1 & f & T & A)]; rewrite EM.
      + destruct (IH h1 ltac:(intros j Hj; apply Hin; right; exact Hj) Hh1) as [(ms & h2 & ER & E2 & HI)|(er & h2 & ER & Q)]; rewrite ER.
        * left. do 2 eexists. split; [reflexivity|]. split; [cbn [map fst]; f_equal; exact E2|]. intros j m' [E|Hj]; [injection E as <- <-; exact Hm|auto].
        * right. do 2 eexists. split; [reflexivity|]. exact Q.
      + right. do 2 eexists. split; [reflexivity|]. exists i, t1, v1, f, T. split; [apply Hin; left; reflexivity|exact A]. }
  assert (EE : default_ensemble (SC := SC) (M := M) V pg p h = (Ok e, h)) by reflexivity.
  assert (HS : forall i, In i sched -> 0 <= i < 3).
  { intros i Hi. apply (Permutation_in i Hsch) in Hi. destruct Hi as [<-|[<-|[<-|[]]]]; lia. }
  destruct (HRM sched h HS Hh) as [(ms & h' & ER & E2 & HI)|(er & h' & ER & i & t1 & v1 & f & T & A)].
  2:{ exists (Err er), e1, h'. split; [exact EE|]. unfold ens_fit. rewrite Emj, Est, ER. cbn [bind]. split; [reflexivity|]. right. left. exists i, t1, v1, f, T, er. auto. }
  (* the members are found by position *)
  assert (HFM : forall i, In i [0; 1; 2] -> exists m, find_member ms i = Ok m /\ member_of K pg p n nf t v y i m).
  { intros i Hi. apply (Permutation_in i (Permutation_sym Hsch)) in Hi. rewrite <- E2 in Hi. apply in_map_iff in Hi as ([j m] & Ej & Hm). cbn in Ej. subst j.
    exists m. split; [|auto]. apply In_nthZ in Hm as (k & Hk). apply (find_member_at ms k i m); [|exact Hk].
    rewrite E2. apply (Permutation_NoDup (Permutation_sym Hsch)). repeat constructor; cbn; lia. }
  destruct (HFM 0 ltac:(cbn; auto)) as (m0 & F0 & G0). destruct (HFM 1 ltac:(cbn; auto)) as (m1 & F1 & G1). destruct (HFM 2 ltac:(cbn; auto)) as (m2 & F2 & G2).
  assert (EMs : mapM (find_member ms) (zrange 0 3) = Ok [m0; m1; m2]).
  { change (zrange 0 3) with [0; 1; 2]. cbn [mapM]. rewrite F0. cbn [bind]. rewrite F1. cbn [bind]. rewrite F2. reflexivity. }
  assert (EF : ens_fit RN rng V K ex sched X y e h = match ens_weights RN K e1 y [m0; m1; m2] with
     | Ok ws => (Ok tt, mkEns a p (VInt 4) (en_probas e1) (default_transformers RN pg) 0 (VInt 1) (Some 1) (Some ([m0; m1; m2], ws)), h')
     | Err er => (Err er, e1, h') end).
  { unfold ens_fit. rewrite Emj, Est, ER. cbn [bind]. change (zlen (en_trans e)) with 3. rewrite EMs. destruct (ens_weights RN K e1 y [m0; m1; m2]); reflexivity. }
  assert (HW : (exists w0 w1 w2, ens_weights RN K e1 y [m0; m1; m2] = Ok [w0; w1; w2]) \/
     exists i m er, member_of K pg p n nf t v y i m /\ loocv_acc RN K (m_ridge m) y = Err er /\ ens_weights RN K e1 y [m0; m1; m2] = Err er).
  { unfold ens_weights. cbn [e1 en_a_w mapM as_F].
    destruct (loocv_acc RN K (m_ridge m0) y) as [a0|er] eqn:A0; cbn [bind]; [|right; exists 0, m0, er; auto].
    destruct (loocv_acc RN K (m_ridge m1) y) as [a1|er] eqn:A1; cbn [bind]; [|right; exists 1, m1, er; auto].
    destruct (loocv_acc RN K (m_ridge m2) y) as [a2|er] eqn:A2; cbn [bind]; [|right; exists 2, m2, er; auto].
    left. do 3 eexists. reflexivity. }
  destruct HW as [(w0 & w1 & w2 & EW)|(i & m & er & HM & HL & EW)]; rewrite EW in EF.
  - do 3 eexists. split; [exact EE|]. split; [exact EF|]. left. split; [reflexivity|]. cbn [en_fitted]. do 2 eexists. split; [reflexivity|]. split; [reflexivity|]. split; [reflexivity|].
    intros i m Hi. pose proof (nthZ_range _ _ _ Hi) as Ri. change (zlen [m0; m1; m2]) with 3 in Ri.
    assert (C : i = 0 \/ i = 1 \/ i = 2) by lia. destruct C as [->|[->| ->]]; injection Hi as <-; assumption.
  - do 3 eexists. split; [exact EE|]. split; [exact EF|]. right. right. exists i, m, er. auto.
Qed.
Print Assumptions C74_fit.

(** Then predict, on an array of n' series of at least as many points: each member decides with its ridge classifier on the
    features of what it sees; the class of a series is the one with the largest weighted sum of softmax shares. *)
Theorem C74_predict : forall S (rng : Rng R S) RS (V : pyenv RS) SC P M (K : sklearn R SC P M) ex pg sched X y p h n nf t v e e' h' X' n' t' v' k,
  RngLaws RN rng -> real_executor ex -> periodogram_law pg -> Permutation sched [0; 1; 2] ->
  numeric_array X n nf t v -> 1 <= n -> 1 <= nf -> 6 <= t -> zlen y = n -> h <> [] -> 1 <= v_cpus V -> 1 <= v_threads V ->
  default_ensemble (SC := SC) (M := M) V pg p h = (Ok e, h) -> ens_fit RN rng V K ex sched X y e h = (Ok tt, e', h') ->
  numeric_array X' n' nf t' v' -> 1 <= n' -> t <= t' -> (forall x, k_exp K x = exp x) -> 1 <= k ->
  (* sklearn, for data of n' samples: the scaler works and the decisions are about k classes *)
  (forall models ws m T, en_fitted e' = Some (models, ws) -> In m models -> zlen T = n' -> exists Ts d, k_scale K (fst (m_ridge m)) T = Ok Ts /\
     k_decision K (snd (m_ridge m)) Ts = Ok d /\ match d with D1 l => zlen l = n' /\ k = 2 | D2 l => zlen l = n' /\ Forall (fun r => zlen r = k) l end) ->
  exists models ws Ds l, en_fitted e' = Some (models, ws) /\ zlen models = 3 /\ zlen ws = 3 /\ zlen Ds = 3 /\ ens_predict RN K e' X' = Ok l /\ zlen l = n' /\
    (forall i m D, nthZ models i = Some m -> nthZ Ds i = Some D -> exists f t1 v1 T Ts d,
       e_shapelets (m_rdst m) = Some f /\ sees pg i n' nf t' v' t1 v1 /\ features_table false n' nf (fun _ => t1) v1 f T /\
       k_scale K (fst (m_ridge m)) T = Ok Ts /\ k_decision K (snd (m_ridge m)) Ts = Ok d /\ D = match d with D1 l => map (fun x => [- x; x]%R) l | D2 l => l end) /\
    forall s c, nthZ l s = Some c -> 0 <= c < k /\
      forall c', 0 <= c' < k -> (score ws Ds s c' <= score ws Ds s c)%R /\ (c' < c -> (score ws Ds s c' < score ws Ds s c)%R).
Proof.
  intros S rng RS V SC P M K ex pg sched X y p h n nf t v e e' h' X' n' t' v' k L HE Hpg Hsch HX Hn Hf Ht Hy Hh Hcpu Hth EE EF HX' Hn' Ht' Hexp Hk HK.
  destruct (C74_fit S rng RS V SC P M K ex pg sched X y p h n nf t v L HE Hpg Hsch HX Hn Hf Ht Hy Hh Hcpu Hth) as (e0 & u0 & e0' & h0 & EE0 & EF0 & C).
  assert (e0 = e) by congruence. subst e0. rewrite EF in EF0. injection EF0 as <- <- <-.
  destruct C as [(_ & models & ws & EM & L3 & W3 & HM)|[(i & t1 & v1 & f & T & er & Q & _)|(i & m & er & Q & _)]]; [|discriminate Q|discriminate Q].
  assert (HD : forall i m, nthZ models i = Some m -> exists D, decides K m X' D /\ zlen D = n' /\ Forall (fun r => zlen r = k) D /\ exists f t1 v1 T Ts d,
       e_shapelets (m_rdst m) = Some f /\ sees pg i n' nf t' v' t1 v1 /\ features_table false n' nf (fun _ => t1) v1 f T /\
       k_scale K (fst (m_ridge m)) T = Ok Ts /\ k_decision K (snd (m_ridge m)) Ts = Ok d /\ D = match d with D1 l => map (fun x => [- x; x]%R) l | D2 l => l end).
  { intros i m Hi. destruct (HM i m Hi) as (f & Es & _ & HL). destruct (HL X' n' t' v' HX' Hn' Ht') as (X1 & t1 & v1 & T & E1 & Hs & ET & FT).
    destruct (HK models ws m T EM (nthZ_In _ _ _ Hi) (proj1 FT)) as (Ts & d & E2 & E3 & Hd).
    exists (match d with D1 l => map (fun x => [- x; x]%R) l | D2 l => l end). split; [exists X1, T, Ts, d; auto|].
    assert (Hz : zlen (match d with D1 l => map (fun x => [- x; x]%R) l | D2 l => l end) = n' /\ Forall (fun r => zlen r = k) (match d with D1 l => map (fun x => [- x; x]%R) l | D2 l => l end)).
    { destruct d as [l|l]; [|exact Hd]. destruct Hd as [A ->]. split; [rewrite zlen_map; exact A|]. apply Forall_forall. intros r Hr. apply in_map_iff in Hr as (x & <- & _). reflexivity. }
    destruct Hz as [A B]. split; [exact A|]. split; [exact B|]. exists f, t1, v1, T, Ts, d. auto 10. }
  assert (M3 : exists m0 m1 m2, models = [m0; m1; m2]).
  { destruct models as [|m0 [|m1 [|m2 [|m3 q]]]]; try discriminate L3; [eauto|]. exfalso. rewrite !zlen_cons in L3. pose proof (zlen_nonneg q). lia. }
  destruct M3 as (m0 & m1 & m2 & ->). destruct (HD 0 m0 eq_refl) as (D0 & A0 & B0 & C0 & G0). destruct (HD 1 m1 eq_refl) as (Da & A1 & B1 & C1 & G1). destruct (HD 2 m2 eq_refl) as (Db & A2 & B2 & C2 & G2).
  assert (HJ : forall j m D, nthZ [m0; m1; m2] j = Some m -> nthZ [D0; Da; Db] j = Some D -> j = 0 /\ m = m0 /\ D = D0 \/ j = 1 /\ m = m1 /\ D = Da \/ j = 2 /\ m = m2 /\ D = Db).
  { intros j m D Hj HjD. pose proof (nthZ_range _ _ _ Hj) as Rj. change (zlen [m0; m1; m2]) with 3 in Rj. assert (Q : j = 0 \/ j = 1 \/ j = 2) by lia.
    destruct Q as [->|[->| ->]]; injection Hj as <-; injection HjD as <-; auto. }
  destruct (C45_vote SC P M K e' [m0; m1; m2] ws X' [D0; Da; Db] n' k Hexp Hk EM) as (l & El & Ll & Hl); [discriminate|exact W3|reflexivity| |].
  { intros j m D Hj HjD. destruct (HJ j m D Hj HjD) as [(-> & -> & ->)|[(-> & -> & ->)|(-> & -> & ->)]]; auto. }
  exists [m0; m1; m2], ws, [D0; Da; Db], l. split; [exact EM|]. split; [reflexivity|]. split; [exact W3|]. split; [reflexivity|]. split; [exact El|]. split; [exact Ll|].
  split; [|exact Hl]. intros j m D Hj HjD. destruct (HJ j m D Hj HjD) as [(-> & -> & ->)|[(-> & -> & ->)|(-> & -> & ->)]]; assumption.
Qed.
Print Assumptions C74_predict.

(** The tags of the ensemble claim variable-length data, which can only be passed as a list (or an object array).  No such
    ensemble can be fitted on a list or an object array: whatever the schedule and the data, fit raises. *)
Theorem C74_lists_refuted : forall S (rng : Rng R S) RS (V : pyenv RS) SC P M (K : sklearn R SC P M) ex pg sched items y p h e X,
  Permutation sched [0; 1; 2] -> X = VList items \/ X = VArr [zlen items] DObject items ->
  default_ensemble (SC := SC) (M := M) V pg p h = (Ok e, h) ->
  exists er e' h', ens_fit RN rng V K ex sched X y e h = (Err er, e', h').
Proof.
  intros S rng RS V SC P M K ex pg sched items y p h e X Hsch HX EE. unfold default_ensemble in EE. cbn in EE. injection EE as <-.
  unfold ens_fit. destruct (manage_n_jobs V _) as [[k|er] e1] eqn:Emj; [|eauto].
  assert (Et : en_trans e1 = default_transformers RN pg).
  { revert Emj. unfold manage_n_jobs. cbn [en_n_jobs check_n_jobs Z.ltb Z.compare en_trans]. destruct (Z.min _ _ =? 0); intros Q; [discriminate Q|]. injection Q as _ <-. reflexivity. }
  destruct (set_num_threads V k) as [[]|er]; [|eauto].
  assert (H2 : In 2 sched) by (apply (Permutation_in 2 (Permutation_sym Hsch)); cbn; auto).
  assert (HF : forall h, exists er h', member_fit RN rng V K ex e1 X y 2 h = (Err er, h')).
  { intros h0. unfold member_fit. rewrite Et. change (get (default_transformers RN pg) 2) with (@Ok (@itrans R) (periodigram_apply RN pg "boxcar")). cbn [bind].
    destruct (get (en_probas e1) 2) as [pn|er]; cbn [bind]; [|eauto]. destruct (init RN V (member_args e1 pn) h0) as [[s|er] h1]; [|eauto].
    destruct HX as [->| ->]; [rewrite (proj1 (C75_lists_refuted pg "boxcar" items))|rewrite (proj2 (C75_lists_refuted pg "boxcar" items))]; eauto. }
  assert (HR : forall sched h, In 2 sched -> exists er h', run_members RN rng V K ex e1 X y sched h = (Err er, h')).
  { clear sched Hsch H2. induction sched as [|i q IH]; intros h0 Hi; [destruct Hi|]. cbn [run_members].
    destruct (Z.eq_dec i 2) as [->|Hne]; [destruct (HF h0) as (er & h1 & ->); eauto|].
    destruct (member_fit RN rng V K ex e1 X y i h0) as [[m|er] h1]; [|eauto].
    destruct Hi as [->|Hi]; [congruence|]. destruct (IH h1 Hi) as (er & h2 & ->). cbn [bind]. eauto. }
  destruct (HR sched h H2) as (er & h' & ->). cbn [bind]. eauto.
Qed.
Print Assumptions C74_lists_refuted.

(** ** A case: two series of one channel of six points, labelled 0 and 1 *)
Definition pcells : list (pyv R) := intcells [1; 2; 4; 8; 3; 3;  5; 3; 3; 9; 0; 1].
Definition pv (i ch j : Z) : R := match nthZ pcells ((i * 1 + ch) * 6 + j) with Some (VInt z) => IZR z | _ => 0%R end.
Definition pX : pyv R := VArr [2; 1; 6] DInt64 pcells.
Definition half_points (_ : string) (x : list R) : res (list R) := Ok (slice x 0 (zlen x / 2 + 1)).
(** a scaler that does nothing, a ridge classifier that keeps the labels and always decides for class 1 *)
Definition psk : sklearn R unit unit (list Z) :=
  mkSk _ _ _ _ (fun _ => Ok tt) (fun _ X => Ok X) (fun _ X y => Ok y) (fun m X => Ok (map (fun _ => 1) X)) (fun m X => Ok (D1 (map (fun _ => 1%R) X)))
    (fun m => map (fun l => [IZR l - 1/2]%R) m) exp (fun x a => x * a)%R.

Lemma pX_numeric : numeric_array pX 2 1 6 pv.
Proof.
  exists DInt64, pcells. split; [reflexivity|]. split; [left; reflexivity|]. split; [reflexivity|]. intros i ch j Hi Hch Hj. unfold pv.
  destruct (nthZ_some pcells ((i * 1 + ch) * 6 + j)) as (c & Hc); [change (zlen pcells) with 12; lia|]. rewrite Hc. exists c. split; [reflexivity|].
  apply nthZ_In in Hc. unfold pcells, intcells in Hc. apply in_map_iff in Hc as (z & <- & _). reflexivity.
Qed.
Lemma half_points_law : periodogram_law half_points.
Proof.
  intros x Hx. eexists. split; [reflexivity|]. assert (0 < zlen x) by (destruct x; [congruence|rewrite zlen_cons; pose proof (zlen_nonneg x); lia]). apply zlen_slice0. lia.
Qed.

Example C73_case : exists r r' h', ridge_init (SC := unit) (M := list Z) caseV default_args tt = Ok r /\
  ridge_fit RN crng caseV psk in_order pX [0; 1] r [0] = (Ok tt, r', h') /\ ridge_predict RN psk r' pX = Ok [1; 1] /\ ridge_score RN psk r' pX [0; 1] = Ok (1 / 2)%R.
Proof.
  pose proof (numeric_passes pX 2 1 6 pv pX_numeric ltac:(lia)) as HP.
  destruct (C73_ridge Z crng Z caseV unit unit (list Z) psk in_order pX [0; 1] tt [0] 2 1 (fun _ => 6) pv false crng_laws (or_introl eq_refl) HP ltac:(lia) ltac:(lia) eq_refl)
    as (r & r' & u & h' & f & T & atts & Q & E1 & E2 & _ & _ & _ & HU); try discriminate; try (cbn; lia); [intros sh dt cells E; injection E as _ <- _; auto|].
  cbn [psk k_scale_fit k_scale k_ridge_fit bind] in HU. destruct HU as [-> HU]. exists r, r', h'. split; [exact E1|]. split; [exact E2|].
  destruct (HU pX 2 (fun _ => 6) pv HP ltac:(lia) ltac:(intros; exists 0; lia)) as (T' & Q' & FT & CQ & EP & HS).
  assert (EP' : ridge_predict RN psk r' pX = Ok [1; 1]).
  { rewrite EP. cbn [psk k_scale k_ridge_predict bind]. assert (LQ : zlen Q' = 2) by (apply Forall2_length in CQ; pose proof (proj1 FT) as Z2; unfold zlen in *; lia). clear CQ. rename LQ into CQ.
    destruct Q' as [|q0 [|q1 [|q2 q]]]; try discriminate CQ; [reflexivity|]. rewrite !zlen_cons in CQ. pose proof (zlen_nonneg q). lia. }
  split; [exact EP'|]. rewrite (HS [1; 1] [0; 1] EP' ltac:(discriminate)). reflexivity.
Qed.

Example C74_case : exists e e' h' l, default_ensemble (SC := unit) (M := list Z) caseV half_points tt [0] = (Ok e, [0]) /\
  ens_fit RN crng caseV psk in_order [2; 0; 1] pX [0; 1] e [0] = (Ok tt, e', h') /\ ens_predict RN psk e' pX = Ok l /\ zlen l = 2 /\ forall c, In c l -> c = 0 \/ c = 1.
Proof.
  assert (HPm : Permutation [2; 0; 1] [0; 1; 2]) by (apply (Permutation_cons_append [0; 1] 2)).
  destruct (C74_fit Z crng Z caseV unit unit (list Z) psk in_order half_points [2; 0; 1] pX [0; 1] tt [0] 2 1 6 pv crng_laws (or_introl eq_refl) half_points_law HPm pX_numeric)
    as (e & u & e' & h' & E1 & E2 & C); try lia; try discriminate; try reflexivity; try (cbn; lia).
  assert (u = Ok tt).
  { destruct C as [(A & _)|[(i & t1 & v1 & f & T & er & _ & _ & _ & _ & Q)|(i & m & er & _ & (f & _ & (t1 & v1 & T & _ & _ & Q1) & _) & Q)]]; [exact A| |].
    { destruct Q as [Q|(sc & _ & [Q|(Q' & _ & Q)])]; discriminate Q. }
    destruct Q1 as (Q1 & _ & _ & E). destruct (m_ridge m) as [[] c]. cbn in E. injection E as <-. discriminate Q. }
  subst u.
  destruct (C74_predict Z crng Z caseV unit unit (list Z) psk in_order half_points [2; 0; 1] pX [0; 1] tt [0] 2 1 6 pv e e' h' pX 2 6 pv 2 crng_laws (or_introl eq_refl) half_points_law HPm pX_numeric)
    as (models & ws & Ds & l & _ & _ & _ & _ & EP & EL & _ & HV); try lia; try discriminate; try reflexivity; try (cbn; lia); try assumption; [exact pX_numeric| |].
  { intros models ws m T _ _ HT. exists T. eexists. split; [reflexivity|]. split; [reflexivity|]. split; [rewrite zlen_map; exact HT|reflexivity]. }
  exists e, e', h', l. split; [exact E1|]. split; [exact E2|]. split; [exact EP|]. split; [exact EL|]. intros c Hc. apply In_nthZ in Hc as (s & Hs). apply HV in Hs. lia.
Qed.
