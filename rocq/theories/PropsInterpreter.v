(** Properties C55, C56 and C68: convst/interpreters/rdst_interpreter.py. *)
From Coq Require Import String ZArith List Bool Lia Reals Lra Permutation.
From Verif Require Import Prelude Num RealBase RealProofs Kernel Spec KernelProofs Parallel Apply ApplyProofs ApplyUni TransformProofs TransformLaws Cases
  Gen Checks Estimator EstimatorProofs EstimatorLaws EstimatorCases EstimatorNum Preproc PreprocProofs NumbaUtilsProofs Sorting Classifiers PropsPreproc PropsEstimator
  PropsClassifiers Interpreter InterpreterProofs.
Import ListNotations.
Open Scope Z_scope.

(** ** C55.  The interpreter draws the match that the transform measures *)

(** The argmin feature of shapelet k for the series X is [a], in whatever dataset X is transformed. *)
Definition argmin_feature (s : ushp R) (ph : bool) (k : Z) (X : list R) (a : Z) : Prop :=
  (forall D T i x, has_ft D -> U_SL_apply RN D s ph = Ok T -> nthZ D i = Some x -> nthZ x 0 = Some X ->
     exists row, nthZ T i = Some row /\ nthZ row (3 * k + 1) = Some (IZR a)) /\
  (forall D D_len T i, has_ft D -> zlen D_len = zlen D -> U_VL_apply RN D D_len s ph = Ok T -> real_points D D_len i X ->
     exists row, nthZ T i = Some row /\ nthZ row (3 * k + 1) = Some (IZR a)).

Lemma argmin_is_feature (ds : list R) thr k : (forall x, In x ds -> (0 <= x)%R) -> ds <> [] -> argmin RN ds = Ok k ->
  snd (fst (feats RN ds thr)) = IZR k /\ 0 <= k < zlen ds.
Proof.
  intros H0 Hne Hk. destruct (argmin_spec RN (fun _ => True) R_order_laws ds Hne) as (k' & E & (m & Hm & HF)).
  { apply Forall_forall. auto. }
  rewrite Hk in E. injection E as <-. split; [|eapply nthZ_range; eauto].
  assert (G : is_features RN ds thr (m, nofZ RN k, nofZ RN (zlen (filter (fun x => nleb RN x thr) ds)))).
  { right. exists k. split; [exact Hm|]. split; [reflexivity|]. split; [|split; [|reflexivity]].
    - intros i x Hx. destruct (HF i x Hx) as (A & _). apply Rleb_true. apply Rltb_false in A. exact A.
    - intros i x Hx Hi. apply HF with (j := i); assumption. }
  rewrite (is_features_unique ds thr _ _ (feats_R ds thr H0) G). reflexivity.
Qed.

(** A fitted univariate model, its shapelet k and a series X long enough for one window: plot_on_X marks the positions of the
    window at the argmin feature (wrapping around with phase invariance only); the dots have the heights of the shapelet, or,
    for a normalised shapelet, its values rescaled with the deviation and the mean of that window.  A series without any
    window is rejected. *)
Theorem C55_best_match : forall (t : @est R) s k v l d thr nm X,
  e_shapelets t = Some (FU s) -> univariate_type t -> wf_ushp s -> ushp_at s k v l d thr nm ->
  let ph := e_phase t in let n := zlen X in
  (0 < nwin ph n l d -> exists a p, plot_on_X RN t k X = Ok p /\ dw_curve p = X /\
     argmin_feature s ph k X a /\ 0 <= a < nwin ph n l d /\ zlen (dw_at p) = l /\ zlen (dw_dots p) = l /\
     forall i vi, nthZ v i = Some vi -> nthZ (dw_at p) i = Some (pos ph n (a + i * d)) /\
       0 <= pos ph n (a + i * d) < n /\
       nthZ (dw_dots p) i = Some (if nm then let w := window RN ph X l d a in vi * sdev RN w + avg RN w else vi)%R) /\
  (nwin ph n l d <= 0 -> plot_on_X RN t k X = Err ValueError).
Proof.
  intros t s k v l d thr nm X Es Ht HW Hk ph n.
  assert (Hb : 1 <= l /\ 1 <= d /\ zlen v = l).
  { destruct Hk as ((v0 & Hv0 & ->) & Hl & Hd & _). destruct HW as (_ & _ & _ & _ & W5 & W6). specialize (W5 k v0 l Hv0 Hl). specialize (W6 k d Hd).
    rewrite zlen_slice0; lia. }
  destruct Hb as (Hl & Hd & Hv).
  assert (EP : plot_on_X RN t k X = shp_plot_on_X RN (mkShp v l d nm thr ph) X).
  { unfold plot_on_X. rewrite (get_params_ok t s k v l d thr nm Es Ht Hk). reflexivity. }
  rewrite EP. split; intros Hw.
  - set (ds := distances RN ph nm X v l d).
    assert (Hz : zlen ds = nwin ph n l d) by (unfold ds; rewrite zlen_distances; fold n; lia).
    assert (Hne : ds <> []) by (intros E; rewrite E in Hz; change (zlen (@nil R)) with 0 in Hz; lia).
    assert (Hpos : forall x, In x ds -> (0 <= x)%R) by (intros x Hx; eapply distances_nonneg; eauto).
    destruct (argmin_spec RN (fun _ => True) R_order_laws ds Hne) as (a & EA & _); [apply Forall_forall; auto|].
    destruct (argmin_is_feature ds thr a Hpos Hne EA) as (Ef & Ra). rewrite Hz in Ra.
    assert (HF : fits ph n l d) by (unfold fits, nwin in *; destruct ph; lia).
    exists a. rewrite (shp_plot_ok RN (mkShp v l d nm thr ph) X a); cbn [sp_phase sp_length sp_dilation sp_values sp_norm]; try lia; try assumption.
    eexists. split; [reflexivity|]. cbn [dw_curve dw_at dw_dots]. split; [reflexivity|]. split; [|split; [exact Ra|split; [|split]]].
    + split.
      * intros D T i x HD HT Hx H0. destruct (U_SL_cell RN D s ph T i x X k v l d thr nm HD HW HT Hx H0 Hk) as (_ & (row & Hr & Hb)).
        fold ds in Hb. destruct (feats RN ds thr) as [[m aa] c]. cbn in Ef. subst aa. exists row. split; [exact Hr|]. apply Hb.
      * intros D DL T i HD HL HT Hr. destruct (U_VL_cell RN D DL s ph T i X k v l d thr nm HD HL HW HT Hr Hk) as (_ & (row & Hr' & Hb)).
        fold ds in Hb. destruct (feats RN ds thr) as [[m aa] c]. cbn in Ef. subst aa. exists row. split; [exact Hr'|]. apply Hb.
    + rewrite zlen_map, zlen_zrange. lia.
    + destruct nm; [rewrite zlen_map|]; exact Hv.
    + intros i vi Hi. pose proof (nthZ_range _ _ _ Hi) as Ri. rewrite Hv in Ri. rewrite nthZ_map, nthZ_zrange by lia. cbn [option_map]. rewrite Z.add_0_l.
      split; [reflexivity|]. split; [unfold pos, nwin in *; destruct ph; [apply Z.mod_pos_bound; lia|nia]|].
      destruct nm; [rewrite nthZ_map, Hi; reflexivity|exact Hi].
  - apply shp_plot_err; cbn [sp_phase sp_length sp_dilation sp_values]; fold n; lia.
Qed.
Print Assumptions C55_best_match.

(** If the shapelet occurs exactly (distance 0), the dots of a raw shapelet lie on the curve; those of a normalised shapelet
    are off by the share 1e-8/(sd+1e-8) of the point's distance from the window's mean. *)
Theorem C55_exact_match : forall (t : @est R) s k v l d thr nm X,
  e_shapelets t = Some (FU s) -> univariate_type t -> wf_ushp s -> ushp_at s k v l d thr nm ->
  let ph := e_phase t in In 0%R (distances RN ph nm X v l d) ->
  exists p, plot_on_X RN t k X = Ok p /\ exists mu sd, (0 <= sd)%R /\
    forall i j y, nthZ (dw_at p) i = Some j -> nthZ (dw_dots p) i = Some y -> exists x, nthZ X j = Some x /\
      (y = if nm then x - (x - mu) * (neps RN / (sd + neps RN)) else x)%R.
Proof.
  intros t s k v l d thr nm X Es Ht HW Hk ph H0.
  assert (Hw : 0 < nwin ph (zlen X) l d).
  { apply In_nthZ in H0 as (i & Ri & _). rewrite zlen_distances in Ri. lia. }
  assert (Hb : 1 <= l /\ 1 <= d /\ zlen v = l).
  { destruct Hk as ((v0 & Hv0 & ->) & Hl & Hd & _). destruct HW as (_ & _ & _ & _ & W5 & W6). specialize (W5 k v0 l Hv0 Hl). specialize (W6 k d Hd).
    rewrite zlen_slice0; lia. }
  destruct Hb as (Hl & Hd & Hv). set (ds := distances RN ph nm X v l d) in *.
  assert (HF : fits ph (zlen X) l d) by (unfold fits, nwin in *; destruct ph; lia).
  assert (Hne : ds <> []) by (intros E; rewrite E in H0; destruct H0).
  destruct (argmin_spec RN (fun _ => True) R_order_laws ds Hne) as (a & EA & (m & Hm & HMin)); [apply Forall_forall; auto|].
  assert (Ra : 0 <= a < nwin ph (zlen X) l d) by (apply nthZ_range in Hm; unfold ds in Hm; rewrite zlen_distances in Hm; lia).
  unfold plot_on_X. rewrite (get_params_ok t s k v l d thr nm Es Ht Hk). cbn [bind]. fold ph.
  rewrite (shp_plot_ok RN (mkShp v l d nm thr ph) X a); cbn [sp_phase sp_length sp_dilation sp_values sp_norm]; try lia; try assumption.
  eexists. split; [reflexivity|]. cbn [dw_at dw_dots]. set (w := window RN ph X l d a) in *.
  (* the minimum is 0, so the window at a, as seen, is the shapelet *)
  assert (Hmin : l1 RN (seen RN nm w) v = 0%R).
  { assert (Hda : nthZ ds a = Some (l1 RN (seen RN nm w) v)).
    { unfold ds, distances. rewrite nthZ_map, nthZ_zrange by lia. cbn [option_map]. rewrite Z.add_0_l. reflexivity. }
    apply In_nthZ in H0 as (i0 & _ & Hi0). rewrite Hda in Hm. injection Hm as <-.
    destruct (HMin i0 0%R Hi0) as (A & _). apply Rltb_false in A. pose proof (l1_nonneg (seen RN nm w) v) as B. lra. }
  assert (Hseen : seen RN nm w = v).
  { assert (Lw : zlen w = l) by (unfold w; apply zlen_window; lia).
    assert (Ls : zlen (seen RN nm w) = l) by (unfold seen, zscore; destruct nm; [rewrite zlen_map|]; exact Lw).
    rewrite l1_l1s in Hmin by lia. apply l1s_zero in Hmin; [exact Hmin|]. unfold zlen in *. lia. }
  exists (avg RN w), (sdev RN w). split; [apply sqrt_pos|].
  intros i j y Hj Hy. rewrite nthZ_map in Hj. destruct (nthZ (zrange 0 l) i) as [i'|] eqn:Ei; [|discriminate].
  pose proof (nthZ_range _ _ _ Ei) as Ri. rewrite zlen_zrange in Ri. rewrite nthZ_zrange in Ei by lia. injection Ei as <-. cbn [option_map] in Hj.
  injection Hj as <-.
  assert (C2 : 0 <= pos ph (zlen X) (a + i * d) < zlen X) by (unfold pos, nwin in *; destruct ph; [apply Z.mod_pos_bound; lia|nia]).
  destruct (nthZ_some X _ C2) as (x & Hx). exists x. split; [exact Hx|].
  assert (Hwi : nthZ w i = Some x).
  { unfold w, window. rewrite nthZ_map, nthZ_zrange by lia. cbn [option_map]. rewrite Z.add_0_l. unfold pt. rewrite (nthd_some _ _ _ _ Hx). reflexivity. }
  rewrite <- Hseen in Hy. destruct nm; cbn [seen] in Hy.
  - unfold zscore in Hy. rewrite !nthZ_map, Hwi in Hy. cbn [option_map] in Hy. injection Hy as <-.
    change (ndiv RN (nsub RN x (avg RN w)) (nadd RN (sdev RN w) (neps RN))) with ((x - avg RN w) / (sdev RN w + neps RN))%R.
    assert (Hs : (0 <= sdev RN w)%R) by apply sqrt_pos. assert (He : (0 < neps RN)%R) by (cbn; lra).
    change ((x - avg RN w) / (sdev RN w + neps RN) * sdev RN w + avg RN w = x - (x - avg RN w) * (neps RN / (sdev RN w + neps RN)))%R. field. lra.
  - congruence.
Qed.
Print Assumptions C55_exact_match.

(** plot_distance_vector draws one distance per window and a line at the threshold; the minimum feature is the lowest point
    of the curve, the occurrence feature the number of points on or under the line. *)
Theorem C55_distance_vector : forall (t : @est R) s k v l d thr nm X D T i x,
  e_shapelets t = Some (FU s) -> univariate_type t -> wf_ushp s -> ushp_at s k v l d thr nm ->
  has_ft D -> U_SL_apply RN D s (e_phase t) = Ok T -> nthZ D i = Some x -> nthZ x 0 = Some X ->
  exists c row, plot_distance_vector RN t k X = Ok (c, thr) /\ zlen c = nwin (e_phase t) (zlen X) l d /\ nthZ T i = Some row /\
    (forall q y, nthZ c q = Some y -> y = l1 RN (seen RN nm (window RN (e_phase t) X l d q)) v) /\
    (c <> [] -> exists m cnt, nthZ row (3 * k) = Some m /\ nthZ row (3 * k + 2) = Some cnt /\
       In m c /\ (forall y, In y c -> (m <= y)%R) /\ cnt = IZR (zlen (filter (fun y => if Rle_dec y thr then true else false) c))).
Proof.
  intros t s k v l d thr nm X D T i x Es Ht HW Hk HD HT Hx H0.
  destruct (U_SL_cell RN D s (e_phase t) T i x X k v l d thr nm HD HW HT Hx H0 Hk) as (HF & (row & Hr & Hb)).
  assert (Hb' : 1 <= l /\ zlen v = l).
  { destruct Hk as ((v0 & Hv0 & ->) & Hl & Hd & _). destruct HW as (_ & _ & _ & _ & W5 & W6). specialize (W5 k v0 l Hv0 Hl). rewrite zlen_slice0; lia. }
  exists (distances RN (e_phase t) nm X v l d), row.
  unfold plot_distance_vector. rewrite (get_params_ok t s k v l d thr nm Es Ht Hk). cbn [bind]. unfold shp_plot_distance_vector.
  cbn [sp_phase sp_length sp_dilation sp_values sp_norm sp_threshold]. rewrite dist_vector_distances by (try assumption; lia).
  split; [reflexivity|]. split.
  { rewrite zlen_distances. pose proof (zlen_nonneg X). unfold fits, nwin in *. destruct (e_phase t); lia. }
  split; [exact Hr|]. split.
  { intros q y Hq. unfold distances in Hq. rewrite nthZ_map in Hq. destruct (nthZ (zrange _ _) q) as [q'|] eqn:E; [|discriminate].
    pose proof (nthZ_range _ _ _ E) as Rq. rewrite zlen_zrange in Rq. rewrite nthZ_zrange in E by lia. injection E as <-. cbn [option_map] in Hq. congruence. }
  intros Hne. set (ds := distances RN (e_phase t) nm X v l d) in *.
  assert (G : is_features RN ds thr (feats RN ds thr)) by (apply feats_R; intros y Hy; eapply distances_nonneg; eauto).
  destruct (feats RN ds thr) as [[m a] cnt]. destruct Hb as (B1 & B2 & B3). destruct G as [(E & _)|(q & G1 & _ & G2 & _ & G4)]; [contradiction|].
  exists m, cnt. split; [exact B1|]. split; [exact B3|]. split; [eapply nthZ_In; eauto|]. split.
  - intros y Hy. apply In_nthZ in Hy as (j & _ & Hj). apply Rleb_true. eapply G2; eauto.
  - exact G4.
Qed.
Print Assumptions C55_distance_vector.

(** plot shows the values of the shapelet, and in the title its dilation, normalisation and threshold.  As anywhere in numpy, a
    number below 0 counts from the last shapelet; the three plotting calls refuse other numbers. *)
Theorem C55_plot : forall F (N : NumOps F) (t : @est F) s, e_shapelets t = Some (FU s) -> univariate_type t -> wf_ushp s ->
  (forall k v l d thr nm, ushp_at s k v l d thr nm -> plot t k = Ok (v, (d, nm, thr))) /\
  (forall k X, 0 <= k < zlen (us_len s) -> plot t (k - zlen (us_len s)) = plot t k /\ plot_on_X N t (k - zlen (us_len s)) X = plot_on_X N t k X /\
     plot_distance_vector N t (k - zlen (us_len s)) X = plot_distance_vector N t k X) /\
  (forall k X, k < - zlen (us_len s) \/ zlen (us_len s) <= k ->
     plot t k = Err IndexError /\ plot_on_X N t k X = Err IndexError /\ plot_distance_vector N t k X = Err IndexError).
Proof.
  intros F N t s Es Ht HW. split; [|split].
  - intros k v l d thr nm Hk. unfold plot. rewrite (get_params_ok t s k v l d thr nm Es Ht Hk). reflexivity.
  - intros k X Hk. assert (E : get_params t (k - zlen (us_len s)) = get_params t k); [|unfold plot, plot_on_X, plot_distance_vector; rewrite E; auto].
    destruct HW as (W1 & W2 & W3 & W4 & _). assert (P : forall A (q : list A), zlen q = zlen (us_len s) -> pyget q (k - zlen (us_len s)) = pyget q k).
    { intros A q Hq. unfold pyget, get, wrap. rewrite Hq. destruct (Z.ltb_spec (k - zlen (us_len s)) 0); [|lia]. destruct (Z.ltb_spec k 0); [lia|]. replace (k - zlen (us_len s) + zlen (us_len s)) with k by lia. reflexivity. }
    unfold get_params. rewrite Es, !P by lia. reflexivity.
  - intros k X Hk. assert (E : get_params t k = Err IndexError); [|unfold plot, plot_on_X, plot_distance_vector; rewrite E; auto].
    assert (P : pyget (us_len s) k = Err IndexError).
    { unfold pyget, get, wrap. pose proof (zlen_nonneg (us_len s)). destruct (nthZ (us_len s) _) as [x|] eqn:Q; [|reflexivity]. apply nthZ_range in Q. destruct (k <? 0) eqn:B; lia. }
    unfold get_params. rewrite Es, P. unfold univariate_type in Ht. destruct (e_type t) as [|[]|]; try reflexivity; tauto.
Qed.
Print Assumptions C55_plot.

(** After a successful fit of a multivariate model, the interpreter is constructed but every plotting call fails. *)
Theorem C55_multivariate : forall F (N : NumOps F) S (rng : Rng F S) RS (V : pyenv RS) SC P M ex X y s h s' h',
  fit N rng V ex X y s h = (Ok tt, s', h') -> (exists k, e_kind s' = Some k /\ is_multivariate k = true) ->
  @rdst_interp F SC P M (ORdst s') = Ok s' /\
  forall id x, plot s' id = Err ValueError /\ plot_on_X N s' id x = Err ValueError /\ plot_distance_vector N s' id x = Err ValueError.
Proof.
  intros F N S rng RS V SC P M ex X y s h s' h' H (k & Ek & Hm).
  destruct (C35_selected_pair _ _ _ _ _ _ _ _ _ _ _ _ _ H) as (k' & f & _ & Ek' & Ef & _ & Hf & _).
  assert (k' = k) by congruence. subst k'. destruct (proj1 Hf Hm) as (T & ->).
  split; [unfold rdst_interp; rewrite Ef; reflexivity|]. intros id x.
  unfold plot, plot_on_X, plot_distance_vector, get_params. rewrite Ef. repeat split.
Qed.
Print Assumptions C55_multivariate.

(** A model with three shapelets (two raw, one normalised) on a series of six points; with integers the drawing can be
    computed: raw shapelet 0 is matched exactly at position 1. *)
Definition caseEst {F} (z : Z -> F) (ph : bool) : @est F :=
  mkEst (TKind KU) ph (VInt 0) false VNone 3 (VList [VInt 3]) None (VInt 0) false (VInt 0) (VList [VInt 0; VInt 100])
    0 (VInt 1) None None (Some KU) (Some (FU (Cases.caseS z))).

Example C55_case : (exists v l d thr nm, ushp_at (Cases.caseS IZR) 1 v l d thr nm /\ nm = true /\ 0 < nwin false 6 l d) /\ wf_ushp (Cases.caseS IZR) /\
  univariate_type (caseEst IZR false) /\
  In 0%R (distances RN false false (map IZR [0; 1; 3; 1; 0; 2]) (map IZR [1; 3]) 2 1) /\
  plot_on_X ZN (caseEst (fun z => z) false) 0 [0; 1; 3; 1; 0; 2] = Ok (mkDrawing [0; 1; 3; 1; 0; 2] [1; 2] [1; 3]) /\
  plot_on_X ZN (caseEst (fun z => z) true) 2 [3; 0; 3; 1; 0; 2] = Ok (mkDrawing [3; 0; 3; 1; 0; 2] [3; 5; 1] [0; 3; 0]) /\
  plot_distance_vector ZN (caseEst (fun z => z) false) 0 [0; 1; 3; 1; 0; 2] = Ok ([3; 0; 4; 3; 2], 1) /\
  plot (caseEst (fun z => z) false) (-2) = Ok ([-1; 1], (2, true, 2)).
Proof.
  split; [|split; [apply Cases.caseS_wf|split; [exact I|split; [|repeat split; vm_compute; reflexivity]]]].
  - exists (map IZR [-1; 1]), 2, 2, (IZR 2), true. split; [|split; [reflexivity|reflexivity]].
    split; [exists (map IZR [-1; 1; 0]); split; reflexivity|]. repeat split.
  - right. left. exact (l1_self (map IZR [1; 3])).
Qed.

Definition multi_args : @rargs Z :=
  mkArgs (VStr "auto") (VBool false) (VInt 0) (VBool false) VNone (VInt 1) (VList [VInt 2]) VNone (VInt 0) (VBool false) (VInt 0)
    (VList [VInt 0; VInt 100]) (VInt 3) None None (VInt 6).
Definition zX3 : pyv Z := VArr [2; 2; 4] DInt64 (intcells [1; 2; 3; 9;  2; 1; 0; 5;   4; 4; 1; 2;  0; 0; 3; 3]).
Example C55_multivariate_case : exists s s' h1 h', init ZN zenv multi_args [0] = (Ok s, h1) /\
  fit ZN zrng zenv in_order zX3 [0; 1] s h1 = (Ok tt, s', h') /\ e_kind s' = Some KM.
Proof. do 4 eexists. split; [vm_compute; reflexivity|]. split; vm_compute; reflexivity. Qed.

(** ** C56.  The best shapelets of a class *)

Lemma ridge_fit_ok {F} (N : NumOps F) S (rng : Rng F S) RS (V : pyenv RS) SC P M (K : sklearn F SC P M) ex X y r h r' h' :
  ridge_fit N rng V K ex X y r h = (Ok tt, r', h') ->
  exists t f T sc m Zs, rd_transformer r' = Some t /\ rd_classifier r' = Some (Some (sc, m)) /\ e_shapelets t = Some f /\ transform N t X = Ok T /\
    c_fit N (k_scale_fit K) (ncols T) T = Ok sc /\ c_transform (k_scale K) sc T = Ok Zs /\ k_ridge_fit K (rd_hyper r) Zs y = Ok m.
Proof.
  unfold ridge_fit. destruct (init N V (ridge_rdst_args (rd_args r)) h) as [[t0|e] h1]; [|discriminate].
  destruct (fit N rng V ex X y t0 h1) as [[u t1] h2]. destruct (bind u _) as [[sc m]|e] eqn:E; [|discriminate].
  intros H. injection H as <- <-. apply bind_inv in E as (u' & _ & E). apply bind_inv in E as (T & HT & E). unfold pipe_fit in E.
  apply bind_inv in E as (sc' & E1 & E). apply bind_inv in E as (Zs & E2 & E). apply bind_inv in E as (m' & E3 & E). injection E as <- <-.
  assert (Ef : exists f, e_shapelets t1 = Some f) by (unfold transform in HT; destruct (e_shapelets t1); [eauto|discriminate]).
  destruct Ef as (f & Ef). exists t1, f, T, sc', m', Zs. repeat split; assumption.
Qed.

(** [v] is column [j] of the table T *)
Definition column {F} (T : list (list F)) (j : Z) (v : list F) : Prop :=
  zlen v = zlen T /\ forall i row, nthZ T i = Some row -> exists x, nthZ row j = Some x /\ nthZ v i = Some x.
Lemma column_pt {F} (N : NumOps F) (T : list (list F)) j : (forall u, In u T -> 0 <= j < zlen u) -> column T j (map (fun r => pt N r j) T).
Proof.
  intros H. split; [apply zlen_map|]. intros i row Hr. destruct (nthZ_some row j) as (x & Hx); [apply H; eapply nthZ_In; eauto|].
  exists x. split; [exact Hx|]. rewrite nthZ_map, Hr. cbn [option_map]. unfold pt. rewrite (nthd_some _ _ _ _ Hx). reflexivity.
Qed.
Lemma column_unique {F} (T : list (list F)) j u v : column T j u -> column T j v -> u = v.
Proof.
  intros (Lu & Hu) (Lv & Hv). apply nthZ_ext; [congruence|]. intros i Ri. rewrite Lu in Ri. destruct (nthZ_some T i Ri) as (row & Hr).
  destruct (Hu i row Hr) as (x & X1 & X2). destruct (Hv i row Hr) as (z & Z1 & Z2). congruence.
Qed.

(** The coefficients of class number [c] in the attribute coef_: row c, or, when there are two classes and hence one row, that
    row for class 1 and its opposite (0 - w) for class 0. *)
Definition class_coefs {F} (N : NumOps F) (coefs : list (list F)) (c : Z) (row : list F) : Prop :=
  (zlen coefs <> 1 /\ nthZ coefs c = Some row) \/ (exists w, coefs = [w] /\ ((c = 1 /\ row = w) \/ (c = 0 /\ row = map (fun x => nsub N (n0 N) x) w))).
Definition n_classes {F} (coefs : list (list F)) : Z := if zlen coefs =? 1 then 2 else zlen coefs.

(** sklearn's contract: the scaler keeps the shape of a table, and the ridge model has one coefficient per column. *)
Definition sklearn_shapes {F SC P M} (K : sklearn F SC P M) (k_coef : M -> list (list F)) : Prop :=
  (forall sc X Zs p, k_scale K sc X = Ok Zs -> (forall r, In r X -> zlen r = p) -> zlen Zs = zlen X /\ forall r, In r Zs -> zlen r = p) /\
  (forall p Zs y m, k_ridge_fit K p Zs y = Ok m -> Zs <> [] /\ forall w, In w (k_coef m) -> zlen w = ncols Zs).

(** After a successful fit the importance vector of a class has three cells per shapelet.  The columns of the training
    features that were kept are those whose computed deviation is not 0; the cell of a kept column holds the coefficient of
    the class for exactly that column of the table the ridge model was trained on, and the cell of a dropped column is 0. *)
Theorem C56_attribution : forall F (N : NumOps F) S (rng : Rng F S) RS (V : pyenv RS) SC P M (K : sklearn F SC P M) (k_coef : M -> list (list F)) ex X y r h r' h',
  ridge_fit N rng V K ex X y r h = (Ok tt, r', h') -> sklearn_shapes K k_coef ->
  exists t f T m atts sc Xs Zs,
    incr atts /\
    rd_transformer r' = Some t /\ e_shapelets t = Some f /\ transform N t X = Ok T /\
    (forall j, In j atts <-> 0 <= j < 3 * n_fitted f /\ exists col, column T j col /\ neqb N (sdev N col) (n0 N) = false) /\
    k_scale_fit K Xs = Ok sc /\ k_scale K sc Xs = Ok Zs /\ k_ridge_fit K (rd_hyper r) Zs y = Ok m /\
    (forall i u, nthZ T i = Some u -> exists u', nthZ Xs i = Some u' /\ forall q j, nthZ atts q = Some j -> nthZ u' q = nthZ u j) /\
    forall c, 
      (forall row, class_coefs N (k_coef m) c row -> exists imp, importance N k_coef r' c = Ok imp /\ zlen imp = 3 * n_fitted f /\
         (forall q j, nthZ atts q = Some j -> nthZ row q <> None /\ nthZ imp j = nthZ row q) /\
         (forall j, 0 <= j < 3 * n_fitted f -> ~ In j atts -> nthZ imp j = Some (n0 N))) /\
      (n_classes (k_coef m) <= c -> importance N k_coef r' c = Err IndexError).
Proof.
  intros F N S rng RS V SC P M K k_coef ex X y r h r' h' H (SK1 & SK2).
  destruct (ridge_fit_ok N S rng RS V SC P M K ex X y r h r' h' H) as (t & f & T & sc & m & Zs & E1 & E2 & E3 & E4 & E5 & E6 & E7).
  pose proof (transform_width N t X T f E4 E3) as HW.
  assert (Hn : 0 <= n_fitted f) by (destruct f; apply zlen_nonneg).
  destruct (SK2 _ _ _ _ E7) as (HZs & HC).
  unfold c_fit in E5. apply bind_inv in E5 as (atts & Ea & E5). apply bind_inv in E5 as (Xs & Et & E5). apply bind_inv in E5 as (s0 & Es & E5).
  injection E5 as <-. unfold c_transform in E6. cbn [sc_atts sc_inner] in E6. rewrite Et in E6. cbn [bind] in E6.
  assert (LXs : zlen Xs = zlen T).
  { unfold take_cols in Et. apply mapM_Forall2 in Et. unfold zlen. f_equal. symmetry. clear -Et. induction Et; cbn; congruence. }
  assert (HTX : T <> []).
  { intros ->. cbn in Et. injection Et as <-. destruct (SK1 _ _ _ 0 E6) as (L0 & _); [intros u []|]. apply HZs.
    destruct Zs; [reflexivity|]. rewrite zlen_cons in L0. pose proof (zlen_nonneg Zs). change (zlen (@nil (list F))) with 0 in L0. lia. }
  assert (Hnc : ncols T = 3 * n_fitted f) by (destruct T as [|u T']; [contradiction|]; cbn [ncols]; apply HW; left; reflexivity).
  rewrite Hnc in Ea. assert (HM : matrix (3 * n_fitted f) T) by (split; [lia|exact HW]).
  destruct (C47_kept_columns_any F N (3 * n_fitted f) T HM) as (atts' & Ea' & HI & HA0). rewrite Ea in Ea'. injection Ea' as <-.
  assert (HA : forall j, In j atts <-> 0 <= j < 3 * n_fitted f /\ exists col, column T j col /\ neqb N (sdev N col) (n0 N) = false).
  { intros j. rewrite HA0. split; intros (Rj & H0); (split; [exact Rj|]).
    - exists (map (fun r => pt N r j) T). split; [|exact H0]. apply column_pt; auto. intros u Hu. rewrite (HW u Hu). exact Rj.
    - destruct H0 as (col & Hcol & H0). rewrite (column_unique T j col (map (fun r => pt N r j) T) Hcol) in H0; [exact H0|].
      apply column_pt. intros u Hu. rewrite (HW u Hu). exact Rj. }
  exists t, f, T, m, atts, s0, Xs, Zs. split; [exact HI|]. repeat (split; [assumption|]).
  assert (Hcols : forall i u, nthZ T i = Some u -> exists u', nthZ Xs i = Some u' /\ zlen u' = zlen atts /\ forall q j, nthZ atts q = Some j -> nthZ u' q = nthZ u j).
  { intros i u Hu. rewrite (take_cols_ok (n0 N)) in Et.
    2:{ intros u0 j Hu0 Hj. rewrite (HW u0 Hu0). apply HA in Hj. tauto. }
    injection Et as <-. exists (map (nthd (n0 N) u) atts). rewrite nthZ_map, Hu. split; [reflexivity|]. split; [apply zlen_map|].
    intros q j Hq. rewrite nthZ_map, Hq. cbn [option_map]. destruct (nthZ_some u j) as (x & Hx).
    { rewrite (HW u); [apply HA; eapply nthZ_In; eauto|eapply nthZ_In; eauto]. }
    rewrite (nthd_some _ _ _ _ Hx). congruence. }
  split; [intros i u Hu; destruct (Hcols i u Hu) as (u' & A & _ & B); eauto|].
  assert (HXw : forall u, In u Xs -> zlen u = zlen atts).
  { intros u Hu. apply In_nthZ in Hu as (i & Ri & Hi). rewrite LXs in Ri. destruct (nthZ_some T i Ri) as (u0 & Hu0). destruct (Hcols i u0 Hu0) as (u' & A & B & _). congruence. }
  assert (Hcw : forall w, In w (k_coef m) -> zlen w = zlen atts).
  { intros w Hw. rewrite (HC w Hw). destruct (SK1 _ _ _ (zlen atts) E6 HXw) as (_ & Q). destruct Zs as [|z Zs']; [contradiction|]. cbn [ncols]. apply Q. left. reflexivity. }
  assert (EI : forall c, importance N k_coef r' c = 
     let* row := pyget (if zlen (k_coef m) =? 1 then map (map (fun x => nsub N (n0 N) x)) (k_coef m) ++ k_coef m else k_coef m) c in
     scatter (repeat (n0 N) (Z.to_nat (n_fitted f * 3))) atts row).
  { intros c. unfold importance. rewrite E2, E1, E3. reflexivity. }
  intros c. rewrite EI. split.
  - intros row Hrow.
    assert (G : pyget (if zlen (k_coef m) =? 1 then map (map (fun x => nsub N (n0 N) x)) (k_coef m) ++ k_coef m else k_coef m) c = Ok row /\ zlen row = zlen atts).
    { destruct Hrow as [(Hne & Hc)|(w & Ew & Hc)].
      - apply Z.eqb_neq in Hne. rewrite Hne. split; [apply pyget_nthZ; [eapply nthZ_range; eauto|exact Hc]|]. apply Hcw. eapply nthZ_In; eauto.
      - assert (Lw : zlen w = zlen atts) by (apply Hcw; rewrite Ew; left; reflexivity). rewrite Ew. change (zlen [w] =? 1) with true. cbv iota.
        destruct Hc as [(-> & ->)|(-> & ->)].
        + split; [reflexivity|exact Lw].
        + split; [reflexivity|rewrite zlen_map; exact Lw]. }
    destruct G as (G & Lr). rewrite G. cbn [bind].
    destruct (scatter_ok (repeat (n0 N) (Z.to_nat (n_fitted f * 3))) atts row) as (imp & EJ & Lz & J1 & J2); [apply incr_NoDup; exact HI| |exact Lr|].
    { intros j Hj. apply HA in Hj as (Hj & _). rewrite zlen_repeat. lia. }
    exists imp. split; [exact EJ|]. split; [rewrite Lz, zlen_repeat; lia|]. split.
    + intros q j Hq. split; [|apply J1; exact Hq]. destruct (nthZ_some row q) as (x & Hx); [rewrite Lr; eapply nthZ_range; eauto|]. congruence.
    + intros j Hj Hnot. rewrite J2 by exact Hnot. apply nthZ_repeat. lia.
  - intros Hc. unfold n_classes in Hc.
    assert (G : forall l : list (list F), zlen l <= c -> 0 <= c -> pyget l c = Err IndexError).
    { intros l Hl H0. destruct (pyget l c) as [z|e] eqn:E; [apply pyget_range in E; lia|]. f_equal. eapply pyget_err; eauto. }
    destruct (Z.eqb_spec (zlen (k_coef m)) 1) as [E|E].
    + rewrite G; [reflexivity| |lia]. rewrite zlen_app, zlen_map, E. lia.
    + rewrite G; [reflexivity|lia|pose proof (zlen_nonneg (k_coef m)); lia].
Qed.
Print Assumptions C56_attribution.

(** In exact arithmetic the kept columns are those on which two training samples differ. *)
Corollary C56_coefficients : forall S (rng : Rng R S) RS (V : pyenv RS) SC P M (K : sklearn R SC P M) (k_coef : M -> list (list R)) ex X y r h r' h',
  ridge_fit RN rng V K ex X y r h = (Ok tt, r', h') -> sklearn_shapes K k_coef ->
  exists t f T m atts,
    rd_transformer r' = Some t /\ e_shapelets t = Some f /\ transform RN t X = Ok T /\ incr atts /\
    (forall j, In j atts <-> 0 <= j < 3 * n_fitted f /\ exists u v, In u T /\ In v T /\ nthZ u j <> nthZ v j) /\
    forall c row, class_coefs RN (k_coef m) c row -> exists imp, importance RN k_coef r' c = Ok imp /\ zlen imp = 3 * n_fitted f /\
         (forall q j, nthZ atts q = Some j -> nthZ row q <> None /\ nthZ imp j = nthZ row q) /\
         (forall j, 0 <= j < 3 * n_fitted f -> (forall u v, In u T -> In v T -> nthZ u j = nthZ v j) -> nthZ imp j = Some 0%R).
Proof.
  intros S rng RS V SC P M K k_coef ex X y r h r' h' H HK.
  destruct (C56_attribution R RN S rng RS V SC P M K k_coef ex X y r h r' h' H HK) as (t & f & T & m & atts & sc & Xs & Zs & HI & E1 & E2 & E3 & HA & _ & _ & _ & _ & HC).
  pose proof (transform_width RN t X T f E3 E2) as HW. assert (Hn : 0 <= n_fitted f) by (destruct f; apply zlen_nonneg).
  assert (HA' : forall j, In j atts <-> 0 <= j < 3 * n_fitted f /\ exists u v, In u T /\ In v T /\ nthZ u j <> nthZ v j).
  { assert (HM : matrix (3 * n_fitted f) T) by (split; [lia|exact HW]). destruct (C47_kept_columns _ T HM) as (a1 & A1 & _ & A2).
    destruct (C47_kept_columns_any R RN _ T HM) as (a2 & B1 & _ & B2). rewrite A1 in B1. injection B1 as <-. intros j. rewrite <- A2, B2, HA.
    split; intros (Rj & Hj); (split; [exact Rj|]).
    - destruct Hj as (col & Hcol & Hj). rewrite (column_unique T j col _ Hcol (column_pt RN T j ltac:(intros u Hu; rewrite (HW u Hu); exact Rj))) in Hj. exact Hj.
    - exists (map (fun r => pt RN r j) T). split; [|exact Hj]. apply column_pt. intros u Hu. rewrite (HW u Hu). exact Rj. }
  exists t, f, T, m, atts. repeat (split; [assumption|]). intros c row Hrow. destruct (proj1 (HC c) row Hrow) as (imp & I1 & I2 & I3 & I4).
  exists imp. repeat (split; [assumption|]). intros j Rj Hj. apply I4; [exact Rj|]. intros K0. apply HA' in K0 as (_ & u & v & Hu & Hv & Hne). apply Hne. auto.
Qed.
Print Assumptions C56_coefficients.

Lemma scatter_zlen {F} (c : list F) atts row c' : scatter c atts row = Ok c' -> zlen c' = zlen c.
Proof.
  unfold scatter. intros H. apply bind_inv in H as (row' & _ & H).
  refine (foldM_inv _ (fun _ (x : list F) => zlen x = zlen c) (combine atts row') c eq_refl _ c' H).
  intros pre [j v] post s s' _ IH E. unfold pyset in E. destruct (set s (fst (j, v)) (snd (j, v))) as [l|e] eqn:Es; [|discriminate].
  injection E as <-. apply set_inv in Es as (? & _ & _ & ->). rewrite zlen_upd. exact IH.
Qed.

Lemma importance_ok {F} (N : NumOps F) SC P M (k_coef : M -> list (list F)) (r : @ridge F SC P M) c imp :
  importance N k_coef r c = Ok imp ->
  exists t f sc m, rd_transformer r = Some t /\ e_shapelets t = Some f /\ rd_classifier r = Some (Some (sc, m)) /\ zlen imp = 3 * n_fitted f /\
    - n_classes (k_coef m) <= c < n_classes (k_coef m).
Proof.
  unfold importance. destruct (rd_classifier r) as [[[sc m]|]|]; try discriminate. destruct (rd_transformer r) as [t|]; [|discriminate].
  destruct (e_shapelets t) as [f|] eqn:Ef; [|discriminate]. intros H. apply bind_inv in H as (row & H1 & H2). exists t, f, sc, m.
  assert (Hn : 0 <= n_fitted f) by (destruct f; apply zlen_nonneg).
  apply scatter_zlen in H2. rewrite zlen_repeat in H2. apply pyget_range in H1. repeat (split; [first [reflexivity|assumption|lia]|]).
  unfold n_classes. destruct (Z.eqb_spec (zlen (k_coef m)) 1) as [E|E]; [|exact H1]. rewrite zlen_app, zlen_map, E in H1. lia.
Qed.

(** For every argsort that sorts: min(n_shp, number of shapelets) different shapelets are selected, and for each rank k, every
    feature of every shapelet that is not among the first k+1 is at most some feature of the shapelet of rank k. *)
Theorem C56_selection : forall F (N : NumOps F) SC P M (k_coef : M -> list (list F)) argsort (r : @ridge F SC P M) class_id n_shp imp,
  importance N k_coef r class_id = Ok imp -> sorts_by N imp (argsort imp) ->
  exists t f ids, rd_transformer r = Some t /\ e_shapelets t = Some f /\ best_shapelets N k_coef argsort r class_id n_shp = Ok ids /\
    NoDup ids /\ zlen ids = Z.max 0 (Z.min n_shp (n_fitted f)) /\ (forall s, In s ids -> 0 <= s < n_fitted f) /\
    forall k s u g y, nthZ ids k = Some s -> 0 <= u < n_fitted f -> (forall j, j <= k -> nthZ ids j <> Some u) ->
      0 <= g < 3 -> nthZ imp (3 * u + g) = Some y ->
      exists h x, 0 <= h < 3 /\ nthZ imp (3 * s + h) = Some x /\ nltb N x y = false.
Proof.
  intros F N SC P M k_coef argsort r class_id n_shp imp H HS. destruct (importance_ok N SC P M k_coef r class_id imp H) as (t & f & sc & m & E1 & E2 & _ & Hz & _).
  exists t, f, (pick_best n_shp (rev (map (fun j => j / 3) (argsort imp))) []). split; [exact E1|]. split; [exact E2|].
  split; [unfold best_shapelets; rewrite H; reflexivity|].
  assert (Hn : 0 <= n_fitted f) by (destruct f; apply zlen_nonneg).
  destruct (selection N imp (argsort imp) n_shp (n_fitted f) Hn Hz HS) as (A & B & C & _). repeat (split; [assumption|]).
  exact (selection_order N imp (argsort imp) n_shp (n_fitted f) Hn Hz HS).
Qed.
Print Assumptions C56_selection.

(** [x] is the first channel of sample [i] of X *)
Definition channel0 {F} (N : NumOps F) (X : pyv F) (i : Z) (x : list F) : Prop :=
  exists D s, to_dataset N X = Ok D /\ nthZ D i = Some s /\ nthZ s 0 = Some x.

Lemma column_ok {F} (T : list (list F)) j v : 0 <= j -> mapM (fun row => pyget row j) T = Ok v -> column T j v.
Proof.
  intros Hj H. apply mapM_Forall2 in H. split.
  - unfold zlen. f_equal. clear -H. induction H; cbn; congruence.
  - induction H as [|row x T v E H IH]; intros i r Hr; [apply nthZ_range in Hr; change (zlen (@nil (list F))) with 0 in Hr; lia|].
    rewrite nthZ_cons in Hr. rewrite nthZ_cons. destruct (i =? 0); [injection Hr as <-; exists x; split; [apply pyget_nthZ; assumption|reflexivity]|apply IH; exact Hr].
Qed.

Lemma series_of_ok {F} (N : NumOps F) X i x : 0 <= i -> series_of N X i = Ok x -> channel0 N X i x.
Proof.
  intros Hi H. destruct X as [| | | | | | |sh dt c| | |]; try discriminate. destruct sh as [|? [|? [|? []]]]; try discriminate. cbn [series_of] in H.
  apply bind_inv in H as (D & HD & H). apply bind_inv in H as (s & Hs & H). exists D, s. split; [exact HD|].
  apply pyget_nthZ in Hs; [|exact Hi]. apply pyget_nthZ in H; [|lia]. auto.
Qed.

Lemma Forall2_weaken {A B} (P Q : A -> B -> Prop) l l' : (forall a b, P a b -> Q a b) -> Forall2 P l l' -> Forall2 Q l l'.
Proof. intros H HF. induction HF; constructor; auto. Qed.

(** visualize_best_shapelets_one_class, when it returns: one figure per selected shapelet, in the order of their ranks.  The box
    plots of shapelet s show columns 3s, 3s+1 and 3s+2 of the transform of X, split into the samples labelled class_id and the
    others.  The two series drawn are the first channels of a sample labelled class_id and of a sample with another label,
    chosen once for all figures.  The call only returns if class_id is one of the labels, is not the only one, and is the
    number of a class of the model. *)
Theorem C56_panels : forall F (N : NumOps F) SC P M (k_coef : M -> list (list F)) argsort choice1 choice2 (r : @ridge F SC P M) t X y class_id n_shp ps,
  visualize_best N k_coef argsort choice1 choice2 r t X y class_id n_shp = Ok ps ->
  (forall c, sorts_by N c (argsort c)) -> (forall l, l <> [] -> In (choice1 l) l) -> (forall l, l <> [] -> In (choice2 l) l) ->
  exists t' T i1 i2 other sc m,
    rd_transformer r = Some t' /\ transform N t' X = Ok T /\ rd_classifier r = Some (Some (sc, m)) /\
    - n_classes (k_coef m) <= class_id < n_classes (k_coef m) /\
    nthZ y i1 = Some class_id /\ nthZ y i2 = Some other /\ other <> class_id /\
    best_shapelets N k_coef argsort r class_id n_shp = Ok (map pn_shapelet ps) /\
    forall p, In p ps -> let s := pn_shapelet p in exists x1 x2,
      (zlen (pn_group p) = zlen y /\ forall i, nthZ (pn_group p) i = Some true <-> nthZ y i = Some class_id) /\
      column T (3 * s) (pn_min p) /\ column T (3 * s + 1) (pn_argmin p) /\ column T (3 * s + 2) (pn_occurrence p) /\
      plot t s = Ok (pn_values p) /\ channel0 N X i1 x1 /\ channel0 N X i2 x2 /\
      plot_on_X N t s x1 = Ok (pn_own p) /\ plot_on_X N t s x2 = Ok (pn_other p) /\
      plot_distance_vector N t s x1 = Ok (pn_dist_own p) /\ plot_distance_vector N t s x2 = Ok (pn_dist_other p).
Proof.
  intros F N SC P M k_coef argsort choice1 choice2 r t X y class_id n_shp ps H HA HC1 HC2. unfold visualize_best in H.
  apply bind_inv in H as (ids & Hids & H). destruct (rd_transformer r) as [t'|] eqn:Et; [|discriminate H].
  apply bind_inv in H as (T & HT & H). apply bind_inv in H as (i1 & Hi1 & H). apply bind_inv in H as (i2 & Hi2 & H).
  pose proof Hids as Hids0. unfold best_shapelets in Hids0. apply bind_inv in Hids0 as (imp & Himp & _).
  destruct (importance_ok N SC P M k_coef r class_id imp Himp) as (t'' & f & sc & m & E1 & E2 & E3 & _ & Hr). rewrite Et in E1. injection E1 as <-.
  destruct (C56_selection F N SC P M k_coef argsort r class_id n_shp imp Himp (HA imp)) as (t3 & f' & ids' & E4 & E5 & E6 & _ & _ & Hrange & _).
  rewrite Hids in E6. injection E6 as <-.
  assert (Hpick : forall choice l i, random_choice choice l = Ok i -> (forall l, l <> [] -> In (choice l) l) -> In i l).
  { intros choice l i E Hc. unfold random_choice in E. destruct l; [discriminate|]. injection E as <-. apply Hc. discriminate. }
  apply Hpick in Hi1; [|exact HC1]. apply Hpick in Hi2; [|exact HC2]. rewrite in_where, nthZ_map in Hi1, Hi2.
  destruct (nthZ y i1) as [l1|] eqn:Y1; [|discriminate]. destruct (nthZ y i2) as [l2|] eqn:Y2; [|discriminate].
  cbn [option_map] in Hi1, Hi2. injection Hi1 as Hi1. apply Z.eqb_eq in Hi1. injection Hi2 as Hi2. apply negb_true_iff, Z.eqb_neq in Hi2. subst l1.
  pose proof (nthZ_range _ _ _ Y1) as R1. pose proof (nthZ_range _ _ _ Y2) as R2.
  exists t', T, i1, i2, l2, sc, m. repeat (split; [first [assumption|reflexivity]|]).
  apply mapM_Forall2 in H.
  assert (G : Forall2 (fun s p => pn_shapelet p = s /\ exists x1 x2,
      (zlen (pn_group p) = zlen y /\ forall i, nthZ (pn_group p) i = Some true <-> nthZ y i = Some class_id) /\
      (0 <= s -> column T (3 * s) (pn_min p) /\ column T (3 * s + 1) (pn_argmin p) /\ column T (3 * s + 2) (pn_occurrence p)) /\
      plot t s = Ok (pn_values p) /\ channel0 N X i1 x1 /\ channel0 N X i2 x2 /\
      plot_on_X N t s x1 = Ok (pn_own p) /\ plot_on_X N t s x2 = Ok (pn_other p) /\
      plot_distance_vector N t s x1 = Ok (pn_dist_own p) /\ plot_distance_vector N t s x2 = Ok (pn_dist_other p)) ids ps).
  { revert H. apply Forall2_weaken. intros s p E.
    apply bind_inv in E as (mn & K1 & E). apply bind_inv in E as (am & K2 & E). apply bind_inv in E as (oc & K3 & E).
    apply bind_inv in E as (pv & K4 & E). apply bind_inv in E as (x2 & K5 & E). apply bind_inv in E as (p2 & K6 & E).
    apply bind_inv in E as (x1 & K7 & E). apply bind_inv in E as (p1 & K8 & E). apply bind_inv in E as (d2 & K9 & E).
    apply bind_inv in E as (d1 & K10 & E). injection E as <-. cbn [pn_shapelet pn_group pn_min pn_argmin pn_occurrence pn_values pn_other pn_own pn_dist_other pn_dist_own].
    split; [reflexivity|]. exists x1, x2. split.
    { split; [apply zlen_map|]. intros i. rewrite nthZ_map. destruct (nthZ y i) as [l|]; cbn [option_map]; [|split; discriminate].
      split; intros Q; injection Q as Q; [apply Z.eqb_eq in Q; congruence|rewrite Q, Z.eqb_refl; reflexivity]. }
    split.
    { intros Hs. replace (3 * s) with (s * 3) by lia. replace (s * 3 + 1) with (1 + s * 3) by lia. replace (s * 3 + 2) with (2 + s * 3) by lia.
      repeat split; try (eapply column_ok; [|eassumption]; lia); intros; eapply column_ok; eauto; lia. }
    split; [exact K4|]. split; [apply series_of_ok; [lia|exact K7]|]. split; [apply series_of_ok; [lia|exact K5]|]. auto. }
  split.
  - rewrite Hids. f_equal. clear -G. induction G as [|s p ids ps (E & _) G IH]; [reflexivity|]. cbn [map]. rewrite E, <- IH. reflexivity.
  - intros p Hp s.
    assert (Q : exists s', In s' ids /\ pn_shapelet p = s' /\ exists x1 x2,
      (zlen (pn_group p) = zlen y /\ forall i, nthZ (pn_group p) i = Some true <-> nthZ y i = Some class_id) /\
      (0 <= s' -> column T (3 * s') (pn_min p) /\ column T (3 * s' + 1) (pn_argmin p) /\ column T (3 * s' + 2) (pn_occurrence p)) /\
      plot t s' = Ok (pn_values p) /\ channel0 N X i1 x1 /\ channel0 N X i2 x2 /\
      plot_on_X N t s' x1 = Ok (pn_own p) /\ plot_on_X N t s' x2 = Ok (pn_other p) /\
      plot_distance_vector N t s' x1 = Ok (pn_dist_own p) /\ plot_distance_vector N t s' x2 = Ok (pn_dist_other p)).
    { clear -G Hp. induction G as [|s0 p0 ids ps A G IH]; [destruct Hp|]. destruct Hp as [->|Hp].
      - exists s0. split; [left; reflexivity|]. exact A.
      - destruct (IH Hp) as (s' & I & J). exists s'. split; [right; exact I|exact J]. }
    destruct Q as (s' & Is & Es & x1 & x2 & A & B & C). subst s'. fold s in B, C. exists x1, x2. split; [exact A|].
    specialize (Hrange _ Is). destruct (B ltac:(fold s in Hrange; lia)) as (B1 & B2 & B3). repeat (split; [assumption|]). exact C.
Qed.
Print Assumptions C56_panels.

(** *** An integer toy: the ridge model is replaced by the nearest of two training samples, whose coefficients are b - a *)
Definition a2 := mkArgs (F:=Z) (VStr "auto") (VBool false) (VInt 0) (VBool false) VNone (VInt 2) (VList [VInt 2]) VNone (VInt 0) (VBool false) (VInt 0)
    (VList [VInt 0; VInt 100]) (VInt 3) None None (VInt 6).
Definition vsub (a b : list Z) := map (fun p => fst p - snd p) (combine a b).
Definition dot (a b : list Z) := fold_left Z.add (map (fun p => fst p * snd p) (combine a b)) 0.
Definition nsk : sklearn Z unit unit (list Z * list Z * (Z * Z)) :=
  mkSk _ _ _ _ (fun _ => Ok tt) (fun _ X => Ok X)
    (fun _ X y => match X, y with [a; b], [u; v] => if zlen a =? zlen b then Ok (a, b, (u, v)) else Err ValueError | _, _ => Err ValueError end)
    (fun m X => Ok (map (fun x => let '(a, b, (u, v)) := m in if 0 <? dot (vsub b a) (vsub (vsub x a) (vsub b x)) then v else u) X))
    (fun m X => Err ValueError) (fun m => []) (fun x => x) (fun x a => x ^ a).
Definition ncoef (m : list Z * list Z * (Z * Z)) : list (list Z) := let '(a, b, _) := m in [vsub b a].
Definition nsort (l : list Z) : list Z := Sorting.argsort Z.ltb l.

Lemma nsk_shapes : sklearn_shapes nsk ncoef.
Proof.
  split.
  - cbn. intros _ X Zs p H. injection H as <-. auto.
  - intros p Zs y m H. destruct Zs as [|a [|b [|]]]; try discriminate. destruct y as [|u [|v [|]]]; try discriminate.
    cbn [nsk k_ridge_fit] in H. destruct (Z.eqb_spec (zlen a) (zlen b)) as [E|]; [|discriminate]. injection H as <-. split; [discriminate|].
    intros w [<-|[]]. unfold vsub. cbn [ncols]. rewrite zlen_map. unfold zlen in *. rewrite combine_length. lia.
Qed.

(** Fitting on two samples labelled 1 and 2: six features, of which three are kept. *)
Example C56_case : exists r0 r h t, ridge_init zenv a2 tt = Ok r0 /\ ridge_fit ZN zrng zenv nsk in_order zX2 [1; 2] r0 [0] = (Ok tt, r, h) /\
  rd_transformer r = Some t /\ importance ZN ncoef r 1 = Ok [0; -4; 0; 7; -3; 0] /\ importance ZN ncoef r 0 = Ok [0; 4; 0; -7; 3; 0] /\
  importance ZN ncoef r 2 = Err IndexError /\
  sorts_by ZN [0; -4; 0; 7; -3; 0] (nsort [0; -4; 0; 7; -3; 0]) /\
  best_shapelets ZN ncoef nsort r 1 5 = Ok [1; 0] /\
  exists p, visualize_best ZN ncoef nsort (hd 0) (hd 0) r t zX2 [1; 2] 1 1 = Ok [p] /\ pn_shapelet p = 1.
Proof.
  eexists _, _, _, _. split; [vm_compute; reflexivity|]. split; [vm_compute; reflexivity|]. split; [reflexivity|].
  split; [vm_compute; reflexivity|]. split; [vm_compute; reflexivity|]. split; [vm_compute; reflexivity|]. split.
  - replace (nsort [0; -4; 0; 7; -3; 0]) with [1; 4; 0; 2; 5; 3] by (vm_compute; reflexivity). split.
    + change (zrange 0 (zlen [0; -4; 0; 7; -3; 0])) with [0; 1; 2; 3; 4; 5].
      apply NoDup_Permutation; [repeat constructor; cbn; lia|repeat constructor; cbn; lia|]. intros x. cbn. lia.
    + intros i j a b x y Hij Ha Hb Hx Hy. pose proof (nthZ_range _ _ _ Ha) as Ri. pose proof (nthZ_range _ _ _ Hb) as Rj.
      change (zlen [1; 4; 0; 2; 5; 3]) with 6 in *.
      assert (Ci : i = 0 \/ i = 1 \/ i = 2 \/ i = 3 \/ i = 4) by lia. assert (Cj : j = 1 \/ j = 2 \/ j = 3 \/ j = 4 \/ j = 5) by lia.
      destruct Ci as [->|[->|[->|[->| ->]]]]; injection Ha as <-; injection Hx as <-;
      (destruct Cj as [->|[->|[->|[->| ->]]]]; try lia; injection Hb as <-; injection Hy as <-; reflexivity).
  - split; [vm_compute; reflexivity|]. eexists. split; [vm_compute; reflexivity|reflexivity].
Qed.

(** The documentation says that the best shapelets of the class [class_id] of the labels are shown.  They are those of the class
    *number* class_id: with the labels 1 and 2, which a successful fit accepts and predict returns, class_id = 1 splits the samples by
    label 1 but shows the best shapelet of class number 1, which is label 2, and class_id = 2 fails. *)
Theorem C56_label_refuted : exists r0 r h t p b, ridge_init zenv a2 tt = Ok r0 /\
  ridge_fit ZN zrng zenv nsk in_order zX2 [1; 2] r0 [0] = (Ok tt, r, h) /\ ridge_predict ZN nsk r zX2 = Ok [1; 2] /\ rd_transformer r = Some t /\
  visualize_best ZN ncoef nsort (hd 0) (hd 0) r t zX2 [1; 2] 1 1 = Ok [p] /\ pn_group p = [true; false] /\
  best_shapelets ZN ncoef nsort r 0 1 = Ok [b] /\ pn_shapelet p <> b /\
  visualize_best ZN ncoef nsort (hd 0) (hd 0) r t zX2 [1; 2] 2 1 = Err IndexError.
Proof.
  eexists _, _, _, _, _, _. split; [vm_compute; reflexivity|]. split; [vm_compute; reflexivity|]. split; [vm_compute; reflexivity|]. split; [reflexivity|].
  split; [vm_compute; reflexivity|]. split; [reflexivity|]. split; [vm_compute; reflexivity|]. split; [cbn; lia|]. vm_compute. reflexivity.
Qed.
Print Assumptions C56_label_refuted.

(** ** C68.  What the interpreters accept *)

(** RDST_interpreter takes exactly the fitted R_DST objects, and RDST_Ridge_interpreter exactly the R_DST_Ridge objects whose fit
    built a classifier; an R_DST_Ridge or R_DST_Ensemble given to the wrong one is refused, whatever its state. *)
Theorem C68_accepted : forall F SC P M (o : @pyobj F SC P M),
  ((exists t, rdst_interp o = Ok t) <-> exists t f, o = ORdst t /\ e_shapelets t = Some f) /\
  ((exists i, ridge_interp o = Ok i) <-> exists r c t f, o = ORidge r /\ rd_classifier r = Some c /\ rd_transformer r = Some t /\ e_shapelets t = Some f).
Proof.
  intros F SC P M o. split.
  - split.
    + intros (t & H). destruct o as [t0|r|e|]; try discriminate. cbn in H. destruct (e_shapelets t0) as [f|] eqn:E; [|discriminate]. eauto.
    + intros (t & f & -> & E). exists t. cbn. rewrite E. reflexivity.
  - split.
    + intros (i & H). destruct o as [t0|r|e|]; try discriminate. cbn in H. destruct (rd_classifier r) as [c|] eqn:E1; [|discriminate].
      destruct (rd_transformer r) as [t|] eqn:E2; [|discriminate]. cbn in H. destruct (e_shapelets t) as [f|] eqn:E; [|discriminate].
      exists r, c, t, f. auto.
    + intros (r & c & t & f & -> & E1 & E2 & E3). exists (r, t). cbn. rewrite E1, E2. cbn. rewrite E3. reflexivity.
Qed.
Print Assumptions C68_accepted.

(** In particular every R_DST and every R_DST_Ridge that fit completes on is accepted, the latter with the transformer that was fitted;
    an R_DST_Ridge that was only constructed is refused as not fitted. *)
Theorem C68_after_fit : forall F (N : NumOps F) S (rng : Rng F S) RS (V : pyenv RS) SC P M (K : sklearn F SC P M) ex X y h h',
  (forall t t', fit N rng V ex X y t h = (Ok tt, t', h') -> @rdst_interp F SC P M (ORdst t') = Ok t') /\
  (forall r r', ridge_fit N rng V K ex X y r h = (Ok tt, r', h') -> exists t, rd_transformer r' = Some t /\ ridge_interp (ORidge r') = Ok (r', t)) /\
  (forall a (p : P) (r0 : @ridge F SC P M), ridge_init V a p = Ok r0 -> ridge_interp (ORidge r0) = Err NotFittedError).
Proof.
  intros. split; [|split].
  - intros t t' H. apply EstimatorProofs.fit_frame in H as (_ & _ & q & f & _ & _ & E). cbn. rewrite E. reflexivity.
  - intros r r' H. destruct (ridge_fit_ok N S rng RS V SC P M K ex X y r h r' h' H) as (t & f & T & sc & m & Zs & E1 & E2 & E3 & _).
    exists t. split; [exact E1|]. cbn. rewrite E2, E1. cbn. rewrite E3. reflexivity.
  - intros a p r0 H. unfold ridge_init in H. apply bind_inv in H as (x & _ & H). injection H as <-. reflexivity.
Qed.
Print Assumptions C68_after_fit.

(** RDST_Ensemble_interpreter refuses every object, fitted ensembles included: it asks for an attribute that R_DST_Ensemble never has. *)
Theorem C68_ensemble_refuted : forall F SC P M (o : @pyobj F SC P M), exists e, ens_interp o = Err e /\ (forall en, o = OEns en -> e = NotFittedError).
Proof.
  intros F SC P M o. destruct o as [t|r|en|]; cbn; try (eexists; split; [reflexivity|intros; first [reflexivity|discriminate]]).
  destruct (rd_classifier r); eexists; (split; [reflexivity|discriminate]).
Qed.
Print Assumptions C68_ensemble_refuted.

Example C68_case : exists e0 h0 e1 h1 r0 r1 h2,
  zens (VInt 0) [0] = (Ok e0, h0) /\ ens_fit ZN zrng zenv zsk in_order [0; 1] zX1 [0; 1] e0 h0 = (Ok tt, e1, h1) /\ ens_interp (OEns e1) = Err NotFittedError /\
  ridge_init (SC := unit) (M := list Z) zenv (zargs (VInt 3)) tt = Ok r0 /\ ridge_fit ZN zrng zenv zsk in_order zX1 [0; 1] r0 [0] = (Ok tt, r1, h2) /\
  ridge_interp (ORidge r0) = Err NotFittedError /\ ridge_interp (ORidge r1) <> Err NotFittedError /\ ens_interp (ORidge r1) = Err TypeError.
Proof.
  eexists _, _, _, _, _, _, _. split; [vm_compute; reflexivity|]. split; [vm_compute; reflexivity|]. split; [reflexivity|].
  split; [vm_compute; reflexivity|]. split; [vm_compute; reflexivity|]. split; [reflexivity|]. split; [cbn; discriminate|reflexivity].
Qed.
