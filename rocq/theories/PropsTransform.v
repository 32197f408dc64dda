(** Property theorems C09-C21 and C59: the transform. *)
From Coq Require Import ZArith List Bool Reals Lra Lia Permutation.
From Verif Require Import Prelude Num Kernel Spec KernelProofs Parallel Apply ApplyUni ApplyMulti RealBase RealProofs
  TransformProofs TransformLaws SampleLaws MismatchProofs Cases.
Import ListNotations.
Open Scope Z_scope.

(** ** C09 *)

Theorem C09_univariate_transform : forall (X : dataset R) (s : ushp R) (ph : bool) (T : list (list R)),
  has_ft X -> wf_ushp s -> U_SL_apply RN X s ph = Ok T ->
  zlen T = zlen X /\ (forall row, In row T -> zlen row = 3 * zlen (us_len s)) /\
  forall i k x sr v l d thr nm, nthZ X i = Some x -> nthZ x 0 = Some sr -> ushp_at s k v l d thr nm ->
    exists row m a c, nthZ T i = Some row /\
      nthZ row (3 * k) = Some m /\ nthZ row (3 * k + 1) = Some a /\ nthZ row (3 * k + 2) = Some c /\
      is_features RN (distances RN ph nm sr v l d) thr (m, a, c).
Proof.
  intros X s ph T HX HW HT. destruct (U_SL_shape RN X s ph T HX HW HT) as [S1 S2]. split; [exact S1|]. split; [exact S2|].
  intros i k x sr v l d thr nm Hx Hsr Hk. edestruct (U_SL_cell RN X s ph T) as [_ (row & Hr & Hb)]; eauto.
  destruct (feats RN (distances RN ph nm sr v l d) thr) as [[m a] c] eqn:E. destruct Hb as (B1 & B2 & B3).
  exists row, m, a, c. repeat (split; [assumption|]). rewrite <- E. apply feats_R. intros y Hy. eapply distances_nonneg; eauto.
Qed.
Print Assumptions C09_univariate_transform.

(** It succeeds exactly when every shapelet fits every series, and raises ValueError otherwise. *)
Theorem C09_univariate_transform_total : forall (F : Type) (N : NumOps F) (X : dataset F) (s : ushp F) (ph : bool),
  has_ft X -> wf_ushp s ->
  ((forall i k x sr l d, nthZ X i = Some x -> nthZ x 0 = Some sr -> nthZ (us_len s) k = Some l -> nthZ (us_dil s) k = Some d ->
      ph = true \/ (l - 1) * d <= zlen sr) /\ exists T, U_SL_apply N X s ph = Ok T) \/
  ((exists i k x sr l d, nthZ X i = Some x /\ nthZ x 0 = Some sr /\ nthZ (us_len s) k = Some l /\ nthZ (us_dil s) k = Some d /\
      ph = false /\ zlen sr < (l - 1) * d) /\ U_SL_apply N X s ph = Err ValueError).
Proof.
  intros F N X s ph HX HW. destruct (U_SL_iff N X s ph HX HW) as [[Hf E]|[(i & Hi & Hf) E]]; [left|right].
  - split; [|eauto]. intros i k x sr l d Hx Hr Hl Hd. specialize (Hf i (nthZ_range _ _ _ Hx)).
    unfold ser in Hf. rewrite (nthd_some [] X i x Hx), (nthd_some [] x 0 sr Hr) in Hf. specialize (Hf k l d Hl Hd).
    destruct ph; [left; reflexivity|right]. destruct Hf as (_ & _ & Hf). exact Hf.
  - split; [|exact E]. destruct (nthZ_some X i Hi) as (x & Ex). destruct (nthZ_some x 0) as (r & Er).
    { specialize (HX x (nthZ_In _ _ _ Ex)). destruct x; [congruence|]. rewrite zlen_cons. pose proof (zlen_nonneg x). lia. }
    unfold ser in Hf. rewrite (nthd_some [] X i x Ex), (nthd_some [] x 0 r Er) in Hf.
    destruct HW as (W1 & W2 & W3 & W4 & W5 & W6).
    destruct (not_fits_lists ph (us_len s) (us_dil s) (zlen r)) as (k & l & d & Hl & Hd & Hn); auto.
    + intros k l Hl. destruct (nthZ_some (us_values s) k) as (v & Ev); [rewrite W1; eapply nthZ_range; eauto|].
      specialize (W5 k v l Ev Hl). lia.
    + exists i, k, x, r, l, d. tauto.
Qed.
Print Assumptions C09_univariate_transform_total.

Example C09_case : has_ft (caseX IZR) /\ wf_ushp (caseS IZR) /\ exists T, U_SL_apply RN (caseX IZR) (caseS IZR) false = Ok T.
Proof. split; [apply caseX_ft|]. split; [apply caseS_wf|]. apply (cases_run RN IZR (caseUS IZR) false). left. reflexivity. Qed.
(** the same data over the integers, computed *)
Example C09_case_computed : match U_SL_apply ZN [[[0; 1; 3; 1; 0; 2]]] (mkUshp [[1; 3; 0]; [0; 3; 0]] [2; 3] [1; 2] [1; 4] [false; false]) false with
  | Ok T => T = [[0; 1; 1; 0; 0; 1]] | Err _ => False end.
Proof. vm_compute. reflexivity. Qed.

(** ** C10 *)

Theorem C10_multivariate_transform : forall (X : dataset R) (nf n : Z) (s : mshp R) (L : list (lshp R)) (ph : bool) (T : list (list R)),
  mdata nf n X -> packed s L -> chan_ok L nf -> M_SL_apply RN X s ph = Ok T ->
  zlen T = zlen X /\ (forall row, In row T -> zlen row = 3 * zlen (ms_len s)) /\
  forall i k x chs vs l d thr nm, nthZ X i = Some x -> mshp_at s L k chs vs l d thr nm ->
    exists row m a c, nthZ T i = Some row /\
      nthZ row (3 * k) = Some m /\ nthZ row (3 * k + 1) = Some a /\ nthZ row (3 * k + 2) = Some c /\
      is_features RN (mdistances RN ph nm n x chs vs l d) thr (m, a, c).
Proof.
  intros X nf n s L ph T HX HP HC HT. destruct (M_SL_shape RN X nf n s L ph T HX HP HC HT) as [S1 S2]. split; [exact S1|]. split; [exact S2|].
  intros i k x chs vs l d thr nm Hx Hk. edestruct (M_SL_cell RN X nf n s L ph T) as [_ (row & Hr & Hb)]; eauto.
  destruct (feats RN (mdistances RN ph nm n x chs vs l d) thr) as [[m a] c] eqn:E. destruct Hb as (B1 & B2 & B3).
  exists row, m, a, c. repeat (split; [assumption|]). rewrite <- E. apply feats_R. intros y Hy. eapply mdistances_nonneg; eauto.
Qed.
Print Assumptions C10_multivariate_transform.

Theorem C10_multivariate_transform_total : forall (F : Type) (N : NumOps F) (X : dataset F) (nf n : Z) (s : mshp F) (L : list (lshp F)) (ph : bool),
  mdata nf n X -> packed s L -> chan_ok L nf ->
  ((X = [] \/ forall k l d, nthZ (ms_len s) k = Some l -> nthZ (ms_dil s) k = Some d -> ph = true \/ (l - 1) * d <= n) /\
     exists T, M_SL_apply N X s ph = Ok T) \/
  ((X <> [] /\ exists k l d, nthZ (ms_len s) k = Some l /\ nthZ (ms_dil s) k = Some d /\ ph = false /\ n < (l - 1) * d) /\
     M_SL_apply N X s ph = Err ValueError).
Proof.
  intros F N X nf n s L ph HX HP HC. destruct (M_SL_iff N X nf n s L ph HX HP HC) as [[Hf E]|[[Hne Hf] E]]; [left|right].
  - split; [|eauto]. destruct Hf as [->|Hf]; [left; reflexivity|right]. intros k l d Hl Hd. specialize (Hf k l d Hl Hd).
    destruct ph; [left; reflexivity|right]. destruct Hf as (_ & _ & Hf). exact Hf.
  - split; [|exact E]. split; [exact Hne|].
    destruct HP as (P1 & P2 & P3 & P4 & P5 & P6 & P7 & P8 & P9).
    apply not_fits_lists; auto. intros k l Hl. destruct (nthZ_some L k) as (p & Ep); [rewrite <- P4; eapply nthZ_range; eauto|].
    destruct (P8 k p l Ep Hl) as (_ & _ & _ & Hl1). exact Hl1.
Qed.
Print Assumptions C10_multivariate_transform_total.

Example C10_case : mdata 2 6 (caseXM IZR) /\ packed (caseM IZR) (caseL IZR) /\ chan_ok (caseL IZR) 2 /\
  exists T, M_SL_apply RN (caseXM IZR) (caseM IZR) false = Ok T.
Proof.
  split; [apply caseXM_data|]. split; [apply caseM_packed|]. split; [apply caseL_chan|].
  apply (cases_run RN IZR (caseMS IZR) false). right. right. left. reflexivity.
Qed.

(** ** C11 *)

Theorem C11_univariate_padding : forall (F : Type) (N : NumOps F) X X_len s ph T i sr,
  has_ft X -> zlen X_len = zlen X -> wf_ushp s -> U_VL_apply N X X_len s ph = Ok T -> real_points X X_len i sr ->
  exists row, nthZ T i = Some row /\ U_SL_apply N [[sr]] s ph = Ok [row].
Proof. exact @U_VL_as_SL. Qed.
Print Assumptions C11_univariate_padding.

Theorem C11_multivariate_padding : forall (F : Type) (N : NumOps F) X X_len nf n s L ph T i ni sr,
  mdata nf n X -> vl_ok n X X_len -> packed s L -> chan_ok L nf ->
  M_VL_apply N X X_len s ph = Ok T -> mreal_points X X_len i ni sr ->
  exists row, nthZ T i = Some row /\ M_SL_apply N [sr] s ph = Ok [row].
Proof. exact @M_VL_as_SL. Qed.
Print Assumptions C11_multivariate_padding.

(** Whatever the padding contains, and however wide it is: same result or same exception. *)
Theorem C11_padding_irrelevant : forall (F : Type) (N : NumOps F) X X_len X' X_len' s ph,
  has_ft X -> zlen X_len = zlen X -> has_ft X' -> zlen X_len' = zlen X' -> wf_ushp s -> zlen X = zlen X' ->
  (forall i, 0 <= i < zlen X -> exists sr, real_points X X_len i sr /\ real_points X' X_len' i sr) ->
  U_VL_apply N X X_len s ph = U_VL_apply N X' X_len' s ph.
Proof.
  intros F N X X_len X' X_len' s ph H1 H2 H3 H4 H5 H6 H7. apply U_VL_ext; auto. intros i Hi.
  destruct (H7 i Hi) as (sr & A & B). apply real_points_ser in A as [A _], B as [B _]. congruence.
Qed.
Print Assumptions C11_padding_irrelevant.

Theorem C11_padding_irrelevant_multivariate : forall (F : Type) (N : NumOps F) X X_len n X' X_len' n' nf s L ph,
  mdata nf n X -> vl_ok n X X_len -> mdata nf n' X' -> vl_ok n' X' X_len' -> packed s L -> chan_ok L nf -> zlen X = zlen X' ->
  (forall i, 0 <= i < zlen X -> exists ni sr, mreal_points X X_len i ni sr /\ mreal_points X' X_len' i ni sr) ->
  M_VL_apply N X X_len s ph = M_VL_apply N X' X_len' s ph.
Proof.
  intros F N X X_len n X' X_len' n' nf s L ph H1 H2 H3 H4 H5 H6 H7 H8. apply (M_VL_ext N X X_len n X' X_len' n' nf s L); auto.
  intros i Hi. destruct (H8 i Hi) as (ni & sr & A & B). apply mreal_points_ser in A as (A1 & A2 & _), B as (B1 & B2 & _).
  split; congruence.
Qed.
Print Assumptions C11_padding_irrelevant_multivariate.

Example C11_case : real_points (caseXV IZR) caseLen 1 [2; 2; 5; 2; 1]%R /\
  (exists T, U_VL_apply RN (caseXV IZR) caseLen (caseS IZR) false = Ok T) /\
  mreal_points (caseXM IZR) caseLen 1 5 [[2; 2; 5; 2; 1]; [0; 0; 1; 1; 3]]%R /\
  (exists T, M_VL_apply RN (caseXM IZR) caseLen (caseM IZR) false = Ok T).
Proof.
  split; [|split; [|split]].
  - eexists _, _, _. split; [reflexivity|]. split; [reflexivity|]. split; reflexivity.
  - apply (cases_run RN IZR (caseUV IZR) false). cbn. auto.
  - eexists. split; [reflexivity|]. split; reflexivity.
  - apply (cases_run RN IZR (caseMV IZR) false). cbn. auto.
Qed.

(** ** C12: every interleaving of the parallel iterations *)

Theorem C12_schedule_independence : forall (F : Type) (N : NumOps F) (c : call F) (ph : bool) (T : list (list F)),
  wf_call c -> run N c ph = Ok T ->
  exists ts, tasks N c ph = Ok ts /\ NoDup (cells (concat ts)) /\
    forall out, interleave ts out -> run_writes out (X_new0 N (n_samples c) (n_shapelets c)) = Ok T.
Proof. exact @call_par. Qed.
Print Assumptions C12_schedule_independence.

Example C12_case : forall c, In c [caseUS IZR; caseUV IZR; caseMS IZR; caseMV IZR] ->
  wf_call c /\ (exists T, run RN c true = Ok T) /\ n_samples c = 2 /\ 2 <= n_shapelets c.
Proof. intros c H. split; [apply (cases_wf IZR); exact H|]. split; [apply (cases_run RN IZR); exact H|]. apply (cases_sizes IZR). exact H. Qed.

(** ** C13 *)

(** A row depends on the sample it belongs to only. *)
Theorem C13_row_depends_on_its_sample : forall (F : Type) (N : NumOps F) (c c' : call F) ph T T' i i' x,
  wf_call c -> wf_call c' -> same_shapelets c c' -> run N c ph = Ok T -> run N c' ph = Ok T' ->
  sample_at c i x -> sample_at c' i' x -> nthZ T i <> None /\ nthZ T' i' = nthZ T i.
Proof. exact @row_of_sample. Qed.
Print Assumptions C13_row_depends_on_its_sample.

(** Any selection of samples (repetitions and permutations included) succeeds and gives the same selection of rows. *)
Theorem C13_selection_univariate : forall (F : Type) (N : NumOps F) X s ph T sel X',
  has_ft X -> wf_ushp s -> U_SL_apply N X s ph = Ok T ->
  Forall2 (fun i x => nthZ X i = Some x) sel X' ->
  exists T', U_SL_apply N X' s ph = Ok T' /\ Forall2 (fun i row => nthZ T i = Some row) sel T'.
Proof. exact @U_SL_select. Qed.
Print Assumptions C13_selection_univariate.

Theorem C13_selection_multivariate : forall (F : Type) (N : NumOps F) X nf n s L ph T sel X',
  mdata nf n X -> packed s L -> chan_ok L nf -> M_SL_apply N X s ph = Ok T ->
  Forall2 (fun i x => nthZ X i = Some x) sel X' ->
  exists T', M_SL_apply N X' s ph = Ok T' /\ Forall2 (fun i row => nthZ T i = Some row) sel T'.
Proof. exact @M_SL_select. Qed.
Print Assumptions C13_selection_multivariate.

Theorem C13_selection_univariate_variable : forall (F : Type) (N : NumOps F) X X_len s ph T sel X' X_len',
  has_ft X -> zlen X_len = zlen X -> has_ft X' -> zlen X_len' = zlen X' ->
  wf_ushp s -> U_VL_apply N X X_len s ph = Ok T -> zlen sel = zlen X' ->
  (forall j i, nthZ sel j = Some i -> exists sr, real_points X X_len i sr /\ real_points X' X_len' j sr) ->
  exists T', U_VL_apply N X' X_len' s ph = Ok T' /\ Forall2 (fun i row => nthZ T i = Some row) sel T'.
Proof. exact @U_VL_select. Qed.
Print Assumptions C13_selection_univariate_variable.

Theorem C13_selection_multivariate_variable : forall (F : Type) (N : NumOps F) X X_len nf n s L ph T sel X' X_len' n',
  mdata nf n X -> vl_ok n X X_len -> mdata nf n' X' -> vl_ok n' X' X_len' ->
  packed s L -> chan_ok L nf -> M_VL_apply N X X_len s ph = Ok T -> zlen sel = zlen X' ->
  (forall j i, nthZ sel j = Some i -> exists ni sr, mreal_points X X_len i ni sr /\ mreal_points X' X_len' j ni sr) ->
  exists T', M_VL_apply N X' X_len' s ph = Ok T' /\ Forall2 (fun i row => nthZ T i = Some row) sel T'.
Proof. exact @M_VL_select. Qed.
Print Assumptions C13_selection_multivariate_variable.

Example C13_case : Forall2 (fun i x => nthZ (caseX IZR) i = Some x) [1; 0; 1]
    [[[2; 2; 5; 2; 1; 0]]; [[0; 1; 3; 1; 0; 2]]; [[2; 2; 5; 2; 1; 0]]]%R /\
  sample_at (caseMV IZR) 1 [[2; 2; 5; 2; 1]; [0; 0; 1; 1; 3]]%R.
Proof.
  split; [repeat constructor|]. eapply sample_MV. eexists. split; [reflexivity|]. split; reflexivity.
Qed.

(** ** C14 *)

Theorem C14_one_channel : forall (X : dataset R) s n ph, wf_ushp s -> 0 <= n ->
  (forall x, In x X -> exists r, x = [r] /\ zlen r = n) ->
  M_SL_apply RN X (as_multi s) ph = U_SL_apply RN X s ph.
Proof. exact M_SL_one_channel. Qed.
Print Assumptions C14_one_channel.

Theorem C14_one_channel_variable : forall (X : dataset R) X_len s n ph, wf_ushp s -> 0 <= n ->
  (forall x, In x X -> exists r, x = [r] /\ zlen r = n) -> vl_ok n X X_len ->
  M_VL_apply RN X X_len (as_multi s) ph = U_VL_apply RN X X_len s ph.
Proof. exact M_VL_one_channel. Qed.
Print Assumptions C14_one_channel_variable.

Example C14_case : wf_ushp (caseS IZR) /\ (forall x, In x (caseX IZR) -> exists r, x = [r] /\ zlen r = 6) /\
  as_multi (caseS (fun z => z)) = mkMshp [1; 3; -1; 1; 0; 3; 0] [2; 2; 3] [1; 2; 2] [1; 2; 4] [false; true; false] [1; 1; 1] [0; 0; 0].
Proof.
  split; [apply caseS_wf|]. split; [|reflexivity]. intros x [<-|[<-|[]]]; eexists; split; reflexivity.
Qed.

(** ** C15 *)

Theorem C15_dist_vector_agrees : forall (X : dataset R) (s : ushp R) (ph : bool) T i k x sr v l d thr nm,
  has_ft X -> wf_ushp s -> U_SL_apply RN X s ph = Ok T ->
  nthZ X i = Some x -> nthZ x 0 = Some sr -> ushp_at s k v l d thr nm ->
  exists ds f, compute_shapelet_dist_vector RN sr v l d nm ph = Ok ds /\ cell3 T i k f /\ is_features RN ds thr f.
Proof.
  intros X s ph T i k x sr v l d thr nm HX HW HT Hx Hr Hk. edestruct (U_SL_cell RN X s ph T) as [Hf Hc]; eauto.
  destruct (wf_values s k v l d thr nm HW Hk) as (Hv & _). eexists _, _. split; [apply dist_vector_distances; [exact Hf|lia]|].
  split; [exact Hc|]. apply feats_R. intros y Hy. eapply distances_nonneg; eauto.
Qed.
Print Assumptions C15_dist_vector_agrees.

Theorem C15_dist_vector_agrees_variable : forall (X : dataset R) X_len (s : ushp R) (ph : bool) T i k sr v l d thr nm,
  has_ft X -> zlen X_len = zlen X -> wf_ushp s -> U_VL_apply RN X X_len s ph = Ok T ->
  real_points X X_len i sr -> ushp_at s k v l d thr nm ->
  exists ds f, compute_shapelet_dist_vector RN sr v l d nm ph = Ok ds /\ cell3 T i k f /\ is_features RN ds thr f.
Proof.
  intros X X_len s ph T i k sr v l d thr nm HX HL HW HT Hr Hk. edestruct (U_VL_cell RN X X_len s ph T) as [Hf Hc]; eauto.
  destruct (wf_values s k v l d thr nm HW Hk) as (Hv & _). eexists _, _. split; [apply dist_vector_distances; [exact Hf|lia]|].
  split; [exact Hc|]. apply feats_R. intros y Hy. eapply distances_nonneg; eauto.
Qed.
Print Assumptions C15_dist_vector_agrees_variable.

Example C15_case : compute_shapelet_dist_vector ZN [0; 1; 3; 1; 0; 2] [1; 3] 2 1 false false = Ok [3; 0; 4; 3; 2].
Proof. reflexivity. Qed.

(** ** C16 *)

(** Shapelet [k] holds the (normalised) subsequences of sample [i] at start [idx], for each of its channels. *)
Theorem C16_matches_its_source : forall (c : call R) ph T i k x n chs vs l d thr nm idx,
  wf_call c -> run RN c ph = Ok T -> sample_at c i x -> (forall r, In r x -> zlen r = n) ->
  shapelet_at c k chs vs l d thr nm ->
  0 <= idx < (if ph then n else n - (l - 1) * d) ->
  vs = map (fun ch => seen RN nm (window RN ph (nthd [] x ch) l d idx)) chs ->
  exists a cnt, cell3 T i k (0%R, a, cnt) /\ exists q, a = IZR q /\ 0 <= q <= idx.
Proof.
  intros c ph T i k x n chs vs l d thr nm idx HW HT HS Hn HK Hidx Hvs.
  destruct (cell_exists c ph T i k x chs vs l d thr nm n HW HT HS HK Hn) as ([[m a] cnt] & HC & HF).
  destruct (features_self _ _ idx (fun y Hy => mdistances_nonneg _ _ _ _ _ _ _ _ _ Hy)
    (mdistances_self ph x n idx chs vs l d nm (conj Hidx Hvs)) m a cnt HF) as [-> H]. eauto.
Qed.
Print Assumptions C16_matches_its_source.

Example C16_case : shapelet_at (caseUS IZR) 0 [0] [[1; 3]]%R 2 1 1%R false /\
  [[1; 3]]%R = map (fun ch => seen RN false (window RN false (nthd [] [[0; 1; 3; 1; 0; 2]]%R ch) 2 1 1)) [0] /\
  sample_at (caseUS IZR) 0 [[0; 1; 3; 1; 0; 2]]%R.
Proof.
  split; [|split; [reflexivity|eapply sample_US; reflexivity]].
  constructor. split; [eexists; split; [reflexivity|reflexivity]|]. repeat split; reflexivity.
Qed.

(** ** C17 *)

Theorem C17_phase_invariance : forall (c c' : call R) T T' i i' x x' r k chs vs l d thr nm m a cnt m' a' cnt',
  wf_call c -> wf_call c' -> same_shapelets c c' -> sample_at c i x -> sample_at c' i' x' ->
  Forall2 (rotated r) x x' -> run RN c true = Ok T -> run RN c' true = Ok T' ->
  shapelet_at c k chs vs l d thr nm -> cell3 T i k (m, a, cnt) -> cell3 T' i' k (m', a', cnt') ->
  m' = m /\ cnt' = cnt.
Proof. exact features_rotation. Qed.
Print Assumptions C17_phase_invariance.

Theorem C17_distance_vector_rotates : forall (F : Type) (N : NumOps F) r x x' v l d nm ds,
  (zlen x' = zlen x /\ forall i, 0 <= i < zlen x -> nthZ x' i = nthZ x ((i + r) mod zlen x)) -> 0 <= l <= zlen v ->
  compute_shapelet_dist_vector N x v l d nm true = Ok ds ->
  exists ds', compute_shapelet_dist_vector N x' v l d nm true = Ok ds' /\
    zlen ds = zlen x /\ zlen ds' = zlen ds /\ forall i, 0 <= i < zlen ds -> nthZ ds' i = nthZ ds ((i + r) mod zlen ds).
Proof.
  intros F N r x x' v l d nm ds HR Hl H. rewrite dist_vector_distances in H by (cbn; lia).
  injection H as <-. exists (distances N true nm x' v l d). split; [apply dist_vector_distances; cbn; lia|].
  split; [unfold distances, nwin; rewrite zlen_map, zlen_zrange; pose proof (zlen_nonneg x); lia|].
  apply (distances_rotated N r x x' nm v l d HR).
Qed.
Print Assumptions C17_distance_vector_rotates.

Example C17_case : rotated 2 [0; 1; 3; 1; 0; 2] [3; 1; 0; 2; 0; 1] /\
  compute_shapelet_dist_vector ZN [0; 1; 3; 1; 0; 2] [1; 3] 2 1 false true = Ok [3; 0; 4; 3; 2; 4] /\
  compute_shapelet_dist_vector ZN [3; 1; 0; 2; 0; 1] [1; 3] 2 1 false true = Ok [4; 3; 2; 4; 3; 0].
Proof.
  split; [|split; reflexivity]. split; [reflexivity|]. intros i Hi. change (zlen [0; 1; 3; 1; 0; 2]) with 6 in *.
  assert (C : i = 0 \/ i = 1 \/ i = 2 \/ i = 3 \/ i = 4 \/ i = 5) by lia.
  repeat (destruct C as [->|C]; [reflexivity|]). subst. reflexivity.
Qed.

(** ** C18 *)

(** Adding a constant to each channel of a sample changes no feature of a normalised shapelet. *)
Theorem C18_offset_invariance : forall (c c' : call R) ph T T' i i' x x' k chs vs l d thr f f',
  wf_call c -> wf_call c' -> same_shapelets c c' -> sample_at c i x -> sample_at c' i' x' ->
  Forall2 (fun r r' => exists o, r' = map (fun v => v + o)%R r) x x' -> run RN c ph = Ok T -> run RN c' ph = Ok T' ->
  shapelet_at c k chs vs l d thr true -> cell3 T i k f -> cell3 T' i' k f' -> f' = f.
Proof. exact features_shift. Qed.
Print Assumptions C18_offset_invariance.

Theorem C18_scale_error : forall a w i z, (0 < a)%R -> nthZ (zscore RN w) i = Some z ->
  exists x z', nthZ w i = Some x /\ nthZ (zscore RN (map (Rmult a) w)) i = Some z' /\
    (z' - z = (x - avg RN w) * (neps RN * (a - 1)) / ((a * sdev RN w + neps RN) * (sdev RN w + neps RN)))%R.
Proof. exact zscore_scale. Qed.
Print Assumptions C18_scale_error.

Theorem C18_normalised_moments : forall w, w <> [] ->
  avg RN (zscore RN w) = 0%R /\ sdev RN (zscore RN w) = (sdev RN w / (sdev RN w + neps RN))%R.
Proof. intros w H. split; [apply zscore_avg; exact H|apply zscore_sdev; exact H]. Qed.
Print Assumptions C18_normalised_moments.

(** Exact scale invariance fails. *)
Theorem C18_scale_invariance_refuted : exists a w, (0 < a)%R /\ zscore RN (map (Rmult a) w) <> zscore RN w.
Proof.
  exists 2%R, [0; 1]%R. split; [lra|]. intros E.
  assert (Hz : nthZ (zscore RN [0; 1]%R) 1 = Some ((1 - avg RN [0; 1]) / (sdev RN [0; 1] + neps RN))%R) by reflexivity.
  destruct (zscore_scale 2 [0; 1]%R 1 _ ltac:(lra) Hz) as (x & z' & Hx & Hz' & Ed). rewrite E, Hz in Hz'. apply (f_equal (fun o => match o with Some y => y | None => 0%R end)) in Hz'. cbv beta iota in Hz'.
  assert (Hx1 : x = 1%R) by (assert (nthZ [0; 1]%R 1 = Some 1%R) by reflexivity; congruence). subst x.
  rewrite <- Hz' in Ed.
  assert (Ea : avg RN [0; 1]%R = (1 / 2)%R). { rewrite avg_R. change (zlen [0; 1]%R) with 2. cbn [rsum]. lra. }
  rewrite Ea in Ed. pose proof (sdev_nonneg [0; 1]%R) as Hs. pose proof eps_pos as He.
  set (sd := sdev RN [0; 1]%R) in *. set (e := neps RN) in *.
  assert (H1 : (0 < (2 * sd + e) * (sd + e))%R) by (apply Rmult_lt_0_compat; lra).
  assert (H2 : (0 < (1 - 1 / 2) * (e * (2 - 1)) / ((2 * sd + e) * (sd + e)))%R).
  { apply Rdiv_lt_0_compat; [|exact H1]. lra. }
  rewrite <- Ed in H2. rewrite Rminus_diag_eq in H2 by reflexivity. exact (Rlt_irrefl 0 H2).
Qed.
Print Assumptions C18_scale_invariance_refuted.

Example C18_case : shapelet_at (caseUS IZR) 1 [0] [[-1; 1]]%R 2 2 2%R true /\
  Forall2 (fun r r' => exists o, r' = map (fun v => v + o)%R r) [[0; 1; 3]]%R [[0 + 7; 1 + 7; 3 + 7]]%R.
Proof.
  split.
  - constructor. split; [eexists; split; [reflexivity|reflexivity]|]. repeat split; reflexivity.
  - repeat constructor. exists 7%R. reflexivity.
Qed.

(** ** C19 *)

Theorem C19_normalised_distance_bound : forall w w', zlen w = zlen w' ->
  (0 <= l1 RN (zscore RN w) (zscore RN w') <= 2 * IZR (zlen w))%R.
Proof. intros w w' H. split; [apply l1_nonneg|apply zscore_l1_bound; exact H]. Qed.
Print Assumptions C19_normalised_distance_bound.

(** [ws] are the raw windows a normalised shapelet was made from, one per channel. *)
Theorem C19_normalised_minimum_range : forall (c : call R) ph T i k x n chs ws l d thr m a cnt,
  wf_call c -> run RN c ph = Ok T -> sample_at c i x -> (forall r, In r x -> zlen r = n) ->
  shapelet_at c k chs (map (zscore RN) ws) l d thr true -> zlen chs = zlen ws -> 0 <= l -> (forall w, In w ws -> zlen w = l) ->
  0 < (if ph then n else n - (l - 1) * d) -> cell3 T i k (m, a, cnt) ->
  (0 <= m <= 2 * IZR l * IZR (zlen chs))%R.
Proof.
  intros c ph T i k x n chs ws l d thr m a cnt HW HT HS Hn HK Hc Hl Hw Hpos HC.
  pose proof (cell_features c ph T i k x chs _ l d thr true n _ HW HT HS HK Hn HC) as HF.
  destruct HF as [(E & _)|(q & H1 & _)].
  - exfalso. apply (f_equal (@zlen R)) in E. unfold mdistances in E. rewrite zlen_map, zlen_zrange in E.
    change (zlen (@nil R)) with 0 in E. unfold nwin in E. lia.
  - apply nthZ_In in H1. apply (mdistances_bound ph n x chs ws l d m Hl Hw Hc H1).
Qed.
Print Assumptions C19_normalised_minimum_range.

Example C19_case : zlen [1; 2; 5]%R = zlen [0; 9; 9]%R.
Proof. reflexivity. Qed.

(** ** C20 *)

Theorem C20_feature_ranges : forall (c : call R) ph T i k x n chs vs l d thr nm m a cnt w,
  wf_call c -> run RN c ph = Ok T -> sample_at c i x -> (forall r, In r x -> zlen r = n) ->
  shapelet_at c k chs vs l d thr nm -> w = (if ph then n else n - (l - 1) * d) -> 1 <= w -> cell3 T i k (m, a, cnt) ->
  (0 <= m)%R /\ (exists q, a = IZR q /\ 0 <= q <= w - 1) /\ (exists q, cnt = IZR q /\ 0 <= q <= w) /\
  ((1 <= cnt)%R <-> (m <= thr)%R).
Proof.
  intros c ph T i k x n chs vs l d thr nm m a cnt w HW HT HS Hn HK -> Hw HC.
  pose proof (cell_features c ph T i k x chs _ l d thr nm n _ HW HT HS HK Hn HC) as HF.
  assert (EL : zlen (mdistances RN ph nm n x chs vs l d) = (if ph then n else n - (l - 1) * d)).
  { unfold mdistances. rewrite zlen_map, zlen_zrange. unfold nwin. lia. }
  destruct (features_ranges _ thr m a cnt (fun y Hy => mdistances_nonneg _ _ _ _ _ _ _ _ _ Hy) HF) as (A & (q & B1 & B2) & C & D).
  { intros E. rewrite E in EL. change (zlen (@nil R)) with 0 in EL. lia. }
  rewrite EL in *. split; [exact A|]. split; [exists q; split; [exact B1|lia]|]. split; assumption.
Qed.
Print Assumptions C20_feature_ranges.

(** With exactly (length-1)*dilation points there is no window: the sentinel. *)
Theorem C20_sentinel : forall (c : call R) T i k x n chs vs l d thr nm,
  wf_call c -> run RN c false = Ok T -> sample_at c i x -> (forall r, In r x -> zlen r = n) ->
  shapelet_at c k chs vs l d thr nm -> n = (l - 1) * d -> cell3 T i k ((-1)%R, 0%R, 0%R).
Proof.
  intros c T i k x n chs vs l d thr nm HW HT HS Hn HK ->.
  destruct (cell_exists c false T i k x chs vs l d thr nm _ HW HT HS HK Hn) as ([[m a] cnt] & HC & HF).
  assert (E : mdistances RN false nm ((l - 1) * d) x chs vs l d = []).
  { unfold mdistances, nwin. rewrite zrange_empty by lia. reflexivity. }
  rewrite E in HF. destruct HF as [(_ & -> & -> & ->)|(q & H & _)]; [exact HC|].
  unfold nthZ in H. destruct (q <? 0); [discriminate|]. destruct (Z.to_nat q); discriminate.
Qed.
Print Assumptions C20_sentinel.

(** Hence a successful transform can contain the sentinel -1 although no series is rejected. *)
Theorem C20_nonnegative_minimum_refuted : exists (X : dataset R) (s : ushp R) T row,
  wf_ushp s /\ U_SL_apply RN X s false = Ok T /\ nthZ T 0 = Some row /\ nthZ row 0 = Some (-1)%R.
Proof.
  set (s := mkUshp [[1; 2]]%R [2] [3] [0]%R [false]). set (X := [[[5; 6; 7]]]%R : dataset R).
  assert (HW : wf_ushp s).
  { apply wf_ushp_intro; try reflexivity; cbn [us_values us_len us_dil s]; repeat constructor; unfold zlen; cbn; lia. }
  assert (HX : has_ft X) by (intros x [<-|[]]; discriminate).
  assert (E : exists T, U_SL_apply RN X s false = Ok T).
  { eexists. apply U_SL_ok; auto. intros i Hi. change (zlen X) with 1 in Hi. assert (i = 0) as -> by lia.
    change (zlen (ser X 0)) with 3. assert (H : Forall2 (fun l d => fits false 3 l d) (us_len s) (us_dil s)).
    { cbn. repeat constructor; cbn; lia. } exact (Forall2_nthZ _ _ _ H). }
  destruct E as (T & E). exists X, s, T.
  destruct (C20_sentinel (CallUS X s) T 0 0 [[5; 6; 7]]%R 3 [0] [[1; 2]]%R 2 3 0%R false) as (row & Hr & (B & _)); auto.
  - split; assumption.
  - eapply sample_US; reflexivity.
  - intros r [<-|[]]. reflexivity.
  - constructor. split; [eexists; split; [reflexivity|reflexivity]|]. repeat split; reflexivity.
  - exists row. auto.
Qed.
Print Assumptions C20_nonnegative_minimum_refuted.

Example C20_case : exists T row m a cnt, run RN (caseUS IZR) false = Ok T /\ nthZ T 0 = Some row /\ block row 0 (m, a, cnt) /\
  1 <= 6 - (2 - 1) * 1.
Proof.
  destruct (cases_run RN IZR (caseUS IZR) false) as (T & HT); [left; reflexivity|].
  destruct (cell_exists (caseUS IZR) false T 0 0 [[0; 1; 3; 1; 0; 2]]%R [0] [[1; 3]]%R 2 1 1%R false 6) as ([[m a] cnt] & (row & Hr & Hb) & _).
  - apply (cases_wf IZR). left. reflexivity.
  - exact HT.
  - eapply sample_US; reflexivity.
  - constructor. split; [eexists; split; [reflexivity|reflexivity]|]. repeat split; reflexivity.
  - intros r [<-|[]]. reflexivity.
  - exists T, row, m, a, cnt. repeat (split; [assumption|]). lia.
Qed.

(** ** C21 *)

(** Two calls on the same sample whose shapelets [k] differ in their thresholds only. *)
Theorem C21_threshold_monotone : forall (c c' : call R) ph T T' i k x n chs vs l d thr thr' nm m a cnt m' a' cnt',
  wf_call c -> wf_call c' -> run RN c ph = Ok T -> run RN c' ph = Ok T' -> sample_at c i x -> sample_at c' i x ->
  (forall r, In r x -> zlen r = n) ->
  shapelet_at c k chs vs l d thr nm -> shapelet_at c' k chs vs l d thr' nm ->
  cell3 T i k (m, a, cnt) -> cell3 T' i k (m', a', cnt') ->
  m = m' /\ a = a' /\ ((thr <= thr')%R -> (cnt <= cnt')%R).
Proof.
  intros c c' ph T T' i k x n chs vs l d thr thr' nm m a cnt m' a' cnt' HW HW' HT HT' HS HS' Hn HK HK' HC HC'.
  eapply features_threshold; [eapply (cell_features c); eauto|eapply (cell_features c'); eauto].
Qed.
Print Assumptions C21_threshold_monotone.

Example C21_case : apply_one_univariate ZN [[5; 9]; [1; 3]; [2; 2]] [1; 2] 0 = Ok (1, 1, 0) /\
  apply_one_univariate ZN [[5; 9]; [1; 3]; [2; 2]] [1; 2] 1 = Ok (1, 1, 2).
Proof. split; reflexivity. Qed.

(** ** C59 *)

Theorem C59_univariate_uses_channel_0 : forall (F : Type) (N : NumOps F) X X' s ph,
  has_ft X -> wf_ushp s -> map (fun x => nthZ x 0) X = map (fun x => nthZ x 0) X' ->
  U_SL_apply N X s ph = U_SL_apply N X' s ph.
Proof. exact @U_SL_channel0. Qed.
Print Assumptions C59_univariate_uses_channel_0.

Theorem C59_missing_channel : forall (F : Type) (N : NumOps F) X s L ph i x k chs vs l d thr nm ch,
  packed s L -> nthZ X i = Some x -> mshp_at s L k chs vs l d thr nm -> In ch chs -> zlen x <= ch ->
  forall T, M_SL_apply N X s ph <> Ok T.
Proof. exact @M_SL_missing_channel. Qed.
Print Assumptions C59_missing_channel.

Theorem C59_missing_channel_variable : forall (F : Type) (N : NumOps F) X X_len s L ph i x k chs vs l d thr nm ch,
  packed s L -> nthZ X i = Some x -> mshp_at s L k chs vs l d thr nm -> In ch chs -> zlen x <= ch ->
  forall T, M_VL_apply N X X_len s ph <> Ok T.
Proof. exact @M_VL_missing_channel. Qed.
Print Assumptions C59_missing_channel_variable.

(** The failure is an out-of-range read, not a checked exception. *)
Theorem C59_checked_refuted : exists (X : dataset Z) s L, packed s L /\ M_SL_apply ZN X s false = Err OutOfBounds.
Proof.
  exists [[[0; 1; 3; 1; 0; 2]]], (caseM (fun z => z)), (caseL (fun z => z)). split; [apply caseM_packed|]. vm_compute. reflexivity.
Qed.
Print Assumptions C59_checked_refuted.

Example C59_case : U_SL_apply ZN [[[0; 1; 3; 1; 0; 2]; [9; 9; 9; 9; 9; 9]]] (mkUshp [[1; 3]] [2] [1] [1] [false]) false = Ok [[0; 1; 1]].
Proof. vm_compute. reflexivity. Qed.
