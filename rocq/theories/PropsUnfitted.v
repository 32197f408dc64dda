(** Property C86: objects which are not fitted, or whose last fits failed (convst/transformers/rdst.py,
    convst/classifiers/rdst_ridge.py and rdst_ensemble.py). *)
From Coq Require Import String ZArith List Bool Lia.
From Verif Require Import Prelude Num Kernel Parallel Apply Gen Checks Estimator EstimatorLaws EstimatorCases EstimatorNum Classifiers ClassifierProofs EnsembleProofs
  Unfitted PropsEstimator PropsClassifiers.
Import ListNotations.
Open Scope Z_scope.

(** [s'] is what is left of the R_DST object [s] after any number of fits, on any data, which all raised. *)
Inductive failed_fits {F S RS} (N : NumOps F) (rng : Rng F S) (V : pyenv RS) : @est F -> @est F -> Prop :=
| no_fit s : failed_fits N rng V s s
| more_fits s s1 s2 ex X y h e h' : failed_fits N rng V s s1 -> fit N rng V ex X y s1 h = (Err e, s2, h') -> failed_fits N rng V s s2.

(** ** R_DST *)

Lemma failed_keep {F S RS} (N : NumOps F) (rng : Rng F S) (V : pyenv RS) s s' : failed_fits N rng V s s' -> keep s s'.
Proof. induction 1 as [|s s1 s2 ex X y h e h' _ IH Hf]; [apply keep_refl|]. eapply keep_trans; [exact IH|]. eapply keeps_failed. exact Hf. Qed.

(** A new object, also after fits that failed, refuses to transform, with NotFittedError. *)
Theorem C86_unfitted : forall F (N : NumOps F) S (rng : Rng F S) RS (V : pyenv RS) a h s h' s' X,
  init N V a h = (Ok s, h') -> failed_fits N rng V s s' -> transform N s' X = Err NotFittedError.
Proof.
  intros F N S rng RS V a h s h' s' X HI HF. apply failed_keep in HF as (HF & _). apply C41_constructor in HI.
  assert (E : e_shapelets s = None) by (decompose [and] HI; assumption). unfold transform. rewrite HF, E. reflexivity.
Qed.
Print Assumptions C86_unfitted.

(** A fitted object whose later fits all failed still transforms exactly as before. *)
Theorem C86_failed_refit : forall F (N : NumOps F) S (rng : Rng F S) RS (V : pyenv RS) ex X y s h s1 h' s2 Z,
  fit N rng V ex X y s h = (Ok tt, s1, h') -> failed_fits N rng V s1 s2 -> transform N s2 Z = transform N s1 Z.
Proof.
  intros F N S rng RS V ex X y s h s1 h' s2 Z H HF. apply failed_keep in HF as (A & B & C).
  assert (E : exists k, e_type s1 = TKind k /\ e_kind s1 = Some k).
  { apply fit_ok in H as (q & s0 & f & Hp & _ & ->). apply prepare_ok in Hp as (k & D & sh & lens & m & ls & D' & y' & sizes & seed & pc & al & pn & _ & _ & _ & _ & _ & _ & _ & _ & _ & _ & _ & ->). exists k. split; reflexivity. }
  destruct E as (k & E1 & E2). destruct (C k E1) as [C1 C2]. specialize (C2 E2). unfold transform. rewrite A, B, C1, C2, E1, E2. reflexivity.
Qed.
Print Assumptions C86_failed_refit.

(** ** R_DST_Ridge *)

(** A new object refuses to predict and to score, with NotFittedError.  (After a failed fit: C38.) *)
Theorem C86_ridge_unfitted : forall F (N : NumOps F) RS (V : pyenv RS) SC P M (K : sklearn F SC P M) a p r X y,
  ridge_init V a p = Ok r -> ridge_predict N K r X = Err NotFittedError /\ ridge_score N K r X y = Err NotFittedError.
Proof.
  intros F N RS V SC P M K a p r X y H. unfold ridge_init in H. apply bind_inv in H as (nj & _ & H). injection H as <-. split; reflexivity.
Qed.
Print Assumptions C86_ridge_unfitted.

(** ** R_DST_Ensemble *)

(** [e'] is what is left of the ensemble [e] after any number of fits which all raised. *)
Inductive failed_ens {F S RS SC P M} (N : NumOps F) (rng : Rng F S) (V : pyenv RS) (K : sklearn F SC P M) : @ens F SC P M -> @ens F SC P M -> Prop :=
| no_ens e : failed_ens N rng V K e e
| more_ens e e1 e2 ex sched X y h er h' : failed_ens N rng V K e e1 -> ens_fit N rng V K ex sched X y e1 h = (Err er, e2, h') -> failed_ens N rng V K e e2.

Lemma run_members_ridge {F S RS SC P M} (N : NumOps F) (rng : Rng F S) (V : pyenv RS) (K : sklearn F SC P M) ex e X y sched : forall h ms h',
  run_members N rng V K ex e X y sched h = (Ok ms, h') -> forall i m, In (i, m) ms -> exists Z, iridge_fit K (en_hyper e) Z y = Ok (m_ridge m).
Proof.
  induction sched as [|j t IH]; intros h ms h' H i m Hi; cbn [run_members] in H; [injection H as <- <-; destruct Hi|].
  destruct (member_fit N rng V K ex e X y j h) as [[m0|er] h1] eqn:E; [|discriminate]. destruct (run_members N rng V K ex e X y t h1) as [r h2] eqn:E2.
  destruct r as [ms0|]; [|discriminate]. cbn [bind] in H. injection H as <- <-. destruct Hi as [Hi|Hi]; [|exact (IH _ _ _ E2 _ _ Hi)]. injection Hi as <- <-.
  unfold member_fit in E. destruct (bind _ _) as [[tr pn]|]; [|discriminate]. destruct (init N V (member_args e pn) h) as [[t0|] h0]; [|discriminate]. destruct (tr X) as [X1|]; [|discriminate].
  destruct (fit N rng V ex X1 y t0 h0) as [[u t1] h3]. injection E as E _. apply bind_inv in E as (u0 & _ & E). apply bind_inv in E as (Z & _ & E). apply bind_inv in E as (c & Ec & E). injection E as <-. eauto.
Qed.

Lemma ens_failed {F S RS SC P M} (N : NumOps F) (rng : Rng F S) (V : pyenv RS) (K : sklearn F SC P M) ex sched X y e h er e' h' :
  ens_fit N rng V K ex sched X y e h = (Err er, e', h') -> en_a_w e' = en_a_w e /\ (en_fitted e = None -> en_fitted e' = None) /\
  (en_fitted e' = en_fitted e \/ exists (m : @member F SC M) er', (exists p Z, iridge_fit K p Z y = Ok (m_ridge m)) /\ (let* acc := loocv_acc N K (m_ridge m) y in let* a := as_F N (en_a_w e) in Ok (k_pow K acc a)) = Err er').
Proof.
  intros Hf. unfold ens_fit in Hf. destruct (manage_n_jobs V e) as [[k|er1] e3] eqn:EM.
  - assert (E3 : en_fitted e3 = en_fitted e /\ en_a_w e3 = en_a_w e).
    { unfold manage_n_jobs in EM. destruct (check_n_jobs (v_cpus V) (en_n_jobs e)) as [t|]; [|discriminate]. destruct (Z.min (zlen (en_trans e)) t =? 0); [discriminate|]. injection EM as _ <-. auto. }
    destruct E3 as [E3 E4]. rewrite <- E3, <- E4.
    destruct (set_num_threads V k); [|injection Hf as _ <- _; auto]. destruct (run_members N rng V K ex e3 X y sched h) as [r h1] eqn:ER.
    destruct (bind r _) as [models|] eqn:EB; [|injection Hf as _ <- _; auto]. destruct (ens_weights N K e3 y models) as [|er2] eqn:EW; [discriminate|]. injection Hf as _ <- _. cbn [en_fitted en_a_w].
    split; [reflexivity|]. split; [intros ->; reflexivity|]. right. apply bind_inv in EB as (ms & -> & EB).
    assert (HM : forall m, In m models -> exists p Z, iridge_fit K p Z y = Ok (m_ridge m)).
    { intros m Hm. apply mapM_Forall2 in EB. assert (Q : exists i, find_member ms i = Ok m) by (clear - EB Hm; induction EB as [|i m0 l l' A _ IH]; [destruct Hm|]; destruct Hm as [<-|Hm]; eauto).
      destruct Q as (i & Q). unfold find_member in Q. destruct (filter (fun p => fst p =? i) ms) as [|q t] eqn:EF; [discriminate|]. injection Q as <-.
      assert (Iq : In q ms) by (apply (filter_In (fun p => fst p =? i)); rewrite EF; left; reflexivity). destruct q as [i0 m0]. destruct (run_members_ridge N rng V K ex e3 X y sched h ms h1 ER i0 m0 Iq) as (Z & HZ). eauto. }
    unfold ens_weights in EW. clear EB. revert EW. induction models as [|m t IH]; intros EW; [discriminate|]. cbn [mapM] in EW.
    destruct (bind (loocv_acc N K (m_ridge m) y) _) as [w|er3] eqn:E1; [|exists m, er3; split; [apply HM; left; reflexivity|exact E1]].
    cbn [bind] in EW. destruct (mapM _ t) as [ws|] eqn:E2; [discriminate|]. apply IH; [intros m' Hm'; apply HM; right; exact Hm'|]. exact EW.
  - unfold manage_n_jobs in EM. destruct (check_n_jobs (v_cpus V) (en_n_jobs e)) as [t|]; [|injection EM as _ <-; injection Hf as _ <- _; auto].
    destruct (Z.min (zlen (en_trans e)) t =? 0); [|discriminate]. injection EM as _ <-. injection Hf as _ <- _. auto.
Qed.

(** A new ensemble, also after fits that failed, refuses to predict, with NotFittedError. *)
Theorem C86_ensemble_unfitted : forall F (N : NumOps F) S (rng : Rng F S) RS (V : pyenv RS) SC P M (K : sklearn F SC P M) a p a_w pn trans h e h' e' X,
  ens_init N V a p a_w pn trans h = (Ok e, h') -> failed_ens N rng V K e e' -> ens_predict N K e' X = Err NotFittedError.
Proof.
  intros F N S rng RS V SC P M K a p a_w pn trans h e h' e' X HI HF.
  assert (E : en_fitted e = None).
  { unfold ens_init in HI. destruct (let* ph := check_is_boolean (p_phase_invariance a) in _) as [[[[ph no] ns] pr]|]; [|discriminate]. destruct (check_random_state V (p_random_state a) h) as [r h1].
    injection HI as HI _. repeat (apply bind_inv in HI as (? & _ & HI)). injection HI as <-. reflexivity. }
  assert (E' : en_fitted e' = None) by (induction HF as [|e e1 e2 ex sched X0 y h0 er h1 _ IH Hf]; [exact E|]; apply ens_failed in Hf as (_ & Q & _); auto).
  unfold ens_predict. rewrite E'. reflexivity.
Qed.
Print Assumptions C86_ensemble_unfitted.

(** Leave-one-out values: one row per training sample, never empty. *)
Definition loo_rows {F SC P M} (K : sklearn F SC P M) : Prop := forall p Z y c, ridge_trained K p Z y c ->
  zlen (k_cv K (snd c)) = zlen y /\ forall row, In row (k_cv K (snd c)) -> row <> [].

(** A fitted ensemble (a_w a number) whose later fits all failed still predicts exactly as before. *)
Theorem C86_ensemble_failed_refit : forall F (N : NumOps F) S (rng : Rng F S) RS (V : pyenv RS) SC P M (K : sklearn F SC P M) ex sched X y e h e1 h' e2 Z w,
  loo_rows K -> as_F N (en_a_w e) = Ok w -> ens_fit N rng V K ex sched X y e h = (Ok tt, e1, h') -> failed_ens N rng V K e1 e2 -> ens_predict N K e2 Z = ens_predict N K e1 Z.
Proof.
  intros F N S rng RS V SC P M K ex sched X y e h e1 h' e2 Z w HK A H HF.
  assert (A1 : en_a_w e1 = en_a_w e).
  { unfold ens_fit in H. destruct (manage_n_jobs V e) as [[k|] e3] eqn:EM; [|discriminate]. destruct (set_num_threads V k); [|discriminate].
    destruct (run_members N rng V K ex e3 X y sched h) as [r h1]. destruct (bind r _) as [models|]; [|discriminate]. destruct (ens_weights N K e3 y models) as [ws|]; [|discriminate].
    injection H as <- _. cbn [en_a_w]. unfold manage_n_jobs in EM. destruct (check_n_jobs (v_cpus V) (en_n_jobs e)) as [t|]; [|discriminate].
    destruct (Z.min (zlen (en_trans e)) t =? 0); [discriminate|]. injection EM as _ <-. reflexivity. }
  rewrite <- A1 in A. clear A1 H. assert (E : en_fitted e2 = en_fitted e1 /\ en_a_w e2 = en_a_w e1).
  { induction HF as [|e1 e2 e3 ex' sched' X' y' h1 er h2 _ IH Hf]; [auto|]. destruct (IH A) as [I1 I2]. apply ens_failed in Hf as (B1 & _ & [B2|(m & er' & (p & Z' & Hr) & B2)]); [split; congruence|].
    exfalso. rewrite I2, A in B2. destruct (HK p Z' y' _ (iridge_ok _ _ _ _ _ Hr)) as [L1 L2]. unfold loocv_acc in B2.
    assert (Q : exists cls, mapM (loocv_class N) (k_cv K (snd (m_ridge m))) = Ok cls).
    { clear - L2. induction (k_cv K (snd (m_ridge m))) as [|row t IH]; [exists []; reflexivity|]. destruct IH as (cls & IH); [intros r Hr; apply L2; right; exact Hr|].
      assert (R : exists c, loocv_class N row = Ok c) by (pose proof (L2 row (or_introl eq_refl)); destruct row as [|x [|x' r]]; [congruence| |]; eexists; reflexivity).
      destruct R as (c & R). exists (c :: cls). cbn [mapM]. rewrite R, IH. reflexivity. }
    destruct Q as (cls & Q). rewrite Q in B2. cbn [bind] in B2. apply mapM_length in Q. unfold accuracy in B2.
    assert (EL : (zlen cls =? zlen y') = true) by (apply Z.eqb_eq; unfold zlen in *; lia). rewrite EL in B2. discriminate B2. }
  destruct E as [E _]. unfold ens_predict. rewrite E. reflexivity.
Qed.
Print Assumptions C86_ensemble_failed_refit.

(** ** Concrete cases *)

(** a fit on an array of shape (2, 4) (one dimension missing) raises ValueError: the new object is still not fitted, the fitted
    one keeps its shapelets; the same for an ensemble of two members *)
Example C86_case : exists s0 h0 s1 h1 s2 h2 s3 h3 T,
  init ZN zenv (zargs (VInt 3)) [0] = (Ok s0, h0) /\ fit ZN zrng zenv in_order zbad [5; 7] s0 h0 = (Err ValueError, s1, h1) /\ transform ZN s1 zX1 = Err NotFittedError /\
  fit ZN zrng zenv in_order zX1 [5; 7] s1 h1 = (Ok tt, s2, h2) /\ fit ZN zrng zenv in_order zbad [5; 7] s2 h2 = (Err ValueError, s3, h3) /\ transform ZN s2 zX1 = Ok T /\ transform ZN s3 zX1 = Ok T.
Proof. do 9 eexists. repeat (split; [vm_compute; reflexivity|]). vm_compute. reflexivity. Qed.

Example C86_ensemble_case : exists e0 h0 e1 h1 e2 h2 e3 h3 p, loo_rows zsk /\
  zens (VInt 0) [0] = (Ok e0, h0) /\ ens_fit ZN zrng zenv zsk in_order [0; 1] zbad [0; 1] e0 h0 = (Err ValueError, e1, h1) /\ ens_predict ZN zsk e1 zX1 = Err NotFittedError /\
  ens_fit ZN zrng zenv zsk in_order [0; 1] zX1 [0; 1] e1 h1 = (Ok tt, e2, h2) /\ ens_fit ZN zrng zenv zsk in_order [0; 1] zbad [0; 1] e2 h2 = (Err ValueError, e3, h3) /\
  ens_predict ZN zsk e2 zX1 = Ok p /\ ens_predict ZN zsk e3 zX1 = Ok p.
Proof.
  do 9 eexists. split; [|repeat (split; [vm_compute; reflexivity|]); vm_compute; reflexivity].
  intros p Z y [sc c] (Q & _ & _ & H). cbn in H. injection H as <-. cbn. split; [apply zlen_map|]. intros row Hr. apply in_map_iff in Hr as (l & <- & _). discriminate.
Qed.
