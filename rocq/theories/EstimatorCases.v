(** Concrete estimators and data for the properties of R_DST, and facts on successive fits. *)
From Coq Require Import String ZArith List Bool Lia.
From Verif Require Import Prelude Num Kernel Parallel Apply Gen Checks ChecksProofs Estimator EstimatorProofs EstimatorLaws EstimatorNum.
Import ListNotations.
Open Scope Z_scope.

Section P.
Context {F : Type} (N : NumOps F) {S : Type} (rng : Rng F S) {RS : Type} (V : pyenv RS).
Notation est := (@est F). Notation heap := (@heap RS). Notation ES := (@ES F RS).

(** ** After a fit *)

Lemma fit_state ex X y s h q s1 h1 r s' h' : prepare N V X y s h = (Ok q, s1, h1) -> fit N rng V ex X y s h = (r, s', h') ->
  h' = h1 /\ (s' = s1 \/ exists f, s' = set_shapelets f s1).
Proof.
  intros E. unfold fit, bindE, liftE, put. rewrite E. destruct (run_fitter N rng ex q) as [f|e]; intros H; injection H as <- <- <-; eauto.
Qed.

Lemma alike_refl (s : est) : alike s s.
Proof. unfold alike. split; [apply same_params_refl|]. auto 10. Qed.
Lemma alike_shapelets (s : est) f : alike s (set_shapelets f s).
Proof. unfold alike, same_params. cbn. auto 20. Qed.

(** the request of a fit following a fit *)
Lemma fit_then_prepare ex X y s h q s1 h1 r s' h' X2 y2 q2 s2 h2 :
  prepare N V X y s h = (Ok q, s1, h1) -> fit N rng V ex X y s h = (r, s', h') ->
  prepare N V X2 y2 s1 h1 = (Ok q2, s2, h2) -> exists s2', prepare N V X2 y2 s' h' = (Ok q2, s2', h2).
Proof.
  intros E1 E2 E3. destruct (fit_state _ _ _ _ _ _ _ _ _ _ _ E1 E2) as (-> & Hs).
  assert (A : alike s1 s') by (destruct Hs as [->|(f & ->)]; [apply alike_refl|apply alike_shapelets]).
  destruct (prepare N V X2 y2 s' h1) as [[r2 s2'] h2'] eqn:E4.
  destruct (same_prepare N V X2 y2 _ _ _ _ _ _ _ _ _ A E3 E4) as (-> & -> & _). eauto.
Qed.

(** ** normalize_output *)

Section Normout.
Context (b : bool).
Notation no := (set_normout b).
Definition mapS {A} (p : res A * est * heap) : res A * est * heap := let '(r, s, h) := p in (r, no s, h).
Definition commutes {A} (m : ES A) : Prop := forall s h, m (no s) h = mapS (m s h).

Lemma commutes_lift {A} (m : res A) : commutes (liftE m).
Proof. intros s h. reflexivity. Qed.
Lemma commutes_ret {A} (a : A) : commutes (retE a).
Proof. intros s h. reflexivity. Qed.
Lemma commutes_bind {A B} (m : ES A) (f : A -> ES B) : commutes m -> (forall a, commutes (f a)) -> commutes (bindE m f).
Proof.
  intros Hm Hf s h. unfold bindE. rewrite Hm. destruct (m s h) as [[[a|e] s1] h1]; cbn [mapS]; [apply Hf|reflexivity].
Qed.
Lemma commutes_self {B} (f : est -> ES B) : (forall s, f (no s) = f s) -> (forall s, commutes (f s)) -> commutes (bindE self f).
Proof. intros H1 H2 s h. unfold bindE, self. rewrite H1. apply H2. Qed.
Lemma commutes_put g : (forall s, g (no s) = no (g s)) -> commutes (put g).
Proof. intros H s h. unfold put. rewrite H. reflexivity. Qed.

Lemma commutes_set_fit_transform X : commutes (set_fit_transform N X).
Proof.
  unfold set_fit_transform. apply commutes_self; [reflexivity|]. intros s. apply commutes_bind.
  - destruct (e_type s); [|apply commutes_ret..]. apply commutes_bind; [apply commutes_lift|intros ty].
    apply commutes_bind; [apply commutes_put; reflexivity|intros _; apply commutes_ret].
  - intros [|k|]; [apply commutes_lift|apply commutes_put; reflexivity|apply commutes_lift].
Qed.

Lemma commutes_read_X k X : commutes (read_X N k X).
Proof.
  unfold read_X. destruct (kind_vl k).
  - apply commutes_bind; [apply commutes_lift|intros [[D sh] lens]]. apply commutes_bind; [apply commutes_lift|intros _].
    apply commutes_self; [reflexivity|intros s]. apply commutes_bind; [|intros _; apply commutes_ret].
    destruct (e_min_len s); [apply commutes_ret|]. apply commutes_bind; [apply commutes_lift|intros m; apply commutes_put; reflexivity].
  - apply commutes_bind; [apply commutes_lift|intros A]. apply commutes_bind; [apply commutes_lift|intros D].
    apply commutes_bind; [apply commutes_put; reflexivity|intros _; apply commutes_ret].
Qed.

Lemma commutes_resample n r k y : commutes (call_resample V n r k y).
Proof. intros s h. unfold call_resample. destruct h as [|g t]; [reflexivity|]. destruct (v_resample V g n r k y). reflexivity. Qed.

Lemma commutes_subsample D y n : commutes (subsample N V D y n).
Proof.
  unfold subsample. apply commutes_self; [reflexivity|intros s].
  assert (W : forall v r, commutes (bindE (liftE (sample_count N n v)) (fun k => bindE (call_resample V n r k y) (fun ids =>
       bindE (liftE (mapM (get D) ids)) (fun X' => bindE (liftE (mapM (get y) ids)) (fun y' => retE (X', y'))))))).
  { intros v r. apply commutes_bind; [apply commutes_lift|intros k]. apply commutes_bind; [apply commutes_resample|intros ids].
    apply commutes_bind; [apply commutes_lift|intros X']. apply commutes_bind; [apply commutes_lift|intros y']. apply commutes_ret. }
  destruct (e_n_samples s); try (apply commutes_bind; [apply commutes_lift|intros r];
    destruct (nltb N r (n1 N)); [apply W|]; destruct (nltb N (n1 N) r); [apply W|apply commutes_ret]).
  apply commutes_ret.
Qed.

Lemma commutes_draw_seed : commutes (draw_seed V).
Proof.
  intros s h. unfold draw_seed. cbn [e_rs set_normout]. destruct (get h (e_rs s)) as [g|e]; [|reflexivity].
  destruct (v_randint V g) as [z g']. destruct (set h (e_rs s) g'); reflexivity.
Qed.

Lemma commutes_prepare X y : commutes (prepare N V X y).
Proof.
  unfold prepare. apply commutes_bind; [apply commutes_set_fit_transform|intros _].
  apply commutes_self; [reflexivity|intros s]. apply commutes_bind; [destruct (e_type s); apply commutes_ret || apply commutes_lift|intros k].
  apply commutes_bind; [apply commutes_read_X|intros [[D sh] lens]]. apply commutes_bind; [apply commutes_subsample|intros [D' y']].
  apply commutes_self; [reflexivity|intros s1]. apply commutes_bind.
  { destruct (e_max_channels s1); [apply commutes_ret|apply commutes_put; reflexivity]. }
  intros _. apply commutes_self; [reflexivity|intros s2]. apply commutes_bind; [apply commutes_lift|intros ls].
  apply commutes_bind; [apply commutes_put; reflexivity|intros _]. apply commutes_bind; [apply commutes_lift|intros sizes].
  apply commutes_bind; [apply commutes_draw_seed|intros seed]. apply commutes_self; [reflexivity|intros s3].
  apply commutes_bind; [apply commutes_lift|intros pc]. apply commutes_bind; [apply commutes_lift|intros al].
  apply commutes_bind; [apply commutes_lift|intros pn]. apply commutes_ret.
Qed.

Lemma commutes_fit ex X y : commutes (fit N rng V ex X y).
Proof.
  unfold fit. apply commutes_bind; [apply commutes_prepare|intros q]. apply commutes_bind; [apply commutes_lift|intros f].
  apply commutes_put. reflexivity.
Qed.
End Normout.

(** ** Transform after a fit *)

Lemma transform_ext (s1 s2 : est) X : e_type s2 = e_type s1 -> e_kind s2 = e_kind s1 -> e_phase s2 = e_phase s1 ->
  e_shapelets s2 = e_shapelets s1 -> transform N s2 X = transform N s1 X.
Proof. intros E1 E2 E3 E4. unfold transform. rewrite E1, E2, E3, E4. reflexivity. Qed.

Lemma fit_success ex X y s h u s' h' : fit N rng V ex X y s h = (Ok u, s', h') ->
  exists k f, e_type s' = TKind k /\ e_kind s' = Some k /\ e_shapelets s' = Some f /\ e_phase s' = e_phase s /\
    (e_type s = TKind k \/ e_type s = TAuto /\ auto_class N X = Ok (TKind k)) /\
    match k with KU | KUV => exists r, f = FU r | KM | KMV => exists r, f = FM r end.
Proof.
  intros H. destruct (fit_ok _ _ _ _ _ _ _ _ _ _ _ H) as (q & s1 & f & E1 & E2 & ->).
  destruct (prepare_ok _ _ _ _ _ _ _ _ _ E1) as (k & D & sh & lens & m & ls & D' & y' & sizes & seed & pc & al & pn & HT & _ & _ & _ & _ & _ & _ & _ & _ & _ & Hq & ->).
  exists k, f. cbn. pose proof (run_fitter_kind _ _ _ _ _ E2) as K. rewrite Hq in K. auto 10.
Qed.

(** ** Examples *)

(** R_DST(transform_type, alpha=0, n_samples, n_shapelets=1, shapelet_lengths, ...) *)
Definition caseE (ty : ttype) (n_samples lengths : pyv F) (max_channels min_len : option Z) : est :=
  mkEst ty false (VInt 0) false n_samples 1 lengths None (VInt 0) false (VInt 0) (VArr [2] DInt64 [VInt 5; VInt 10])
    0 (VBool false) max_channels min_len None None.
Definition intcells (l : list Z) : list (pyv F) := map VInt l.
Definition ints (l : list Z) : pyv F := VArr [zlen l] DInt64 (intcells l).
(** univariate and multivariate data, series of 4 points *)
Definition caseX1 : pyv F := VArr [2; 1; 4] DInt64 (intcells [1; 2; 3; 4;  2; 1; 0; 5]).
Definition caseX2 : pyv F := VArr [2; 2; 4] DInt64 (intcells [1; 2; 3; 4;  0; 0; 1; 1;  2; 1; 0; 5;  3; 3; 2; 2]).
Definition caseX3 : pyv F := VArr [2; 3; 4] DInt64 (intcells [1; 2; 3; 4;  0; 0; 1; 1;  5; 5; 6; 6;  2; 1; 0; 5;  3; 3; 2; 2;  1; 2; 1; 2]).
(** lists of series of different lengths *)
Definition caseS (l : list Z) : pyv F := VArr [1; zlen l] DInt64 (intcells l).
Definition caseL1 : pyv F := VList [caseS [1; 2; 3; 4]; caseS [2; 1; 0; 5; 6]].
Definition caseL2 : pyv F := VList [caseS [1; 2; 3; 4; 5; 6]; caseS [2; 1; 0; 5; 6; 7; 8]].
End P.
