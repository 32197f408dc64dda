(** What a failed fit of R_DST leaves in the object (Estimator.v); used by PropsUnfitted.v. *)
From Coq Require Import String ZArith List Bool Lia.
From Verif Require Import Prelude Num Kernel Parallel Apply Gen Checks Estimator EstimatorLaws.
Import ListNotations.
Open Scope Z_scope.

Section KEEP.
Context {F : Type} (N : NumOps F) {S RS : Type} (rng : Rng F S) (V : pyenv RS).

(** nothing that transform reads has changed, except that a transform_type "auto" may have been replaced *)
Definition keep (s s' : @est F) : Prop := e_shapelets s' = e_shapelets s /\ e_phase s' = e_phase s /\
  forall k, e_type s = TKind k -> e_type s' = TKind k /\ (e_kind s = Some k -> e_kind s' = Some k).
Definition keeps {A} (m : ES (F := F) (RS := RS) A) : Prop := forall s h r s' h', m s h = (r, s', h') -> keep s s'.

Lemma keep_refl s : keep s s.
Proof. split; [reflexivity|]. split; [reflexivity|]. auto. Qed.
Lemma keep_trans s1 s2 s3 : keep s1 s2 -> keep s2 s3 -> keep s1 s3.
Proof.
  intros (A1 & A2 & A3) (B1 & B2 & B3). split; [congruence|]. split; [congruence|]. intros k Hk. destruct (A3 k Hk) as [C1 C2]. destruct (B3 k C1) as [D1 D2]. auto.
Qed.
Lemma keeps_ret {A} (a : A) : keeps (retE a).
Proof. intros s h r s' h' H. injection H as <- <- <-. apply keep_refl. Qed.
Lemma keeps_lift {A} (m : res A) : keeps (liftE m).
Proof. intros s h r s' h' H. injection H as <- <- <-. apply keep_refl. Qed.
Lemma keeps_self : keeps (@self F RS).
Proof. intros s h r s' h' H. injection H as <- <- <-. apply keep_refl. Qed.
Lemma keeps_bind {A B} (m : ES (F := F) (RS := RS) A) (f : A -> ES B) : keeps m -> (forall a, keeps (f a)) -> keeps (bindE m f).
Proof.
  intros Hm Hf s h r s' h' H. unfold bindE in H. destruct (m s h) as [[[a|e] s1] h1] eqn:E; [|injection H as <- <- <-; eapply Hm; exact E].
  eapply keep_trans; [eapply Hm; exact E|eapply Hf; exact H].
Qed.
Lemma keeps_put f : (forall s, keep s (f s)) -> keeps (@put F RS f).
Proof. intros Hf s h r s' h' H. injection H as <- <- <-. apply Hf. Qed.
Lemma keeps_draw : keeps (draw_seed V).
Proof.
  intros s h r s' h' H. unfold draw_seed in H. destruct (get h (e_rs s)) as [g|e]; [|injection H as <- <- <-; apply keep_refl]. destruct (v_randint V g) as [z g'].
  destruct (set h (e_rs s) g'); injection H as <- <- <-; apply keep_refl.
Qed.
Lemma keeps_resample n r k y : keeps (call_resample V n r k y).
Proof.
  intros s h q s' h' H. unfold call_resample in H. destruct h as [|g t]; [injection H as <- <- <-; apply keep_refl|]. destruct (v_resample V g n r k y) as [u g'].
  injection H as <- <- <-. apply keep_refl.
Qed.
Lemma keeps_type X : keeps (set_fit_transform (RS := RS) N X).
Proof.
  intros s h r s' h' H. unfold set_fit_transform, bindE, self, liftE, put, retE in H. destruct (e_type s) as [|k|] eqn:E.
  - destruct (auto_class N X) as [ty|e]; [|injection H as <- <- <-; apply keep_refl]. 
    destruct ty; injection H as <- <- <-; (split; [reflexivity|]; split; [reflexivity|]; intros k' Hk; congruence).
  - injection H as <- <- <-. split; [reflexivity|]. split; [reflexivity|]. intros k' Hk. assert (k' = k) by congruence. subst k'. cbn. auto.
  - injection H as <- <- <-. apply keep_refl.
Qed.
Ltac kp := first [apply keeps_ret|apply keeps_lift|apply keeps_self|apply keeps_draw|apply keeps_resample|apply keeps_type
  |apply keeps_put; intros ?; (split; [reflexivity|]; split; [reflexivity|]; auto)|apply keeps_bind; [|intros ?]].
Lemma keeps_read k X : keeps (read_X (RS := RS) N k X).
Proof.
  unfold read_X. destruct (kind_vl k).
  - kp; [kp|]. destruct a as [[D sh] lens]. kp; [kp|]. kp; [kp|]. kp; [|kp]. destruct (e_min_len a0); [kp|]. kp; [kp|kp].
  - kp; [kp|]. kp; [kp|]. kp; [kp|kp].
Qed.
Lemma keeps_sub X y n : keeps (subsample N V X y n).
Proof.
  unfold subsample. kp; [kp|]. assert (K : forall v, keeps (bindE (liftE (as_F N v)) (fun r => 
      let selection replace :=
        bindE (liftE (sample_count N n v)) (fun k => bindE (call_resample V n replace k y) (fun ids =>
        bindE (liftE (mapM (get X) ids)) (fun X' => bindE (liftE (mapM (get y) ids)) (fun y' => retE (X', y'))))) in
      if nltb N r (n1 N) then selection false else if nltb N (n1 N) r then selection true else retE (X, y)))).
  { intros v. kp; [kp|]. cbv zeta. destruct (nltb N a0 (n1 N)); [repeat kp|]. destruct (nltb N (n1 N) a0); repeat kp. }
  destruct (e_n_samples a); try apply K. kp.
Qed.
Lemma keeps_prepare X y : keeps (prepare N V X y).
Proof.
  unfold prepare. kp; [kp|]. kp; [kp|]. kp; [destruct (e_type a0); kp|]. kp; [apply keeps_read|]. destruct a2 as [[D sh] lens]. kp; [apply keeps_sub|]. destruct a2 as [D' y'].
  kp; [kp|]. kp; [destruct (e_max_channels a2); kp|]. repeat kp.
Qed.
Lemma keeps_failed ex X y s h e s' h' : fit N rng V ex X y s h = (Err e, s', h') -> keep s s'.
Proof.
  intros H. unfold fit in H. unfold bindE in H at 1. destruct (prepare N V X y s h) as [[[q|e1] s1] h1] eqn:E; [|injection H as <- <- <-; eapply keeps_prepare; exact E].
  unfold bindE, liftE, put in H. destruct (run_fitter N rng ex q); [discriminate H|]. injection H as <- <- <-. eapply keeps_prepare. exact E.
Qed.
End KEEP.
