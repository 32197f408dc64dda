(** Lemmas about the vote of R_DST_Ensemble, over the reals. *)
From Coq Require Import ZArith List Bool Lia Reals Lra.
From Verif Require Import Prelude Num Kernel RealBase RealProofs Parallel Apply ApplyProofs Gen Checks Estimator EstimatorNum Preproc NumbaUtilsProofs Classifiers.
Import ListNotations.
Open Scope Z_scope.

(** ** numpy's argmax *)
Section ARGMAX.
Context {F : Type} (N : NumOps F) (ok : F -> Prop) (L : OrderLaws N ok).

Definition first_max (l : list F) (c : Z) : Prop :=
  exists m, nthZ l c = Some m /\ forall j x, nthZ l j = Some x -> nltb N m x = false /\ (j < c -> nltb N x m = true).

Lemma argmax_from_spec : forall l pre best bv, Forall ok (pre ++ l) -> first_max pre best -> nthZ pre best = Some bv ->
  first_max (pre ++ l) (argmax_from N l (zlen pre) best bv).
Proof.
  induction l as [|v t IH]; intros pre best bv HO HB Hb; [rewrite app_nil_r; exact HB|]. cbn [argmax_from].
  assert (E1 : zlen pre + 1 = zlen (pre ++ [v])) by (rewrite zlen_app; reflexivity).
  assert (E2 : pre ++ v :: t = (pre ++ [v]) ++ t) by (rewrite <- app_assoc; reflexivity).
  rewrite E1, E2 in *. pose proof (zlen_nonneg pre) as Hp.
  assert (Hl : nthZ (pre ++ [v]) (zlen pre) = Some v).
  { unfold nthZ, zlen. destruct (Z.ltb_spec (Z.of_nat (length pre)) 0); [lia|]. rewrite Nat2Z.id, nth_error_app2 by lia. rewrite Nat.sub_diag. reflexivity. }
  assert (Hc : forall j x, nthZ (pre ++ [v]) j = Some x -> (j = zlen pre /\ x = v) \/ (0 <= j < zlen pre /\ nthZ pre j = Some x)).
  { intros j x Hj. pose proof (nthZ_range _ _ _ Hj) as R. rewrite zlen_app in R. change (zlen [v]) with 1 in R.
    destruct (Z.eq_dec j (zlen pre)) as [->|]; [left; split; [reflexivity|congruence]|right; split; [lia|]].
    unfold nthZ in *. destruct (j <? 0); [discriminate|]. rewrite nth_error_app1 in Hj by (unfold zlen in *; lia). exact Hj. }
  assert (Hpre : forall j x, nthZ pre j = Some x -> nthZ (pre ++ [v]) j = Some x).
  { intros j x Hj. pose proof (nthZ_range _ _ _ Hj) as R. unfold nthZ in *. destruct (j <? 0); [discriminate|]. rewrite nth_error_app1 by (unfold zlen in *; lia). exact Hj. }
  assert (okv : forall x, In x pre \/ x = v -> ok x).
  { rewrite Forall_forall in HO. intros x [H| ->]; apply HO; rewrite !in_app_iff; [tauto|left; right; left; reflexivity]. }
  destruct HB as (m & Em & HB). assert (m = bv) by congruence. subst m.
  assert (okb : ok bv) by (apply okv; left; eapply nthZ_In; exact Hb).
  assert (okV : ok v) by (apply okv; auto).
  destruct (nltb N bv v) eqn:Elt; apply IH; auto.
  - exists v. split; [exact Hl|]. intros j x Hj. destruct (Hc j x Hj) as [(-> & ->)|(R & Hx)].
    + split; [apply (or_irrefl _ _ L); exact okV|lia].
    + assert (okx : ok x) by (apply okv; left; eapply nthZ_In; exact Hx). destruct (HB j x Hx) as (B1 & _).
      assert (C : nltb N x v = true) by (destruct (or_split _ _ L bv x v okb okx okV Elt); congruence).
      split; [|auto]. destruct (nltb N v x) eqn:Ev; [|reflexivity].
      pose proof (or_trans _ _ L v x v okV okx okV Ev C) as T. rewrite (or_irrefl _ _ L v okV) in T. discriminate.
  - exists bv. split; [apply Hpre; exact Em|]. intros j x Hj. destruct (Hc j x Hj) as [(-> & ->)|(R & Hx)].
    + split; [exact Elt|]. intros Hlt. apply nthZ_range in Em. lia.
    + apply HB; exact Hx.
Qed.

Lemma argmax_spec l : l <> [] -> Forall ok l -> exists c, argmax N l = Ok c /\ first_max l c.
Proof.
  destruct l as [|v t]; [contradiction|]. intros _ HO. eexists. split; [reflexivity|]. apply (argmax_from_spec t [v] 0 v); [exact HO| |reflexivity].
  exists v. split; [reflexivity|]. intros j x Hj. pose proof (nthZ_range _ _ _ Hj) as R. change (zlen [v]) with 1 in R. assert (j = 0) by lia. subst j.
  injection Hj as <-. split; [|lia]. apply (or_irrefl _ _ L). inversion HO; assumption.
Qed.

Lemma first_max_unique l c c' : first_max l c -> first_max l c' -> c = c'.
Proof.
  intros (m & E & H) (m' & E' & H'). destruct (H _ _ E') as (A1 & A2). destruct (H' _ _ E) as (B1 & B2).
  destruct (Z.lt_trichotomy c c') as [Hlt|[?|Hlt]]; [|assumption|].
  - apply B2 in Hlt. congruence.
  - apply A2 in Hlt. congruence.
Qed.
End ARGMAX.

(** ** softmax *)
Section VOTE.
Context {SC P M : Type} (K : sklearn R SC P M) (Hexp : forall x, k_exp K x = exp x).

Lemma exp_sum_pos row : row <> [] -> (0 < rsum (map exp row))%R.
Proof.
  intros H. apply rsum_pos; [destruct row; [contradiction|discriminate]|]. intros x Hx. apply in_map_iff in Hx as (z & <- & _). apply exp_pos.
Qed.

Lemma softmax_R row : row <> [] -> softmax RN K row = Ok (map (fun x => exp x / rsum (map exp row))%R row).
Proof.
  intros Hn. destruct row as [|v t]; [contradiction|]. unfold softmax. set (m := fold_left _ t v). set (row := v :: t) in *. f_equal.
  rewrite map_map. rewrite nsum_rsum. apply map_ext. intros x. cbn [ndiv RN nsub].
  assert (E : rsum (map (fun x0 : R => k_exp K (x0 - m)%R) row) = (exp (- m) * rsum (map exp row))%R).
  { rewrite <- rsum_map_scal. apply rsum_map_ext. intros z _. rewrite Hexp. unfold Rminus. rewrite exp_plus. lra. }
  change (nsub RN) with Rminus. rewrite E, Hexp. unfold Rminus at 1. rewrite exp_plus.
  pose proof (exp_pos (- m)) as H1. pose proof (exp_sum_pos row Hn) as H2. field. split; lra.
Qed.

(** ** matrices *)
Definition is_mat (n k : Z) (A : list (list R)) (a : Z -> Z -> R) : Prop :=
  zlen A = n /\ forall i row, nthZ A i = Some row -> zlen row = k /\ forall c x, nthZ row c = Some x -> x = a i c.

Lemma add_rows_R k a b f g : zlen a = k -> zlen b = k -> (forall c x, nthZ a c = Some x -> x = f c) -> (forall c x, nthZ b c = Some x -> x = g c) ->
  exists r, add_rows RN a b = Ok r /\ zlen r = k /\ forall c x, nthZ r c = Some x -> x = (f c + g c)%R.
Proof.
  intros Ha Hb Hf Hg. unfold add_rows. rewrite Ha, Hb, Z.eqb_refl. cbn [guard bind]. eexists. split; [reflexivity|]. split.
  - rewrite zlen_map, zlen_combine; congruence.
  - intros c x Hx. rewrite nthZ_map, nthZ_combine in Hx. destruct (nthZ a c) as [u|] eqn:Eu; [|discriminate]. destruct (nthZ b c) as [v|] eqn:Ev; [|discriminate].
    injection Hx as <-. cbn [fst snd nadd RN]. rewrite (Hf _ _ Eu), (Hg _ _ Ev). reflexivity.
Qed.

Lemma add_mats_R n k A B a b : is_mat n k A a -> is_mat n k B b -> exists C, add_mats RN A B = Ok C /\ is_mat n k C (fun i c => a i c + b i c)%R.
Proof.
  intros (HA & HA') (HB & HB'). unfold add_mats. rewrite HA, HB, Z.eqb_refl. cbn [guard bind].
  destruct (mapM_indexed (fun p => add_rows RN (fst p) (snd p)) (combine A B)
    (fun i r => zlen r = k /\ forall c x, nthZ r c = Some x -> x = (a i c + b i c)%R)) as (C & E & HL & HC).
  - intros i [ra rb] Hi. rewrite nthZ_combine in Hi. destruct (nthZ A i) as [ra'|] eqn:Ea; [|discriminate]. destruct (nthZ B i) as [rb'|] eqn:Eb; [|discriminate].
    injection Hi as -> ->. destruct (HA' _ _ Ea) as (L1 & F1). destruct (HB' _ _ Eb) as (L2 & F2). cbn [fst snd]. apply add_rows_R; assumption.
  - exists C. split; [exact E|]. split; [rewrite HL, zlen_combine; congruence|]. intros i row Hi. exact (HC i row Hi).
Qed.

Lemma fold_mats_R n k : forall As fs A a, is_mat n k A a -> Forall2 (is_mat n k) As fs ->
  exists C, foldM (add_mats RN) As A = Ok C /\ is_mat n k C (fun i c => a i c + rsum (map (fun f => f i c) fs))%R.
Proof.
  intros As fs A a HA HF. revert A a HA. induction HF as [|B b As fs HB HF IH]; intros A a HA; cbn [foldM].
  - exists A. split; [reflexivity|]. destruct HA as (H1 & H2). split; [exact H1|]. intros i row Hr. destruct (H2 _ _ Hr) as (H3 & H4). split; [exact H3|].
    intros c x Hx. cbn [map rsum]. rewrite (H4 _ _ Hx). lra.
  - destruct (add_mats_R _ _ _ _ _ _ HA HB) as (A1 & E1 & HA1). rewrite E1. cbn [bind].
    destruct (IH _ _ HA1) as (C & EC & H1 & H2). exists C. split; [exact EC|]. split; [exact H1|].
    intros i row Hr. destruct (H2 _ _ Hr) as (H3 & H4). split; [exact H3|]. intros c x Hx. cbn [map rsum]. rewrite (H4 _ _ Hx). lra.
Qed.
End VOTE.
