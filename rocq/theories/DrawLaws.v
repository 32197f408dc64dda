(** The parameters of the shapelets as functions of the random numbers consumed, over the exact reals. *)
From Coq Require Import ZArith Znumtheory List Bool Reals Lra Lia Permutation.
From Verif Require Import Prelude Num Kernel Spec KernelProofs RealBase PrimeProofs ChoiceProofs Gen GenSched GenBase GenUni GenDraw.
Import ListNotations.
Open Scope Z_scope.

Section Ints.
Context {F S : Type} (rng : Rng F S).

(** the first [m] integers drawn below [b] from state [s], and the state after them *)
Fixpoint ints (b : Z) (m : nat) (s : S) : list Z * S :=
  match m with
  | O => ([], s)
  | Datatypes.S m' => let '(j, s1) := r_int rng b s in let '(js, s2) := ints b m' s1 in (j :: js, s2)
  end.

Lemma ints_length b m s : length (fst (ints b m s)) = m.
Proof. revert s. induction m as [|m IH]; intros s; cbn [ints]; [reflexivity|]. destruct (r_int rng b s) as [j s1]. specialize (IH s1). destruct (ints b m s1). cbn [fst length] in *. lia. Qed.

Lemma draws_length m s : length (fst (draws rng m s)) = m.
Proof. revert s. induction m as [|m IH]; intros s; cbn [draws]; [reflexivity|]. destruct (r_unif rng s) as [j s1]. specialize (IH s1). destruct (draws rng m s1). cbn [fst length] in *. lia. Qed.

Lemma ints_range N (L : RngLaws N rng) b m s : 0 < b -> Forall (fun j => 0 <= j < b) (fst (ints b m s)).
Proof.
  intros Hb. revert s. induction m as [|m IH]; intros s; cbn [ints]; [constructor|]. pose proof (rl_int L b s Hb) as H. destruct (r_int rng b s) as [j s1].
  specialize (IH s1). destruct (ints b m s1). cbn [fst] in *. constructor; assumption.
Qed.

(** [choice(l, size=n)] takes the elements at the drawn places *)
Lemma choice_n_ints N (L : RngLaws N rng) {A} (l : list A) n s ys s' : choice_n rng l n s = Ok (ys, s') ->
  0 <= n /\ 0 < zlen l /\ s' = snd (ints (zlen l) (Z.to_nat n) s) /\ Forall2 (fun j x => nthZ l j = Some x) (fst (ints (zlen l) (Z.to_nat n) s)) ys.
Proof.
  unfold choice_n. intros H. apply bind_liftG in H as ([] & Hg & H). apply guard_ok in Hg. apply andb_true_iff in Hg as [Hl Hn]. apply Z.ltb_lt in Hl. apply Z.leb_le in Hn.
  split; [exact Hn|]. split; [exact Hl|]. replace (Z.to_nat n) with (length (zrange 0 n)) by (rewrite zrange_length; lia). clear Hn.
  revert s ys H. induction (zrange 0 n) as [|z t IH]; intros s ys H; cbn [mapG] in H; cbn [length ints].
  - unfold retG in H. assert (ys = [] /\ s' = s) as [-> ->] by (split; congruence). split; [reflexivity|constructor].
  - apply bindG_inv in H as (y & s1 & H1 & H). apply bindG_inv in H as (yt & s2 & H2 & H). unfold retG in H. assert (ys = y :: yt /\ s' = s2) as [-> ->] by (split; congruence). clear H.
    unfold choice in H1. apply bind_liftG in H1 as ([] & _ & H1). apply bindG_inv in H1 as (j & s3 & H3 & H1). unfold draw_int in H3.
    assert (Ej : r_int rng (zlen l) s = (j, s3)) by congruence. clear H3. apply liftG_inv in H1 as [H1 ->]. rewrite Ej.
    pose proof (rl_int L (zlen l) s Hl) as Hj. rewrite Ej in Hj. cbn [fst] in Hj. apply get_nthZ in H1; [|lia].
    destruct (IH s3 yt H2) as [A1 A2]. destruct (ints (zlen l) (length t) s3) as [js s4]. cbn [fst snd] in *. split; [exact A1|]. constructor; assumption.
Qed.

Lemma draw_norm_draws N n p s nm s' : draw_norm N rng n p s = Ok (nm, s') ->
  s' = snd (draws rng (Z.to_nat n) s) /\ Forall2 (fun u b => b = nltb N u p) (fst (draws rng (Z.to_nat n) s)) nm.
Proof.
  unfold draw_norm. intros H. replace (Z.to_nat n) with (length (zrange 0 n)) by (rewrite zrange_length; lia).
  revert s nm H. induction (zrange 0 n) as [|z t IH]; intros s nm H; cbn [mapG] in H; cbn [length draws].
  - unfold retG in H. assert (nm = [] /\ s' = s) as [-> ->] by (split; congruence). split; [reflexivity|constructor].
  - apply bindG_inv in H as (y & s1 & H1 & H). apply bindG_inv in H as (yt & s2 & H2 & H). unfold retG in H. assert (nm = y :: yt /\ s' = s2) as [-> ->] by (split; congruence). clear H.
    apply bindG_inv in H1 as (u & s3 & H3 & H1). unfold draw_unif in H3. assert (Eu : r_unif rng s = (u, s3)) by congruence. rewrite Eu. unfold retG in H1.
    assert (y = nltb N u p /\ s1 = s3) as [-> ->] by (split; congruence).
    destruct (IH s3 yt H2) as [A1 A2]. destruct (draws rng (length t) s3) as [js s4]. cbn [fst snd] in *. split; [exact A1|]. constructor; [reflexivity|assumption].
Qed.
End Ints.

(** ** The dilation drawn for a length *)

Lemma ln_le_0 k : (1 <= k)%R -> (0 <= ln k)%R.
Proof. intros H. destruct (Rle_lt_or_eq_dec _ _ H) as [H1|<-]; [|rewrite ln_1; lra]. left. rewrite <- ln_1. apply ln_increasing; lra. Qed.

Lemma ln_mono a b : (0 < a)%R -> (a <= b)%R -> (ln a <= ln b)%R.
Proof. intros Ha H. destruct (Rle_lt_or_eq_dec _ _ H) as [H1| ->]; [|lra]. left. apply ln_increasing; lra. Qed.

(** [d] is the dilation obtained from the uniform draw [u] when [k] is the largest that fits *)
Definition dil_of (n_ts l : Z) (u : R) : Z := Rfloor (Rpow2 (0 + (upper_bound RN n_ts l - 0) * u)).

Lemma dil_pow n_ts l u : 2 <= l <= n_ts -> Rpow2 (0 + (upper_bound RN n_ts l - 0) * u) = exp (u * ln (IZR (dmax n_ts l))).
Proof.
  intros H. unfold upper_bound. cbn [nlog2 nofZ RN]. unfold Rpow2, Rlog2, dmax. pose proof ln2_pos. f_equal. field. lra.
Qed.

Lemma Rfloor_eq x z : (IZR z <= x < IZR z + 1)%R -> Rfloor x = z.
Proof.
  intros [H1 H2]. unfold Rfloor. destruct (base_Int_part x) as [B1 B2]. apply Z.le_antisymm.
  - apply Z.lt_succ_r. apply lt_IZR. unfold Z.succ. rewrite plus_IZR. lra.
  - apply Z.lt_succ_r. apply lt_IZR. unfold Z.succ. rewrite plus_IZR. lra.
Qed.

Lemma Rfloor_bounds x : (IZR (Rfloor x) <= x < IZR (Rfloor x) + 1)%R.
Proof. unfold Rfloor. destruct (base_Int_part x) as [B1 B2]. lra. Qed.

Lemma dil_law n_ts l u e : 2 <= l <= n_ts -> 2 <= dmax n_ts l -> 1 <= e ->
  (dil_of n_ts l u = e <-> (ln (IZR e) / ln (IZR (dmax n_ts l)) <= u < ln (IZR (e + 1)) / ln (IZR (dmax n_ts l)))%R).
Proof.
  intros H Hk He. unfold dil_of. rewrite dil_pow by exact H. set (k := IZR (dmax n_ts l)).
  assert (Hlk : (0 < ln k)%R). { rewrite <- ln_1. apply ln_increasing; [lra|]. apply IZR_lt. lia. }
  assert (He0 : (0 < IZR e)%R) by (apply IZR_lt; lia). assert (He1 : (0 < IZR (e + 1))%R) by (apply IZR_lt; lia).
  assert (A : (ln (IZR e) / ln k <= u <-> IZR e <= exp (u * ln k))%R).
  { split; intros Q.
    - rewrite <- (exp_ln (IZR e)) by exact He0. assert (Q' : (ln (IZR e) <= u * ln k)%R). { apply (Rmult_le_compat_r (ln k)) in Q; [|lra]. unfold Rdiv in Q. rewrite Rmult_assoc, Rinv_l, Rmult_1_r in Q by lra. exact Q. }
      destruct (Rle_lt_or_eq_dec _ _ Q') as [Q1|Q1]; [left; apply exp_increasing; exact Q1|rewrite Q1; lra].
    - apply (ln_mono _ _ He0) in Q. rewrite ln_exp in Q. apply (Rmult_le_reg_r (ln k)); [exact Hlk|]. unfold Rdiv. rewrite Rmult_assoc, Rinv_l, Rmult_1_r by lra. exact Q. }
  assert (B : (u < ln (IZR (e + 1)) / ln k <-> exp (u * ln k) < IZR (e + 1))%R).
  { split; intros Q.
    - rewrite <- (exp_ln (IZR (e + 1))) by exact He1. apply exp_increasing. apply (Rmult_lt_compat_r (ln k)) in Q; [|lra]. unfold Rdiv in Q. rewrite Rmult_assoc, Rinv_l, Rmult_1_r in Q by lra. exact Q.
    - apply ln_increasing in Q; [|apply exp_pos]. rewrite ln_exp in Q. apply (Rmult_lt_reg_r (ln k)); [exact Hlk|]. unfold Rdiv. rewrite Rmult_assoc, Rinv_l, Rmult_1_r by lra. exact Q. }
  split.
  - intros <-. pose proof (Rfloor_bounds (exp (u * ln k))) as [Q1 Q2]. split; [apply A; exact Q1|apply B; rewrite plus_IZR; exact Q2].
  - intros [Q1 Q2]. apply Rfloor_eq. split; [apply A; exact Q1|]. rewrite <- plus_IZR. apply B. exact Q2.
Qed.

(** the largest dilation is never drawn unless it is 1 *)
Lemma dil_below n_ts l u : 2 <= l <= n_ts -> (0 <= u < 1)%R -> dil_of n_ts l u = 1 \/ dil_of n_ts l u < dmax n_ts l.
Proof.
  intros H Hu. pose proof (uniform_dilation n_ts l u H Hu) as [D1 D2]. fold (dil_of n_ts l u) in *. destruct (Z.eq_dec (dmax n_ts l) 1) as [E|E]; [left; lia|].
  right. pose proof (dmax_pos n_ts l H). assert (Hk : 2 <= dmax n_ts l) by lia. destruct (Z.eq_dec (dil_of n_ts l u) (dmax n_ts l)) as [Q|Q]; [|lia]. exfalso.
  apply dil_law in Q; [|assumption|assumption|lia]. destruct Q as [Q _]. unfold Rdiv in Q. rewrite Rinv_r in Q; [lra|].
  apply Rgt_not_eq. rewrite <- ln_1. apply ln_increasing; [lra|]. apply IZR_lt. lia.
Qed.

Lemma draw_dilations_draws {S} (rng : Rng R S) n n_ts lengths s dils s' : draw_dilations RN rng n n_ts lengths false s = Ok (dils, s') ->
  s' = snd (draws rng (length lengths) s) /\ Forall2 (fun lu d => d = dil_of n_ts (fst lu) (snd lu)) (combine lengths (fst (draws rng (length lengths) s))) dils.
Proof.
  unfold draw_dilations. intros H. revert s dils H. induction lengths as [|l t IH]; intros s dils H; cbn [map mapG] in H; cbn [length draws].
  - unfold retG in H. assert (dils = [] /\ s' = s) as [-> ->] by (split; congruence). split; [reflexivity|constructor].
  - apply bindG_inv in H as (y & s1 & H1 & H). apply bindG_inv in H as (yt & s2 & H2 & H). unfold retG in H. assert (dils = y :: yt /\ s' = s2) as [-> ->] by (split; congruence). clear H.
    apply bindG_inv in H1 as (u & s3 & H3 & H1). unfold uniform in H3. apply bindG_inv in H3 as (u0 & s4 & H4 & H3). unfold draw_unif in H4. assert (Eu : r_unif rng s = (u0, s4)) by congruence. rewrite Eu.
    unfold retG in H1, H3. assert (E1 : y = nfloor RN (npow2 RN u) /\ s1 = s3) by (split; congruence). destruct E1 as [-> ->].
    assert (E2 : u = nadd RN (n0 RN) (nmul RN (nsub RN (upper_bound RN n_ts l) (n0 RN)) u0) /\ s3 = s4) by (split; congruence). destruct E2 as [-> ->].
    destruct (IH s4 yt H2) as [A1 A2]. destruct (draws rng (length t) s4) as [js s5]. cbn [fst snd] in *. split; [exact A1|]. cbn [combine]. constructor; [reflexivity|assumption].
Qed.
