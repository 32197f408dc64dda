(** Proofs about choice_log (_commons.py 641-650). *)
From Coq Require Import ZArith List Bool Reals Lra Lia.
From Verif Require Import Prelude Num Kernel Spec KernelProofs RealBase PrimeProofs.
Import ListNotations.
Open Scope Z_scope.

Lemma where_incr bs : incr (where_ bs).
Proof.
  replace bs with (map (fun b : bool => b) bs) by apply map_id.
  rewrite (where_sorted_filter false). apply incr_filter. apply incr_zrange.
Qed.

(** [where(b)[0][0]] is the first true position *)
Lemma where_first bs i : nthZ bs i = Some true ->
  exists k, get (where_ bs) 0 = Ok k /\ 0 <= k <= i /\ nthZ bs k = Some true /\
    forall j, 0 <= j < k -> nthZ bs j = Some false.
Proof.
  intros H. pose proof (where_incr bs) as HI. pose proof (proj2 (in_where bs i) H) as Hin.
  destruct (where_ bs) as [|k t] eqn:E; [destruct Hin|].
  assert (Hk : nthZ bs k = Some true) by (apply in_where; rewrite E; simpl; auto).
  exists k. split; [reflexivity|].
  pose proof (nthZ_range _ _ _ Hk). split; [|split; [exact Hk|]].
  - destruct Hin as [->|Hin]; [lia|]. destruct HI as [HI _]. specialize (HI i Hin). lia.
  - intros j Hj. destruct (nthZ_some bs j) as (b & Hb); [lia|]. destruct b; [|exact Hb].
    assert (C : In j (where_ bs)) by (apply in_where; exact Hb). rewrite E in C.
    destruct C as [C|C]; [lia|]. destruct HI as [HI _]. specialize (HI j C). lia.
Qed.

Section G.
Context {F S : Type} (N : NumOps F) (rng : Rng F S).

(** the first [m] uniform draws from state [s], and the state after them *)
Fixpoint draws (m : nat) (s : S) : list F * S :=
  match m with
  | O => ([], s)
  | Datatypes.S m' => let '(u, s1) := r_unif rng s in let '(us, s2) := draws m' s1 in (u :: us, s2)
  end.

Lemma mapG_draws {B} (f : F -> res B) (Q : F -> B -> Prop) (P : F -> Prop) l s :
  (forall s, P (fst (r_unif rng s))) -> (forall u, P u -> exists b, f u = Ok b /\ Q u b) ->
  exists bs, mapG (fun _ : Z => let! u := draw_unif rng in liftG (f u)) l s = Ok (bs, snd (draws (length l) s)) /\
    Forall2 Q (fst (draws (length l) s)) bs.
Proof.
  intros HP Hf. revert s. induction l as [|x t IH]; intros s; simpl.
  - exists []. split; [reflexivity|constructor].
  - unfold bindG at 1 2. unfold draw_unif at 1. cbn [bind].
    specialize (HP s). destruct (r_unif rng s) as [u s1]. cbn [fst snd] in *.
    destruct (Hf u HP) as (b & Eb & Qb). unfold liftG at 1. rewrite Eb. cbn [bind fst snd].
    destruct (IH s1) as (bs & E & Q2). unfold bindG at 1. rewrite E. cbn [bind fst snd].
    destruct (draws (length t) s1) as [us s2]. cbn [fst snd] in *.
    exists (b :: bs). split; [reflexivity|]. constructor; assumption.
Qed.

Lemma zlen_ncumsum_from (s : F) l : zlen (ncumsum_from N s l) = zlen l.
Proof. revert s. induction l as [|x t IH]; intros s; simpl; [reflexivity|]. rewrite !zlen_cons, IH. reflexivity. Qed.

Lemma zlen_log_cdf n : 0 <= n -> zlen (log_cdf N n) = n.
Proof. intros H. unfold log_cdf, log_weights. rewrite zlen_map, zlen_ncumsum_from, zlen_map, zlen_zrange. lia. Qed.
End G.

(** ** Exact reals *)

(** weight of rank [i] (from 1) and cumulated weight of the first [k] ranks *)
Definition weight (i : Z) : R := (/ exp (ln (IZR i) * ln 2))%R.
Definition cumw (k : Z) : R := rsum (map weight (zrange 1 (k + 1))).

Lemma weight_pos i : (0 < weight i)%R.
Proof. unfold weight. apply Rinv_0_lt_compat. apply exp_pos. Qed.

Lemma cumw_succ k : 0 <= k -> cumw (k + 1) = (cumw k + weight (k + 1))%R.
Proof.
  intros H. unfold cumw. rewrite zrange_snoc by lia. rewrite map_app, rsum_app. cbn. lra.
Qed.

Lemma cumw_lt j k : 0 <= j -> j < k -> (cumw j < cumw k)%R.
Proof.
  intros Hj H. replace k with (j + 1 + Z.of_nat (Z.to_nat (k - j - 1))) by lia.
  generalize (Z.to_nat (k - j - 1)). intros n. induction n as [|n IH].
  - replace (j + 1 + Z.of_nat 0) with (j + 1) by lia. rewrite cumw_succ by lia. pose proof (weight_pos (j + 1)). lra.
  - replace (j + 1 + Z.of_nat (Datatypes.S n)) with ((j + 1 + Z.of_nat n) + 1) by lia. rewrite cumw_succ by lia.
    pose proof (weight_pos (j + 1 + Z.of_nat n + 1)). lra.
Qed.

Lemma cumw_0 : cumw 0 = 0%R.
Proof. reflexivity. Qed.

Lemma ncumsum_R (s : R) l i : 0 <= i < zlen l ->
  nthZ (ncumsum_from RN s l) i = Some (s + rsum (firstn (Z.to_nat (i + 1)) l))%R.
Proof.
  revert s i. induction l as [|x t IH]; intros s i Hi.
  - change (zlen (@nil R)) with 0 in Hi. lia.
  - cbn [ncumsum_from]. rewrite nthZ_cons. rewrite zlen_cons in Hi. destruct (Z.eqb_spec i 0).
    + subst. change (Z.to_nat (0 + 1)) with 1%nat. cbn [firstn rsum nadd RN]. f_equal. ring.
    + rewrite IH by lia. f_equal. replace (Z.to_nat (i + 1)) with (Datatypes.S (Z.to_nat (i - 1 + 1))) by lia.
      cbn [firstn rsum nadd RN]. ring.
Qed.

Lemma zrange_firstn a b k : 0 <= k <= b - a -> firstn (Z.to_nat k) (zrange a b) = zrange a (a + k).
Proof.
  intros H. rewrite (zrange_app a (a + k) b) by lia. rewrite firstn_app.
  replace (Z.to_nat k) with (length (zrange a (a + k))) by (rewrite zrange_length; lia).
  rewrite firstn_all, Nat.sub_diag. cbn. apply app_nil_r.
Qed.

Lemma log_weights_R n : log_weights RN n = map weight (zrange 1 (n + 1)).
Proof.
  unfold log_weights. apply map_ext. intros i. cbn [ndiv n1 npow2 nln nofZ RN]. unfold weight, Rpow2, Rdiv. ring.
Qed.

Lemma log_cdf_R n k : 0 <= k < n -> nthZ (log_cdf RN n) k = Some (cumw (k + 1) / cumw n)%R.
Proof.
  intros H. unfold log_cdf. rewrite nthZ_map, log_weights_R.
  rewrite ncumsum_R by (rewrite zlen_map, zlen_zrange; lia). cbn [option_map ndiv RN]. f_equal.
  rewrite nsum_rsum. unfold cumw. f_equal. cbn [n0 RN]. rewrite Rplus_0_l. f_equal.
  rewrite firstn_map, zrange_firstn by lia. do 2 f_equal. lia.
Qed.

(** slot of rank [k] (from 0) among [n] *)
Definition in_slot (n : Z) (u : R) (k : Z) : Prop :=
  0 <= k < n /\ (u <= cumw (k + 1) / cumw n)%R /\ (k = 0 \/ (cumw k / cumw n < u)%R).

Lemma cdf_pick n u : 1 <= n -> (u <= 1)%R ->
  exists k, get (where_ (map (fun p => nleb RN u p) (log_cdf RN n))) 0 = Ok k /\ in_slot n u k.
Proof.
  intros Hn Hu.
  assert (Hlast : nthZ (map (fun p => nleb RN u p) (log_cdf RN n)) (n - 1) = Some true).
  { rewrite nthZ_map, log_cdf_R by lia. cbn [option_map]. f_equal. apply Rleb_true.
    replace (n - 1 + 1) with n by lia. pose proof (cumw_lt 0 n ltac:(lia) ltac:(lia)). rewrite cumw_0 in H.
    unfold Rdiv. rewrite Rinv_r by lra. exact Hu. }
  destruct (where_first _ _ Hlast) as (k & E & Hk & H1 & H2).
  exists k. split; [exact E|]. split; [lia|]. rewrite nthZ_map, log_cdf_R in H1 by lia. cbn [option_map] in H1.
  split.
  - injection H1 as H1. apply Rleb_true in H1. exact H1.
  - destruct (Z.eq_dec k 0); [auto|right]. specialize (H2 (k - 1) ltac:(lia)).
    rewrite nthZ_map, log_cdf_R in H2 by lia. cbn [option_map] in H2. injection H2 as H2.
    apply Rleb_false in H2. replace (k - 1 + 1) with k in H2 by lia. exact H2.
Qed.

Lemma in_slot_unique n u k k' : in_slot n u k -> in_slot n u k' -> k = k'.
Proof.
  assert (L : forall a b, in_slot n u a -> in_slot n u b -> ~ a < b).
  { intros a b (Ha & Ha1 & _) (Hb & _ & Hb2) Hlt. destruct Hb2 as [Hb2|Hb2]; [lia|].
    assert (cumw (a + 1) / cumw n <= cumw b / cumw n)%R; [|lra].
    assert (0 < cumw n)%R by (rewrite <- cumw_0; apply cumw_lt; lia).
    apply Rmult_le_compat_r; [left; apply Rinv_0_lt_compat; assumption|].
    destruct (Z.eq_dec (a + 1) b) as [->|]; [lra|]. left. apply cumw_lt; lia. }
  intros H1 H2. pose proof (L k k' H1 H2). pose proof (L k' k H2 H1). lia.
Qed.

Lemma choice_log_R {S} (rng : Rng R S) n m s : 0 <= m ->
  (forall s, 0 <= fst (r_unif rng s) < 1)%R ->
  (n <= 1 -> choice_log RN rng n m s = Ok (repeat 0 (Z.to_nat m), s)) /\
  (2 <= n -> exists ks, choice_log RN rng n m s = Ok (ks, snd (draws rng (Z.to_nat m) s)) /\
     Forall2 (in_slot n) (fst (draws rng (Z.to_nat m) s)) ks).
Proof.
  intros Hm Hu. unfold choice_log. split; intros Hn.
  - destruct (Z.ltb_spec 1 n); [lia|]. unfold liftG, full. destruct (Z.ltb_spec m 0); [lia|]. reflexivity.
  - destruct (Z.ltb_spec 1 n); [|lia].
    destruct (mapG_draws rng (fun u => get (where_ (map (fun p => nleb RN u p) (log_cdf RN n))) 0) (in_slot n)
       (fun u => 0 <= u < 1)%R (zrange 0 m) s Hu) as (ks & E & Q).
    + intros u Hu'. apply cdf_pick; [lia|lra].
    + rewrite zrange_length, Z.sub_0_r in *. exists ks. split; [exact E|exact Q].
Qed.
