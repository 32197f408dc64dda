(** Value-level laws over exact reals: distances, z-normalisation, features. *)
From Coq Require Import ZArith List Bool Reals Lra Lia Permutation.
From Verif Require Import Prelude Num Kernel Spec KernelProofs RealBase.
Import ListNotations.
Open Scope R_scope.

Lemma sq0 x : 0 <= x * x.
Proof. exact (Rle_0_sqr x). Qed.

(** ** Squared sums *)

Fixpoint sqs (x y : list R) : R :=
  match x, y with
  | a :: x', b :: y' => (a - b) * (a - b) + sqs x' y'
  | _, _ => 0
  end.

Lemma sq_loop_ok x y : (zlen x <= zlen y)%Z -> sq_loop RN x y = Ok (sqs x y).
Proof.
  intros H. unfold sq_loop.
  rewrite (foldM_ok _ (fun s i => s + (pt RN x i - pt RN y i) * (pt RN x i - pt RN y i))).
  - f_equal.
    assert (E : forall l s, fold_left (fun s i => s + (pt RN x i - pt RN y i) * (pt RN x i - pt RN y i)) l s
      = s + rsum (map (fun i => (pt RN x i - pt RN y i) * (pt RN x i - pt RN y i)) l)).
    { induction l as [|k t IH]; intros s; simpl; [lra|]. rewrite IH. lra. }
    rewrite E. cbn [n0 RN]. rewrite Rplus_0_l. clear E.
    revert y H. induction x as [|a x IH]; intros [|b y] H; try reflexivity.
    + rewrite zlen_cons in H. pose proof (zlen_nonneg x). change (zlen (@nil R)) with 0%Z in H. lia.
    + rewrite !zlen_cons in *. pose proof (zlen_nonneg x).
      rewrite zrange_cons by lia. cbn [map rsum sqs]. rewrite <- IH by lia. f_equal.
      replace (zrange (0 + 1) (zlen x + 1)) with (map (fun j => j + 1)%Z (zrange 0 (zlen x)))
        by (symmetry; apply (zrange_shift 0 (zlen x) 1)).
      rewrite map_map. f_equal. apply map_ext_in. intros j Hj. apply in_zrange in Hj.
      rewrite !pt_cons by lia. reflexivity.
  - intros s i Hi. apply in_zrange in Hi.
    rewrite (get_nthd 0) by lia. simpl. rewrite (get_nthd 0) by lia. reflexivity.
Qed.

Lemma sqs_nonneg x y : 0 <= sqs x y.
Proof. revert y. induction x as [|a x IH]; intros [|b y]; simpl; try lra. specialize (IH y). pose proof (sq0 (a - b)). lra. Qed.

Lemma l1s_nonneg x y : 0 <= l1s x y.
Proof. revert y. induction x as [|a x IH]; intros [|b y]; simpl; try lra. specialize (IH y). pose proof (Rabs_pos (a - b)). lra. Qed.

Lemma l1s_zero x y : length x = length y -> l1s x y = 0 <-> x = y.
Proof.
  revert y. induction x as [|a x IH]; intros [|b y] H; simpl in *; try discriminate; [tauto|].
  pose proof (Rabs_pos (a - b)). pose proof (l1s_nonneg x y). split; intros E.
  - assert (Rabs (a - b) = 0) by lra. assert (l1s x y = 0) by lra. apply IH in H3; [|lia].
    destruct (Req_dec (a - b) 0) as [E0|E0]; [f_equal; [lra|auto]|]. apply Rabs_no_R0 in E0. contradiction.
  - injection E as -> ->. rewrite Rminus_diag_eq, Rabs_R0 by reflexivity. rewrite (proj2 (IH y eq_refl)) by reflexivity. lra.
Qed.

Lemma sqs_zero x y : length x = length y -> sqs x y = 0 <-> x = y.
Proof.
  revert y. induction x as [|a x IH]; intros [|b y] H; simpl in *; try discriminate; [tauto|].
  pose proof (sqs_nonneg x y). split; intros E.
  - pose proof (sq0 (a - b)). assert (sqs x y = 0) by lra. apply IH in H2; [|lia]. f_equal; [|auto].
    assert (E2 : (a - b) * (a - b) = 0) by lra. apply Rmult_integral in E2 as [E2|E2]; lra.
  - injection E as -> ->. rewrite (proj2 (IH y eq_refl)) by reflexivity. lra.
Qed.

Lemma l1s_sym x y : l1s x y = l1s y x.
Proof. revert y. induction x as [|a x IH]; intros [|b y]; simpl; try lra. rewrite IH, Rabs_minus_sym. reflexivity. Qed.

Lemma sqs_sym x y : sqs x y = sqs y x.
Proof. revert y. induction x as [|a x IH]; intros [|b y]; simpl; try lra. rewrite IH. lra. Qed.

Lemma l1s_tri x y z : length x = length y -> length y = length z -> l1s x z <= l1s x y + l1s y z.
Proof.
  revert y z. induction x as [|a x IH]; intros [|b y] [|c z] H1 H2; simpl in *; try discriminate; try lra.
  specialize (IH y z ltac:(lia) ltac:(lia)). pose proof (Rabs_triang (a - b) (b - c)).
  replace (a - b + (b - c)) with (a - c) in H by lra. lra.
Qed.

Lemma sq_le_abs a b : 0 <= b -> a * a <= b * b -> a <= b.
Proof. intros Hb H. destruct (Rle_or_lt a b); [assumption|]. nra. Qed.

(** Minkowski step: from norms of the tails to norms of the whole *)
Lemma mink2 p q a b : 0 <= p -> 0 <= q ->
  R_sqrt.sqrt ((a + b) * (a + b) + (p + q) * (p + q))
  <= R_sqrt.sqrt (a * a + p * p) + R_sqrt.sqrt (b * b + q * q).
Proof.
  intros Hp Hq.
  assert (HA : 0 <= a * a + p * p) by nra. assert (HB : 0 <= b * b + q * q) by nra.
  apply sq_le_abs.
  - pose proof (sqrt_pos (a * a + p * p)). pose proof (sqrt_pos (b * b + q * q)). lra.
  - rewrite sqrt_sqrt by (pose proof (sq0 (a + b)); pose proof (sq0 (p + q)); lra).
    set (A := R_sqrt.sqrt (a * a + p * p)). set (B := R_sqrt.sqrt (b * b + q * q)).
    assert (EA : A * A = a * a + p * p) by (apply sqrt_sqrt; assumption).
    assert (EB : B * B = b * b + q * q) by (apply sqrt_sqrt; assumption).
    assert (HA0 : 0 <= A) by apply sqrt_pos. assert (HB0 : 0 <= B) by apply sqrt_pos.
    assert (a * b + p * q <= A * B); [|nra].
    apply sq_le_abs; [nra|].
    replace (A * B * (A * B)) with ((A * A) * (B * B)) by ring. rewrite EA, EB.
    pose proof (Rle_0_sqr (a * q - p * b)). unfold Rsqr in H. nra.
Qed.

Lemma euc_tri x y z : length x = length y -> length y = length z ->
  R_sqrt.sqrt (sqs x z) <= R_sqrt.sqrt (sqs x y) + R_sqrt.sqrt (sqs y z).
Proof.
  revert y z. induction x as [|a x IH]; intros [|b y] [|c z] H1 H2; simpl in *; try discriminate.
  - rewrite sqrt_0. lra.
  - specialize (IH y z ltac:(lia) ltac:(lia)).
    pose proof (sqs_nonneg x y) as N1. pose proof (sqs_nonneg y z) as N2. pose proof (sqs_nonneg x z) as N3.
    set (p := R_sqrt.sqrt (sqs x y)) in *. set (q := R_sqrt.sqrt (sqs y z)) in *.
    assert (Hp : 0 <= p) by apply sqrt_pos. assert (Hq : 0 <= q) by apply sqrt_pos.
    assert (Ep : p * p = sqs x y) by (apply sqrt_sqrt; assumption).
    assert (Eq : q * q = sqs y z) by (apply sqrt_sqrt; assumption).
    eapply Rle_trans; [|rewrite <- Ep, <- Eq; apply (mink2 p q (a - b) (b - c) Hp Hq)].
    apply sqrt_le_1_alt. replace (a - b + (b - c)) with (a - c) by lra.
    assert (sqs x z <= (p + q) * (p + q)); [|lra].
    rewrite <- (sqrt_sqrt (sqs x z)) by assumption. pose proof (sqrt_pos (sqs x z)). nra.
Qed.

Lemma l1s_perm ps ps' : Permutation ps ps' -> l1s (map fst ps) (map snd ps) = l1s (map fst ps') (map snd ps').
Proof. induction 1; simpl; lra. Qed.
Lemma sqs_perm ps ps' : Permutation ps ps' -> sqs (map fst ps) (map snd ps) = sqs (map fst ps') (map snd ps').
Proof. induction 1; simpl; lra. Qed.

Lemma manhattan_R x y : (zlen x <= zlen y)%Z -> manhattan RN x y = Ok (l1s x y).
Proof. intros H. rewrite manhattan_ok by exact H. rewrite l1_l1s by exact H. reflexivity. Qed.
Lemma euclidean_R x y : (zlen x <= zlen y)%Z -> euclidean RN x y = Ok (R_sqrt.sqrt (sqs x y)).
Proof. intros H. unfold euclidean. rewrite sq_loop_ok by exact H. reflexivity. Qed.

Lemma zlen_length {A B} (x : list A) (y : list B) : zlen x = zlen y -> length x = length y.
Proof. unfold zlen. lia. Qed.

(** ** z-normalisation *)

Lemma avg_R w : avg RN w = rsum w / IZR (zlen w).
Proof. unfold avg. rewrite sumF_rsum. reflexivity. Qed.

Definition ssq (m : R) (w : list R) : R := rsum (map (fun v => (v - m) * (v - m)) w).
Lemma sdev_R w : sdev RN w = R_sqrt.sqrt (ssq (avg RN w) w / IZR (zlen w)).
Proof. unfold sdev. rewrite sumF_rsum. reflexivity. Qed.

Lemma zlen_pos_R {A} (w : list A) : w <> [] -> 0 < IZR (zlen w).
Proof.
  intros H. apply IZR_lt. destruct w; [congruence|]. rewrite zlen_cons. pose proof (zlen_nonneg w). lia.
Qed.

Lemma ssq_nonneg m w : 0 <= ssq m w.
Proof. apply rsum_nonneg. intros x Hx. apply in_map_iff in Hx as (v & <- & _). apply sq0. Qed.

Lemma sdev_nonneg w : 0 <= sdev RN w.
Proof. rewrite sdev_R. apply sqrt_pos. Qed.

Lemma eps_pos : 0 < neps RN.
Proof. simpl. lra. Qed.

Lemma rsum_id (l : list R) : rsum (map (fun v => v) l) = rsum l.
Proof. f_equal. apply map_id. Qed.

Lemma avg_affine a c w : w <> [] -> avg RN (map (fun v => a * v + c) w) = a * avg RN w + c.
Proof.
  intros H. pose proof (zlen_pos_R w H). rewrite !avg_R, zlen_map.
  rewrite (rsum_map_plus (fun v => a * v) (fun _ => c)), rsum_map_scal, rsum_map_const, rsum_id.
  field. lra.
Qed.

Lemma ssq_affine a c m w : ssq (a * m + c) (map (fun v => a * v + c) w) = a * a * ssq m w.
Proof.
  unfold ssq. rewrite map_map, <- rsum_map_scal. apply rsum_map_ext. intros x _. ring.
Qed.

Lemma sdev_affine a c w : w <> [] -> 0 <= a -> sdev RN (map (fun v => a * v + c) w) = a * sdev RN w.
Proof.
  intros H Ha. rewrite !sdev_R, avg_affine, ssq_affine, zlen_map by assumption.
  pose proof (zlen_pos_R w H). pose proof (ssq_nonneg (avg RN w) w).
  unfold Rdiv. rewrite Rmult_assoc, sqrt_mult_alt by nra. rewrite sqrt_square by assumption. reflexivity.
Qed.

Lemma zscore_shift c w : zscore RN (map (fun v => v + c) w) = zscore RN w.
Proof.
  destruct w as [|x t]; [reflexivity|]. set (w := x :: t). assert (Hw : w <> []) by discriminate.
  assert (E : map (fun v => v + c) w = map (fun v => 1 * v + c) w) by (apply map_ext; intros; ring).
  unfold zscore. rewrite E, avg_affine, sdev_affine by (assumption || lra). rewrite map_map. apply map_ext. intros v.
  cbn [ndiv nsub nadd RN]. f_equal; [ring|f_equal; ring].
Qed.

(** exact effect of scaling *)
Lemma zscore_scale a w i z : 0 < a -> nthZ (zscore RN w) i = Some z ->
  exists x z', nthZ w i = Some x /\ nthZ (zscore RN (map (Rmult a) w)) i = Some z' /\
    z' - z = (x - avg RN w) * (neps RN * (a - 1)) / ((a * sdev RN w + neps RN) * (sdev RN w + neps RN)).
Proof.
  intros Ha H. unfold zscore in H. rewrite nthZ_map in H. destruct (nthZ w i) as [x|] eqn:Ex; [|discriminate].
  cbn [option_map] in H. assert (Hz : ndiv RN (nsub RN x (avg RN w)) (nadd RN (sdev RN w) (neps RN)) = z) by congruence. exists x. 
  assert (Hw : w <> []) by (intros ->; unfold nthZ in Ex; destruct (i <? 0)%Z; [discriminate|]; destruct (Z.to_nat i); discriminate).
  eexists. split; [reflexivity|]. split.
  - unfold zscore. rewrite !nthZ_map, Ex. reflexivity.
  - assert (E : map (Rmult a) w = map (fun v => a * v + 0) w) by (apply map_ext; intros; ring).
    rewrite E, avg_affine, sdev_affine by (assumption || lra).
    pose proof (sdev_nonneg w). pose proof eps_pos. assert (0 <= a * sdev RN w) by nra.
    rewrite <- Hz. cbn [ndiv nsub nadd RN] in *. set (m := avg RN w) in *. set (s := sdev RN w) in *. set (e := neps RN) in *.
    field. split; nra.
Qed.

Lemma zlen_zscore w : zlen (zscore RN w) = zlen w.
Proof. unfold zscore. apply zlen_map. Qed.

Lemma zscore_affine w : zscore RN w =
  map (fun v => / (sdev RN w + neps RN) * v + - (avg RN w / (sdev RN w + neps RN))) w.
Proof.
  unfold zscore. apply map_ext. intros v. cbn [ndiv nsub nadd RN]. unfold Rdiv. ring.
Qed.

Lemma zscore_avg w : w <> [] -> avg RN (zscore RN w) = 0.
Proof. intros H. rewrite zscore_affine, avg_affine by exact H. unfold Rdiv. ring. Qed.

Lemma zscore_sdev w : w <> [] -> sdev RN (zscore RN w) = sdev RN w / (sdev RN w + neps RN).
Proof.
  intros H. pose proof (sdev_nonneg w). pose proof eps_pos. rewrite zscore_affine, sdev_affine; auto.
  - unfold Rdiv. ring.
  - left. apply Rinv_0_lt_compat. lra.
Qed.

Lemma zscore_const w c : (forall x, In x w -> x = c) -> forall z, In z (zscore RN w) -> z = 0.
Proof.
  intros Hc z Hz. unfold zscore in Hz. apply in_map_iff in Hz as (x & <- & Hx).
  assert (Hw : w <> []) by (intros ->; destruct Hx).
  assert (E : avg RN w = c).
  { rewrite avg_R. rewrite <- rsum_id. rewrite (rsum_map_ext (fun v => v) (fun _ => c)) by exact Hc.
    rewrite rsum_map_const. pose proof (zlen_pos_R w Hw). field. lra. }
  cbn [ndiv nsub RN]. rewrite E, (Hc x Hx). unfold Rdiv. ring.
Qed.

(** ** The 2l bound *)

Definition sabs (w : list R) : R := rsum (map Rabs w).
Definition ssqr (w : list R) : R := rsum (map (fun v => v * v) w).

Lemma cauchy_abs w : sabs w * sabs w <= IZR (zlen w) * ssqr w.
Proof.
  unfold sabs, ssqr. induction w as [|x t IH]; [simpl; lra|].
  cbn [map rsum]. rewrite zlen_cons, plus_IZR.
  set (n := IZR (zlen t)) in *. set (S := rsum (map Rabs t)) in *. set (Q := rsum (map (fun v => v * v) t)) in *.
  assert (Hn : 0 <= n) by (apply IZR_le; apply zlen_nonneg).
  assert (HQ : 0 <= Q) by (apply rsum_nonneg; intros y Hy; apply in_map_iff in Hy as (v & <- & _); apply sq0).
  assert (HS : 0 <= S) by (apply rsum_nonneg; intros y Hy; apply in_map_iff in Hy as (v & <- & _); apply Rabs_pos).
  pose proof (Rabs_pos x) as Hx. assert (Ex : x * x = Rabs x * Rabs x) by (rewrite <- Rabs_mult; symmetry; apply Rabs_pos_eq; nra).
  rewrite Ex. set (a := Rabs x) in *.
  (* 2 a S <= n a^2 + Q since S^2 <= n Q *)
  assert (2 * a * S <= n * (a * a) + Q); [|nra].
  apply sq_le_abs; [nra|].
  pose proof (Rle_0_sqr (n * (a * a) - Q)) as H. unfold Rsqr in H.
  assert (a * a * (S * S) <= a * a * (n * Q)) by (apply Rmult_le_compat_l; nra). nra.
Qed.

Lemma ssqr_zscore w : w <> [] -> ssqr (zscore RN w) <= IZR (zlen w).
Proof.
  intros Hw. pose proof (zlen_pos_R w Hw) as Hn. pose proof (sdev_nonneg w) as Hs. pose proof eps_pos as He.
  pose proof (ssq_nonneg (avg RN w) w) as Hq.
  set (k := / (sdev RN w + neps RN)).
  assert (Hk : 0 < k) by (apply Rinv_0_lt_compat; lra).
  assert (E : ssqr (zscore RN w) = k * k * ssq (avg RN w) w).
  { unfold ssqr, ssq, zscore. rewrite map_map, <- rsum_map_scal. apply rsum_map_ext. intros v _.
    cbn [ndiv nsub nadd RN]. unfold k, Rdiv. cbn [nadd RN]. ring. }
  rewrite E.
  assert (Es : ssq (avg RN w) w = IZR (zlen w) * (sdev RN w * sdev RN w)).
  { rewrite sdev_R, sqrt_sqrt; [field; lra|]. unfold Rdiv. apply Rmult_le_pos; [exact Hq|]. left. apply Rinv_0_lt_compat. lra. }
  rewrite Es.
  assert (H1 : k * sdev RN w <= 1).
  { unfold k. apply (Rmult_le_reg_l (sdev RN w + neps RN)); [lra|]. rewrite <- Rmult_assoc, Rinv_r by lra. lra. }
  assert (H0 : 0 <= k * sdev RN w) by nra.
  replace (k * k * (IZR (zlen w) * (sdev RN w * sdev RN w))) with (IZR (zlen w) * ((k * sdev RN w) * (k * sdev RN w))) by ring.
  set (t := k * sdev RN w) in *. assert (t * t <= 1) by nra. nra.
Qed.

Lemma sabs_zscore w : sabs (zscore RN w) <= IZR (zlen w).
Proof.
  destruct w as [|x t]; [unfold sabs; simpl; unfold zlen; simpl; lra|]. set (w := x :: t).
  assert (Hw : w <> []) by discriminate. pose proof (zlen_pos_R w Hw) as Hn.
  apply sq_le_abs; [lra|]. eapply Rle_trans; [apply cauchy_abs|]. rewrite zlen_zscore.
  pose proof (ssqr_zscore w Hw). nra.
Qed.

Lemma l1s_abs x y : length x = length y -> l1s x y <= sabs x + sabs y.
Proof.
  unfold sabs. revert y. induction x as [|a x IH]; intros [|b y] H; simpl in *; try discriminate; [lra|].
  specialize (IH y ltac:(lia)). pose proof (Rabs_triang a (- b)). rewrite Rabs_Ropp in H0.
  replace (a + - b) with (a - b) in H0 by ring. lra.
Qed.

Lemma zscore_l1_bound w w' : zlen w = zlen w' -> l1 RN (zscore RN w) (zscore RN w') <= 2 * IZR (zlen w).
Proof.
  intros H. rewrite l1_l1s by (rewrite !zlen_zscore; lia).
  eapply Rle_trans; [apply l1s_abs; apply zlen_length; rewrite !zlen_zscore; exact H|].
  pose proof (sabs_zscore w). pose proof (sabs_zscore w'). rewrite H in *. lra.
Qed.

(** ** Features *)

Lemma feats_R ds thr : (forall x, In x ds -> 0 <= x) -> is_features RN ds thr (feats RN ds thr).
Proof.
  intros H. apply (feats_spec RN (fun _ => True)); [exact R_ord_laws|].
  intros x Hx. split; [exact I|]. apply Rleb_true. apply H. exact Hx.
Qed.

Lemma is_features_unique ds thr f g : is_features RN ds thr f -> is_features RN ds thr g -> f = g.
Proof.
  destruct f as [[m a] c], g as [[m' a'] c']. unfold is_features. 
  intros [(E & -> & -> & ->)|(k & H1 & -> & H2 & H3 & ->)] [(E' & -> & -> & ->)|(k' & H1' & -> & H2' & H3' & ->)].
  - reflexivity.
  - subst. unfold nthZ in H1'. destruct (k' <? 0)%Z; [discriminate|]. destruct (Z.to_nat k'); discriminate.
  - subst. unfold nthZ in H1. destruct (k <? 0)%Z; [discriminate|]. destruct (Z.to_nat k); discriminate.
  - assert (k = k').
    { destruct (Z.lt_trichotomy k k') as [L|[L|L]]; auto; exfalso.
      - specialize (H3' k m H1 L). specialize (H2 k' m' H1'). apply Rltb_true in H3'. apply Rleb_true in H2. lra.
      - specialize (H3 k' m' H1' L). specialize (H2' k m H1). apply Rltb_true in H3. apply Rleb_true in H2'. lra. }
    subst. rewrite H1 in H1'. injection H1' as ->. reflexivity.
Qed.

Lemma distances_nonneg ph nm X v l d x : In x (distances RN ph nm X v l d) -> 0 <= x.
Proof. intros H. apply in_map_iff in H as (i & <- & _). apply l1_nonneg. Qed.

Lemma mdistances_nonneg ph nm n X chs vs l d x : In x (mdistances RN ph nm n X chs vs l d) -> 0 <= x.
Proof.
  intros H. apply in_map_iff in H as (i & <- & _). rewrite sumF_rsum. apply rsum_nonneg. intros y Hy.
  apply in_map_iff in Hy as (cv & <- & _). apply l1_nonneg.
Qed.
