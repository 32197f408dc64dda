(** Proofs about the data preparation. *)
From Coq Require Import ZArith List Bool Lia Reals Lra Binomial.
From Verif Require Import Prelude Num Spec Kernel Apply ApplyProofs Gen GenBase RealBase RealProofs KernelProofs KernelLaws Preproc NumbaUtilsProofs.
Import ListNotations.
Open Scope Z_scope.

Section ZNORM.
Context {F : Type} (N : NumOps F).

(** What all the z-normalisations compute. *)
Definition zdata (X : dataset F) : dataset F := map (map (zscore N)) X.

Lemma upd_app {A} (l1 l2 : list A) x y : upd (l1 ++ x :: l2) (length l1) y = l1 ++ y :: l2.
Proof. induction l1; simpl; [reflexivity|]. f_equal. assumption. Qed.

Lemma get_app_mid {A} (l1 l2 : list A) x : get (l1 ++ x :: l2) (zlen l1) = Ok x.
Proof.
  apply get_nthZ; [apply zlen_nonneg|]. rewrite nthZ_app. destruct (Z.ltb_spec (zlen l1) (zlen l1)); [lia|].
  rewrite Z.sub_diag. reflexivity.
Qed.

Lemma set_app_mid {A} (l1 l2 : list A) x y : set (l1 ++ x :: l2) (zlen l1) y = Ok (l1 ++ y :: l2).
Proof.
  rewrite set_ok.
  - f_equal. unfold zlen. rewrite Nat2Z.id. apply upd_app.
  - rewrite zlen_app, zlen_cons. pose proof (zlen_nonneg l1). pose proof (zlen_nonneg l2). lia.
Qed.

Lemma znorm_cell_mid (X1 X2 : dataset F) s1 s2 x :
  znorm_cell N (X1 ++ (s1 ++ x :: s2) :: X2) (zlen X1) (zlen s1) = Ok (X1 ++ (s1 ++ zscore N x :: s2) :: X2).
Proof.
  unfold znorm_cell. rewrite get_app_mid, bind_Ok, get_app_mid, bind_Ok.
  unfold upd_at. rewrite get_app_mid, bind_Ok, set_app_mid, bind_Ok, set_app_mid.
  rewrite znorm_is_zscore. reflexivity.
Qed.

Lemma zrange_mid (a : Z) {A} (l : list A) : zrange a (a + zlen l) = match l with [] => [] | _ :: t => a :: zrange (a + 1) (a + 1 + zlen t) end.
Proof.
  destruct l as [|x t].
  - rewrite zlen_nil. apply zrange_empty. lia.
  - rewrite zlen_cons. pose proof (zlen_nonneg t). rewrite zrange_cons by lia. do 2 f_equal. lia.
Qed.

Lemma znorm_sample_loop (X1 X2 : dataset F) s2 : forall s1,
  foldM (fun X i_ft => znorm_cell N X (zlen X1) i_ft) (zrange (zlen s1) (zlen s1 + zlen s2)) (X1 ++ (s1 ++ s2) :: X2)
  = Ok (X1 ++ (s1 ++ map (zscore N) s2) :: X2).
Proof.
  induction s2 as [|x t IH]; intros s1; rewrite zrange_mid; simpl; [reflexivity|].
  rewrite znorm_cell_mid, bind_Ok.
  replace (s1 ++ zscore N x :: t) with ((s1 ++ [zscore N x]) ++ t) by (rewrite <- app_assoc; reflexivity).
  replace (zlen s1 + 1) with (zlen (s1 ++ [zscore N x])) by (rewrite zlen_app; reflexivity).
  rewrite IH, <- app_assoc. reflexivity.
Qed.

Lemma z_norm_3D_list_ok X : z_norm_3D_list N X = Ok (zdata X).
Proof.
  unfold z_norm_3D_list.
  assert (G : forall X2 X1 : dataset F, foldM (fun X i_x => let* smp := get X i_x in
      foldM (fun X i_ft => znorm_cell N X i_x i_ft) (zrange 0 (zlen smp)) X) (zrange (zlen X1) (zlen X1 + zlen X2)) (X1 ++ X2)
      = Ok (X1 ++ zdata X2)).
  { induction X2 as [|s t IH]; intros X1; rewrite zrange_mid; simpl; [reflexivity|].
    rewrite get_app_mid, bind_Ok. pose proof (znorm_sample_loop X1 t s []) as K. simpl app in K.
    change (zlen (@nil (list F))) with 0 in K. rewrite Z.add_0_l in K. rewrite K, bind_Ok.
    replace (X1 ++ map (zscore N) s :: t) with ((X1 ++ [map (zscore N) s]) ++ t) by (rewrite <- app_assoc; reflexivity).
    replace (zlen X1 + 1) with (zlen (X1 ++ [map (zscore N) s])) by (rewrite zlen_app; reflexivity).
    rewrite IH, <- app_assoc. reflexivity. }
  specialize (G X []). simpl app in G. change (zlen (@nil (list (list F)))) with 0 in G. rewrite Z.add_0_l in G. exact G.
Qed.

Lemma z_norm_3D_ok X f : (forall s, In s X -> zlen s = f) -> z_norm_3D N X = Ok (zdata X).
Proof.
  intros HX. unfold z_norm_3D.
  assert (G : forall X2 X1 : dataset F, (forall s, In s (X1 ++ X2) -> zlen s = f) ->
      foldM (fun X i_x => foldM (fun X i_ft => znorm_cell N X i_x i_ft) (zrange 0 (shape1 X)) X)
      (zrange (zlen X1) (zlen X1 + zlen X2)) (X1 ++ X2) = Ok (X1 ++ zdata X2)).
  { induction X2 as [|s t IH]; intros X1 HF; rewrite zrange_mid; simpl; [reflexivity|].
    assert (E : shape1 (X1 ++ s :: t) = zlen s).
    { rewrite (HF s) by (apply in_or_app; right; left; auto).
      destruct X1 as [|s0 X1]; simpl; apply HF; simpl; auto. }
    rewrite E. pose proof (znorm_sample_loop X1 t s []) as K. simpl app in K.
    change (zlen (@nil (list F))) with 0 in K. rewrite Z.add_0_l in K. rewrite K, bind_Ok.
    replace (X1 ++ map (zscore N) s :: t) with ((X1 ++ [map (zscore N) s]) ++ t) by (rewrite <- app_assoc; reflexivity).
    replace (zlen X1 + 1) with (zlen (X1 ++ [map (zscore N) s])) by (rewrite zlen_app; reflexivity).
    rewrite IH, <- app_assoc; [reflexivity|].
    intros s' Hs'. rewrite <- app_assoc in Hs'. apply in_app_or in Hs' as [Hs'|[<-|Hs']].
    - apply HF, in_or_app. auto.
    - rewrite zlen_map. apply HF, in_or_app. right. left. auto.
    - apply HF, in_or_app. right. right. auto. }
  specialize (G X []). simpl app in G. change (zlen (@nil (list (list F)))) with 0 in G. rewrite Z.add_0_l in G. auto.
Qed.

Lemma mapM_get_range {A B} (f : A -> res B) (l : list A) :
  mapM (fun i => let* x := get l i in f x) (zrange 0 (zlen l)) = mapM f l.
Proof.
  destruct l as [|d t]; [reflexivity|].
  transitivity (mapM f (map (nthd d (d :: t)) (zrange 0 (zlen (d :: t))))); [|rewrite map_nthd_zrange; reflexivity].
  rewrite mapM_map.
  apply mapM_ext. intros i Hi. apply in_zrange in Hi. rewrite (get_nthd d) by lia. reflexivity.
Qed.

Lemma z_norm_all_samples_ok X : z_norm_all_samples N X = Ok (zdata X).
Proof.
  unfold z_norm_all_samples, z_norm_one_sample. rewrite mapM_get_range. apply mapM_ok. intros s _.
  rewrite mapM_get_range. apply mapM_ok. intros x _. rewrite znorm_is_zscore. reflexivity.
Qed.
End ZNORM.

(** * Finite differences *)

Section DIFF.
Context {F : Type} (N : NumOps F).

Lemma nthZ_ndiff (x : list F) i : 0 <= i < zlen x - 1 ->
  nthZ (ndiff N x) i = Some (nsub N (pt N x (i + 1)) (pt N x i)).
Proof.
  intros H. unfold ndiff. rewrite nthZ_map, nthZ_combine, nthZ_slice, nthZ_butlast by lia. rewrite (Z.add_comm 1 i).
  rewrite (nthZ_nthd (n0 N) x (i + 1)), (nthZ_nthd (n0 N) x i) by lia. reflexivity.
Qed.

Lemma zlen_ndiff (x : list F) : zlen (ndiff N x) = Z.max 0 (zlen x - 1).
Proof.
  pose proof (zlen_nonneg x) as Hx. unfold ndiff. rewrite zlen_map.
  destruct (Z.eq_dec (zlen x) 0) as [E|E].
  - destruct x as [|a t]; [reflexivity|]. rewrite zlen_cons in E. pose proof (zlen_nonneg t). lia.
  - rewrite zlen_combine; rewrite slice_length, ?zlen_butlast; lia.
Qed.

Fixpoint diffs (k : nat) (x : list F) : list F := match k with O => x | S k' => ndiff N (diffs k' x) end.

Lemma derivate_ok order X : derivate_transform N order X = map (map (diffs (Z.to_nat order))) X.
Proof.
  unfold derivate_transform, zrange. rewrite Z.sub_0_r. rewrite <- fold_left_rev_right.
  assert (G : forall l : list Z, fold_right (fun y x => map (map (ndiff N)) x) X l = map (map (diffs (length l))) X).
  { induction l as [|a l IH]; simpl.
    - rewrite <- (map_id X) at 1. apply map_ext. intros s. rewrite <- (map_id s) at 1. reflexivity.
    - rewrite IH, map_map. apply map_ext. intros s. rewrite map_map. reflexivity. }
  rewrite G, rev_length, map_length, seq_length. reflexivity.
Qed.

Lemma zlen_diffs k x : zlen (diffs k x) = Z.max 0 (zlen x - Z.of_nat k).
Proof.
  pose proof (zlen_nonneg x).
  induction k as [|k IH]; [simpl; lia|]. change (diffs (S k) x) with (ndiff N (diffs k x)). rewrite zlen_ndiff, IH. lia.
Qed.
End DIFF.

(** k-th difference of a sequence of reals *)
Fixpoint delta (k : nat) (f : Z -> R) (i : Z) : R :=
  match k with O => f i | S k' => (delta k' f (i + 1) - delta k' f i)%R end.

Lemma diffs_delta k (x : list R) i : 0 <= i < zlen x - Z.of_nat k ->
  pt RN (diffs RN k x) i = delta k (pt RN x) i.
Proof.
  revert i. induction k as [|k IH]; intros i H; [reflexivity|].
  change (diffs RN (S k) x) with (ndiff RN (diffs RN k x)).
  assert (E : nthZ (ndiff RN (diffs RN k x)) i = Some (nsub RN (pt RN (diffs RN k x) (i + 1)) (pt RN (diffs RN k x) i))).
  { apply nthZ_ndiff. rewrite zlen_diffs. lia. }
  unfold pt at 1, nthd. rewrite E. simpl. rewrite !IH by lia. reflexivity.
Qed.

Open Scope R_scope.

Lemma delta_ext k f g i : (forall j, (i <= j <= i + Z.of_nat k)%Z -> f j = g j) -> delta k f i = delta k g i.
Proof.
  revert i. induction k as [|k IH]; intros i H; simpl; [apply H; lia|].
  rewrite (IH (i + 1)%Z), (IH i); [reflexivity| |]; intros j Hj; apply H; lia.
Qed.

Lemma delta_shift k f i : delta k f (i + 1) = delta k (fun j => f (j + 1)%Z) i.
Proof. revert i. induction k as [|k IH]; intros i; simpl; [reflexivity|]. rewrite !IH. reflexivity. Qed.

Lemma delta_lin k a b f g i : delta k (fun j => a * f j + b * g j) i = a * delta k f i + b * delta k g i.
Proof. revert i. induction k as [|k IH]; intros i; simpl; [reflexivity|]. rewrite !IH. ring. Qed.

(** (-1)^(k-j) C(k,j), summed *)
Definition binomial_difference (k : nat) (f : nat -> R) : R :=
  sum_f_R0 (fun j => (-1) ^ (k - j) * C k j * f j) k.

Lemma sum_first (f : nat -> R) k : sum_f_R0 f (S k) = f O + sum_f_R0 (fun j => f (S j)) k.
Proof. induction k as [|k IH]; [reflexivity|]. rewrite tech5, IH. simpl. ring. Qed.

Lemma C_0 k : C k 0 = 1.
Proof. unfold C. rewrite Nat.sub_0_r. simpl. field. apply INR_fact_neq_0. Qed.
Lemma C_diag k : C k k = 1.
Proof. unfold C. rewrite Nat.sub_diag. simpl. field. apply INR_fact_neq_0. Qed.

Lemma binomial_step k f : binomial_difference (S k) f =
  binomial_difference k (fun j => f (S j)) - binomial_difference k f.
Proof.
  unfold binomial_difference. destruct k as [|k].
  { simpl. unfold C. simpl. field. }
  rewrite sum_first. rewrite tech5.
  replace (sum_f_R0 (fun j => (-1) ^ (S k - j) * C (S k) j * f (S j)) (S k))
    with (sum_f_R0 (fun j => (-1) ^ (S k - j) * C (S k) j * f (S j)) k + f (S (S k))).
  2:{ rewrite tech5. rewrite C_diag, Nat.sub_diag. simpl. ring. }
  replace (sum_f_R0 (fun j => (-1) ^ (S k - j) * C (S k) j * f j) (S k))
    with ((-1) ^ (S k) * f O + sum_f_R0 (fun j => (-1) ^ (S k - S j) * C (S k) (S j) * f (S j)) k).
  2:{ rewrite sum_first. rewrite C_0, Nat.sub_0_r. ring. }
  rewrite C_0, C_diag, !Nat.sub_diag. rewrite !Nat.sub_0_r.
  assert (E : sum_f_R0 (fun j => (-1) ^ (S (S k) - S j) * C (S (S k)) (S j) * f (S j)) k =
              sum_f_R0 (fun j => (-1) ^ (S k - j) * C (S k) j * f (S j)) k -
              sum_f_R0 (fun j => (-1) ^ (S k - S j) * C (S k) (S j) * f (S j)) k).
  { rewrite <- minus_sum. apply sum_eq. intros j Hj.
    rewrite <- (pascal (S k) j) by lia. replace (S (S k) - S j)%nat with (S (k - j)) by lia.
    replace (S k - j)%nat with (S (k - j)) by lia. replace (S k - S j)%nat with (k - j)%nat by lia. simpl. ring. }
  rewrite E. simpl. ring.
Qed.

Lemma delta_binomial k f i : delta k f i = binomial_difference k (fun j => f (i + Z.of_nat j)%Z).
Proof.
  revert i. induction k as [|k IH]; intros i.
  - unfold binomial_difference. simpl. rewrite C_0, Z.add_0_r. ring.
  - rewrite binomial_step. simpl delta. rewrite !IH. f_equal. unfold binomial_difference. apply sum_eq. intros j _.
    replace (i + 1 + Z.of_nat j)%Z with (i + Z.of_nat (S j))%Z by lia. reflexivity.
Qed.

(** polynomials with k coefficients, in Horner form *)
Fixpoint horner (a : list R) (t : R) : R := match a with [] => 0 | c :: a' => c + t * horner a' t end.

Fixpoint padd (a b : list R) : list R :=
  match a, b with [], _ => b | _, [] => a | x :: a', y :: b' => (x + y) :: padd a' b' end.
Lemma horner_padd a b t : horner (padd a b) t = horner a t + horner b t.
Proof.
  revert b. induction a as [|x a IH]; intros b; simpl; [ring|]. destruct b as [|y b]; simpl; [ring|]. rewrite IH. ring.
Qed.
Lemma length_padd a b : length (padd a b) = Nat.max (length a) (length b).
Proof. revert b. induction a as [|x a IH]; intros [|y b]; simpl; auto. Qed.

Lemma horner_shift a : exists b, length b = length a /\ forall t, horner b t = horner a (t + 1).
Proof.
  induction a as [|c a (b & Hb & IH)]; [exists []; auto|].
  exists (padd (c :: b) b). rewrite length_padd. split; [cbn [length]; lia|].
  intros t. rewrite horner_padd. cbn [horner]. rewrite <- IH. ring.
Qed.

Lemma horner_delta c a : exists b, length b = length a /\ forall t, horner b t = horner (c :: a) (t + 1) - horner (c :: a) t.
Proof.
  revert c. induction a as [|c' a IH]; intros c.
  - exists []. split; [reflexivity|]. intros t. simpl. ring.
  - destruct (IH c') as (b & Hb & Hbt). destruct (horner_shift (c' :: a)) as (s & Hs & Hst).
    exists (padd s (0 :: b)). split; [rewrite length_padd; cbn [length] in *; lia|].
    intros t. rewrite horner_padd, Hst. change (horner (0 :: b) t) with (0 + t * horner b t). rewrite Hbt.
    change (horner (c :: c' :: a) (t + 1)) with (c + (t + 1) * horner (c' :: a) (t + 1)).
    change (horner (c :: c' :: a) t) with (c + t * horner (c' :: a) t). ring.
Qed.

Lemma delta_zero k i : delta k (fun _ => 0) i = 0.
Proof. revert i. induction k as [|k IH]; intros i; simpl; [reflexivity|]. rewrite !IH. ring. Qed.

Lemma delta_S k f i : delta (S k) f i = delta k (fun j => f (j + 1)%Z - f j) i.
Proof.
  revert i. induction k as [|k IH]; intros i; [reflexivity|].
  change (delta (S (S k)) f i) with (delta (S k) f (i + 1) - delta (S k) f i). rewrite !IH. reflexivity.
Qed.

Lemma delta_poly k : forall a i, (length a <= k)%nat -> delta k (fun j => horner a (IZR j)) i = 0.
Proof.
  induction k as [|k IH]; intros a i Ha.
  - destruct a; [reflexivity|simpl in Ha; lia].
  - rewrite delta_S. destruct a as [|c a].
    + simpl. rewrite (delta_ext _ _ (fun _ => 0)) by (intros; ring). apply delta_zero.
    + destruct (horner_delta c a) as (b & Hb & Hbt).
      rewrite (delta_ext _ _ (fun j => horner b (IZR j))).
      * apply IH. simpl in Ha. lia.
      * intros j _. rewrite Hbt, plus_IZR. reflexivity.
Qed.

(** * Constant columns *)

Lemma sdev_zero (w : list R) : sdev RN w = 0 <-> forall x y, In x w -> In y w -> x = y.
Proof.
  destruct w as [|a t].
  { split; [intros _ x y []|]. intros _. rewrite sdev_R. change (zlen (@nil R)) with 0%Z.
    unfold ssq. simpl. unfold Rdiv. rewrite Rmult_0_l. apply R_sqrt.sqrt_0. }
  pose proof (zlen_pos_R (a :: t) ltac:(discriminate)) as HL. set (w := a :: t) in *.
  rewrite sdev_R. split.
  - intros H.
    assert (Hs : ssq (avg RN w) w = 0).
    { apply R_sqrt.sqrt_eq_0 in H.
      - apply Rmult_integral in H as [H|H]; [exact H|]. exfalso. apply Rinv_0_lt_compat in HL. lra.
      - apply Rmult_le_pos; [apply ssq_nonneg|]. apply Rlt_le, Rinv_0_lt_compat, HL. }
    assert (K : forall x, In x w -> x = avg RN w).
    { intros x Hx. unfold ssq in Hs.
      assert (Z0 : (x - avg RN w) * (x - avg RN w) = 0).
      { apply (rsum_zero _) with (x := (x - avg RN w) * (x - avg RN w)) in Hs; auto.
        - intros y Hy. apply in_map_iff in Hy as (v & <- & _). apply sq0.
        - apply in_map_iff. exists x. auto. }
      apply Rmult_integral in Z0 as [Z0|Z0]; lra. }
    intros x y Hx Hy. rewrite (K x Hx), (K y Hy). reflexivity.
  - intros H.
    assert (K : forall x, In x w -> x = a) by (intros x Hx; apply H; auto; left; auto).
    assert (E : avg RN w = a).
    { rewrite avg_R. replace (rsum w) with (a * IZR (zlen w)); [field; lra|].
      rewrite <- (rsum_map_const a w). rewrite <- (rsum_id w). apply rsum_map_ext. intros x Hx. symmetry. auto. }
    rewrite E. assert (E2 : ssq a w = 0).
    { unfold ssq. rewrite (rsum_map_ext _ (fun _ => 0)).
      - rewrite rsum_map_const. ring.
      - intros x Hx. rewrite (K x Hx). ring. }
    rewrite E2. unfold Rdiv. rewrite Rmult_0_l. apply R_sqrt.sqrt_0.
Qed.

Close Scope R_scope.

Section SCALER.
Context {F : Type} (N : NumOps F).

Lemma column_ok (d : F) p X j : (forall r, In r X -> zlen r = p) -> 0 <= j < p ->
  column X j = Ok (map (fun r => nthd d r j) X).
Proof. intros HX Hj. apply mapM_ok. intros r Hr. apply get_nthd. rewrite (HX r Hr). exact Hj. Qed.

Lemma usefull_ok p X : (forall r, In r X -> zlen r = p) -> exists atts, usefull_atts N p X = Ok atts /\ incr atts /\
  forall j, In j atts <-> 0 <= j < p /\ neqb N (sdev N (map (fun r => pt N r j) X)) (n0 N) = false.
Proof.
  intros HX. unfold usefull_atts.
  rewrite (mapM_ok _ (fun j => map (fun r => nthd (n0 N) r j) X)).
  2:{ intros j Hj. apply in_zrange in Hj. apply column_ok with (p := p); auto. }
  rewrite bind_Ok. rewrite map_map. eexists. split; [reflexivity|]. split.
  - rewrite (where_sorted_filter 0). apply incr_filter, incr_zrange.
  - intros j. rewrite in_where, nthZ_map. destruct (Z_lt_le_dec j 0) as [Hj|Hj]; [|destruct (Z_lt_le_dec j p) as [Hp|Hp]].
    + rewrite (proj2 (nthZ_none (zrange 0 p) j)); [simpl; split; [discriminate|lia]|]. lia.
    + rewrite nthZ_zrange by lia. simpl. rewrite Z.add_0_l || idtac. split.
      * intros E. injection E as E. split; [lia|]. apply negb_true_iff in E. exact E.
      * intros [_ E]. f_equal. apply negb_true_iff. exact E.
    + rewrite (proj2 (nthZ_none (zrange 0 p) j)); [simpl; split; [discriminate|lia]|]. rewrite zlen_zrange. lia.
Qed.

Lemma take_cols_ok (d : F) (X : list (list F)) cols : (forall r j, In r X -> In j cols -> 0 <= j < zlen r) ->
  take_cols X cols = Ok (map (fun r => map (nthd d r) cols) X).
Proof.
  intros H. apply mapM_ok. intros r Hr. apply mapM_ok. intros j Hj. apply get_nthd. auto.
Qed.

Lemma take_cols_err (X : list (list F)) cols r j : In r X -> In j cols -> zlen r <= j -> exists e, take_cols X cols = Err e.
Proof.
  intros Hr Hj Hlt. destruct (take_cols X cols) as [Y|e] eqn:E; [|eauto]. exfalso.
  unfold take_cols in E. apply mapM_Forall2 in E.
  assert (K : exists y, mapM (get r) cols = Ok y).
  { clear -E Hr. induction E as [|x y l l' H E IH]; [destruct Hr|]. destruct Hr as [->|Hr]; eauto. }
  destruct K as (y & K). apply mapM_Forall2 in K.
  assert (K2 : exists v, get r j = Ok v).
  { clear -K Hj. induction K as [|x v l l' H K IH]; [destruct Hj|]. destruct Hj as [->|Hj]; eauto. }
  destruct K2 as (v & K2). apply get_range in K2. lia.
Qed.
End SCALER.

(** * The loader *)

Section LOADER.
Context {F : Type} (N : NumOps F).

Lemma shortest_ok (X : dataset F) m : shortest X = Ok m ->
  (forall s x, In s X -> nthZ s 0 = Some x -> m <= zlen x) /\ (exists s x, In s X /\ nthZ s 0 = Some x /\ zlen x = m) /\
  (forall s, In s X -> exists x, nthZ s 0 = Some x).
Proof.
  unfold shortest. intros H. apply bind_inv in H as (ls & E & Hm). apply mapM_Forall2 in E.
  apply min_list_spec in Hm as [Hm1 Hm2].
  assert (K : forall s, In s X -> exists x, nthZ s 0 = Some x /\ In (zlen x) ls).
  { clear Hm1 Hm2. induction E as [|s l X' ls' H E IH]; [intros s []|].
    apply bind_inv in H as (x & Hx & Hl). injection Hl as <-. apply get_nthZ in Hx; [|lia].
    intros s' [<-|Hs']; [exists x; simpl; auto|]. destruct (IH s' Hs') as (y & Hy1 & Hy2). exists y. simpl; auto. }
  split; [|split].
  - intros s x Hs Hx. destruct (K s Hs) as (y & Hy1 & Hy2). rewrite Hx in Hy1. injection Hy1 as <-. auto.
  - clear Hm2 K. induction E as [|s l X' ls' H E IH]; [destruct Hm1|].
    apply bind_inv in H as (x & Hx & Hl). injection Hl as <-. apply get_nthZ in Hx; [|lia].
    destruct Hm1 as [<-|Hm1]; [exists s, x; simpl; auto|]. destruct (IH Hm1) as (s' & x' & A & B & C).
    exists s', x'. simpl; auto.
  - intros s Hs. destruct (K s Hs) as (x & Hx & _). eauto.
Qed.

Lemma shortest_total (X : dataset F) : X <> [] -> (forall s, In s X -> s <> []) -> exists m, shortest X = Ok m.
Proof.
  intros HX Hs. unfold shortest.
  assert (K : exists ls, mapM (fun smp : list (list F) => let* x := get smp 0 in Ok (zlen x)) X = Ok ls /\ length ls = length X).
  { clear HX. induction X as [|s X IH]; [exists []; auto|]. destruct IH as (ls & E & L); [intros; apply Hs; right; auto|].
    destruct s as [|x s]; [destruct (Hs []); [left|]; auto|]. exists (zlen x :: ls). split; [|simpl; lia].
    assert (E0 : get (x :: s) 0 = Ok x) by (apply get_nthZ; [lia|reflexivity]).
    cbn [mapM]. rewrite E0, bind_Ok, bind_Ok, E. reflexivity. }
  destruct K as (ls & E & L). rewrite E, bind_Ok. destruct ls as [|a ls]; [destruct X; [contradiction|simpl in L; lia]|]. eexists; reflexivity.
Qed.

Lemma le_transform_ok y y' classes : le_transform classes y = Ok y' ->
  zlen y' = zlen y /\ forall i l c, nthZ y i = Some l -> nthZ y' i = Some c -> nthZ classes c = Some l.
Proof.
  unfold le_transform. intros H. split; [unfold zlen; rewrite (mapM_length _ _ _ H); reflexivity|].
  intros i l c Hl Hc. apply mapM_Forall2 in H.
  pose proof (Forall2_nthZ _ _ _ _ _ _ H Hl Hc) as K. simpl in K.
  destruct (where_ (map (Z.eqb l) classes)) as [|k t] eqn:E; [discriminate|]. injection K as ->.
  assert (Hin : In c (where_ (map (Z.eqb l) classes))) by (rewrite E; left; auto).
  apply in_where in Hin. rewrite nthZ_map in Hin. destruct (nthZ classes c) as [l'|]; [|discriminate].
  simpl in Hin. injection Hin as Hin. apply Z.eqb_eq in Hin. congruence.
Qed.

Lemma le_transform_total y classes : (forall l, In l y -> In l classes) -> exists y', le_transform classes y = Ok y'.
Proof.
  intros H. unfold le_transform. induction y as [|l t IH]; [eexists; reflexivity|]. simpl.
  destruct (where_ (map (Z.eqb l) classes)) as [|k r] eqn:E.
  - exfalso. specialize (H l (or_introl eq_refl)). apply In_nthZ in H as (i & Hi).
    assert (Hin : In i (where_ (map (Z.eqb l) classes))).
    { apply in_where. rewrite nthZ_map, Hi. simpl. rewrite Z.eqb_refl. reflexivity. }
    rewrite E in Hin. destruct Hin.
  - simpl. destruct IH as (y' & Hy'); [intros; apply H; right; auto|]. rewrite Hy'. simpl. eauto.
Qed.

Lemma le_transform_err y classes l : In l y -> ~ In l classes -> le_transform classes y = Err ValueError.
Proof.
  intros Hl Hn. unfold le_transform. induction y as [|a t IH]; [destruct Hl|]. simpl.
  destruct (where_ (map (Z.eqb a) classes)) as [|k r] eqn:E; [reflexivity|]. simpl.
  destruct Hl as [->|Hl]; [|rewrite IH by auto; reflexivity]. exfalso. apply Hn.
  assert (Hin : In k (where_ (map (Z.eqb l) classes))) by (rewrite E; left; auto).
  apply in_where in Hin. rewrite nthZ_map in Hin. destruct (nthZ classes k) as [x|] eqn:Ex; [|discriminate].
  simpl in Hin. injection Hin as Hin. apply Z.eqb_eq in Hin. subst x. eapply nthZ_In; eauto.
Qed.
End LOADER.
