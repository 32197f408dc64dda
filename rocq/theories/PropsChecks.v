(** Properties C42, C43: the checks of convst/utils/checks_utils.py. *)
From Coq Require Import ZArith List Bool Lia String.
From Verif Require Import Prelude Num Checks ChecksProofs.
Import ListNotations.
Open Scope Z_scope.

(** ** C42.  Shape checks accept exactly the documented shapes. *)

(** [A] is the array a check works on: a numpy array (or a DataFrame, where those are accepted) itself, or the array
    numpy builds from a list. *)
Definition is_array {F} (X : pyv F) : Prop := exists sh dt cs, X = VArr sh dt cs.
Definition is_frame {F} (X : pyv F) : Prop := exists r c dt cs, X = VFrame r c dt cs.
Definition array_of {F} (N : NumOps F) (frames : bool) (X A : pyv F) : Prop :=
  (is_array X /\ A = X) \/ (frames = true /\ is_frame X /\ A = X) \/
  (exists l, X = VList l /\ np_asarray N X = Ok A).

(** check_array_3D returns normally exactly on non-empty three-dimensional arrays with more than [min_timestamps]
    timestamps (and a single feature if [is_univariate]), and then returns the array unchanged; everything else
    raises ValueError. *)
Theorem C42_check_array_3D {F} (N : NumOps F) (X : pyv F) (is_univariate : bool) (min_timestamps : Z) :
  (forall A, check_array_3D N X is_univariate min_timestamps = Ok A <->
     array_of N true X A /\
     exists n f t, shape A = [n; f; t] /\ n <> 0 /\ f <> 0 /\ t <> 0 /\ min_timestamps < t /\
                   (is_univariate = true -> f = 1)) /\
  (forall e, check_array_3D N X is_univariate min_timestamps = Err e -> e = ValueError).
Proof.
  unfold check_array_3D, array_of, is_array, is_frame. split.
  - intros A. rewrite <- check_shape_3D_ok. split.
    + intros H. apply bind_inv in H as (A' & HA & H). apply bind_inv in H as ([] & Hs & H).
      injection H as ->. split; [|exact Hs].
      destruct X; cbn [check_is_numpy_or_pd] in HA; try discriminate.
      * right. right. eauto.
      * injection HA as <-. left. eauto 6.
      * injection HA as <-. right. left. split; [reflexivity|]. eauto 7.
    + intros [HA Hs]. assert (E : check_is_numpy_or_pd N X = Ok A).
      { destruct HA as [[(sh & dt & cs & ->) ->]|[(_ & (r & c & dt & cs & ->) & ->)|(l & -> & HA)]]; [reflexivity..|exact HA]. }
      rewrite E. cbn [bind]. rewrite Hs. reflexivity.
  - intros e H. destruct (check_is_numpy_or_pd N X) as [A|e'] eqn:E; cbn [bind] in H.
    + destruct (check_shape_3D (shape A) is_univariate min_timestamps) eqn:E2; cbn [bind] in H; [discriminate|].
      injection H as <-. eapply check_shape_3D_err; eassumption.
    + injection H as <-. eapply check_numpy_pd_err; eassumption.
Qed.
Print Assumptions C42_check_array_3D.

(** check_array_2D: exactly the non-empty two-dimensional arrays and DataFrames; a DataFrame is turned into an array
    of the same shape and cells unless [coerce_to_numpy] is false. *)
Theorem C42_check_array_2D {F} (N : NumOps F) (X : pyv F) (coerce : bool) :
  (forall R, check_array_2D N X coerce = Ok R <->
     exists A n m, array_of N true X A /\ shape A = [n; m] /\ n <> 0 /\ m <> 0 /\
       ((~ is_frame A \/ coerce = false) /\ R = A \/
        exists dt cs, A = VFrame n m dt cs /\ coerce = true /\ R = VArr [n; m] dt cs)) /\
  (forall e, check_array_2D N X coerce = Err e -> e = ValueError).
Proof.
  unfold check_array_2D, array_of, is_array, is_frame. split.
  - intros R. split.
    + intros H. apply bind_inv in H as (A & HA & H). apply bind_inv in H as (? & H1 & H).
      apply bind_inv in H as (? & H2 & H).
      assert (Hsh : exists n m, shape A = [n; m]).
      { destruct (shape A) as [|n [|m [|k t]]] eqn:E; try discriminate H1; [eauto|].
        exfalso. rewrite !zlen_cons in H1. pose proof (zlen_nonneg t).
        destruct (Z.eqb_spec (zlen t + 1 + 1 + 1) 2); [lia|discriminate]. }
      destruct Hsh as (n & m & E). rewrite E, prod_2 in H2.
      destruct (Z.eqb_spec (n * m) 0) as [|Hnm]; [discriminate|].
      exists A, n, m. split; [|split; [exact E|split; [intros ->; apply Hnm; ring|split; [intros ->; apply Hnm; ring|]]]].
      * destruct X; cbn [check_is_numpy_or_pd] in HA; try discriminate.
        -- right. right. eauto.
        -- injection HA as <-. left. eauto 6.
        -- injection HA as <-. right. left. split; [reflexivity|]. eauto 7.
      * injection H as <-. destruct A; try (left; split; [left; intros (? & ? & ? & ? & ?); discriminate|reflexivity]).
        cbn in E. injection E as -> ->. destruct coerce; [right; eauto|left; auto].
    + intros (A & n & m & HA & E & Hn & Hm & HR). assert (EA : check_is_numpy_or_pd N X = Ok A).
      { destruct HA as [[(sh & dt & cs & ->) ->]|[(_ & (r & c & dt & cs & ->) & ->)|(l & -> & HA)]]; [reflexivity..|exact HA]. }
      rewrite EA. cbn [bind]. rewrite E, prod_2. cbn [bind guard]. change (zlen [n; m] =? 2) with true. cbn [guard bind].
      destruct (Z.eqb_spec (n * m) 0) as [Z0|]; [apply Z.mul_eq_0 in Z0 as [?|?]; contradiction|]. cbn [guard bind negb].
      destruct HR as [[[Hf|Hc] ->]|(dt & cs & -> & -> & ->)]; [|destruct A; try reflexivity; rewrite Hc; reflexivity|].
      * destruct A; try reflexivity. exfalso. apply Hf. eauto.
      * cbn in E. reflexivity.
  - intros e H. destruct (check_is_numpy_or_pd N X) as [A|e'] eqn:E; cbn [bind] in H.
    + destruct (zlen (shape A) =? 2); cbn [bind guard] in H; [|congruence].
      destruct (negb (prod (shape A) =? 0)); cbn [bind guard] in H; congruence.
    + injection H as <-. eapply check_numpy_pd_err; eassumption.
Qed.
Print Assumptions C42_check_array_2D.

(** check_array_1D: exactly the non-empty one-dimensional arrays, returned unchanged. *)
Theorem C42_check_array_1D {F} (N : NumOps F) (X : pyv F) :
  (forall A, check_array_1D N X = Ok A <-> array_of N false X A /\ exists n, shape A = [n] /\ n <> 0) /\
  (forall e, check_array_1D N X = Err e -> e = ValueError).
Proof.
  unfold check_array_1D, array_of, is_array, is_frame. split.
  - intros R. split.
    + intros H. apply bind_inv in H as (A & HA & H). apply bind_inv in H as (? & H1 & H).
      apply bind_inv in H as (? & H2 & H). injection H as <-.
      assert (Hsh : exists n, shape A = [n]).
      { destruct (shape A) as [|n [|m t]] eqn:E; try discriminate H1; [eauto|].
        exfalso. rewrite !zlen_cons in H1. pose proof (zlen_nonneg t).
        destruct (Z.eqb_spec (zlen t + 1 + 1) 1); [lia|discriminate]. }
      destruct Hsh as (n & E). rewrite E, prod_1 in H2. split.
      * destruct X; cbn [check_is_numpy] in HA; try discriminate; [right; right; eauto|].
        injection HA as <-. left. eauto 6.
      * exists n. split; [exact E|]. intros ->. discriminate H2.
    + intros (HA & n & E & Hn). assert (EA : check_is_numpy N X = Ok R).
      { destruct HA as [[(sh & dt & cs & ->) ->]|[(C & _)|(l & -> & HA)]]; [reflexivity|discriminate|exact HA]. }
      rewrite EA. cbn [bind]. rewrite E, prod_1. change (zlen [n] =? 1) with true. cbn [guard bind].
      destruct (Z.eqb_spec n 0); [contradiction|]. reflexivity.
  - intros e H. destruct (check_is_numpy N X) as [A|e'] eqn:E; cbn [bind] in H.
    + destruct (zlen (shape A) =? 1); cbn [bind guard] in H; [|congruence].
      destruct (negb (prod (shape A) =? 0)); cbn [bind guard] in H; congruence.
    + injection H as <-. eapply check_numpy_err; eassumption.
Qed.
Print Assumptions C42_check_array_1D.

(** A list is accepted as an array exactly when it is regularly nested; the array then has the shape of the nesting. *)
Theorem C42_lists {F} (N : NumOps F) (l : list (pyv F)) (sh : list Z) :
  regular (VList l) sh <-> exists A, np_asarray N (VList l) = Ok A /\ shape A = sh.
Proof.
  split; [apply asarray_total|]. intros (A & H & <-). apply asarray_ok in H. exact H.
Qed.
Print Assumptions C42_lists.

Example C42_case_3D {F} (N : NumOps F) :
  check_array_3D N (VArr [2; 1; 3] DInt64 (map VInt [1; 2; 3; 4; 5; 6])) true 2 =
    Ok (VArr [2; 1; 3] DInt64 (map VInt [1; 2; 3; 4; 5; 6])) /\
  check_array_3D N (VArr [2; 2; 3] DInt64 (map VInt [1; 2; 3; 4; 5; 6; 1; 2; 3; 4; 5; 6])) true 2 = Err ValueError /\
  check_array_3D N (VArr [2; 1; 2] DInt64 (map VInt [1; 2; 3; 4])) false 2 = Err ValueError /\
  check_array_3D N (VList [VList [VList [VInt 1; VInt 2; VInt 3]; VList [VInt 4; VInt 5; VInt 6]]]) false 2 =
    Ok (VArr [1; 2; 3] DInt64 (map VInt [1; 2; 3; 4; 5; 6])) /\
  check_array_3D N (VList [VList [VList [VInt 1; VInt 2; VInt 3]; VList [VInt 4; VInt 5]]]) false 2 = Err ValueError.
Proof. repeat split; reflexivity. Qed.

Example C42_case_2D {F} (N : NumOps F) (x : F) :
  check_array_2D N (VFrame 1 2 DFloat64 [VFloat x; VFloat x]) true = Ok (VArr [1; 2] DFloat64 [VFloat x; VFloat x]) /\
  check_array_2D N (VArr [3; 0] DFloat64 []) true = Err ValueError /\
  check_array_1D N (VTuple [VInt 1]) = Err ValueError /\
  check_array_1D N (VList [VInt 7; VBool true]) = Ok (VArr [2] DInt64 [VInt 7; VInt 1]).
Proof. repeat split; reflexivity. Qed.

(** ** C43.  Resolution of n_jobs. *)

Theorem C43_n_jobs {F} (cpus : Z) (v : pyv F) :
  (forall n, check_n_jobs cpus v = Ok n <->
     (v = VNone /\ n = 1) \/
     (exists k, v = VInt k /\ 0 <= k /\ n = Z.min k cpus) \/
     (exists k, v = VInt (- k) /\ 0 < k /\ n = cpus + 1 - k)) /\
  (forall e, check_n_jobs cpus v = Err e -> e = ValueError) /\
  (1 <= cpus ->
   ((exists n, check_n_jobs cpus v = Ok n /\ 1 <= n <= cpus) <->
    (v = VNone \/ (exists k, v = VInt k /\ 1 <= k) \/ (exists k, v = VInt k /\ - cpus <= k < 0)))).
Proof.
  assert (A : forall n, check_n_jobs cpus v = Ok n <->
     (v = VNone /\ n = 1) \/
     (exists k, v = VInt k /\ 0 <= k /\ n = Z.min k cpus) \/
     (exists k, v = VInt (- k) /\ 0 < k /\ n = cpus + 1 - k)).
  { intros n. split.
    - destruct v; cbn [check_n_jobs]; try discriminate.
      + intros H. injection H as <-. auto.
      + destruct (Z.ltb_spec z 0) as [L|L]; intros H; injection H as <-.
        * right. right. exists (- z). rewrite Z.opp_involutive. repeat split; lia.
        * right. left. exists z. repeat split; lia.
    - intros [[-> ->]|[(k & -> & Hk & ->)|(k & -> & Hk & ->)]]; cbn [check_n_jobs]; [reflexivity| |].
      + destruct (Z.ltb_spec k 0); [lia|reflexivity].
      + destruct (Z.ltb_spec (- k) 0); [|lia]. f_equal. lia. }
  split; [exact A|split].
  - intros e. destruct v; cbn [check_n_jobs]; try congruence. destruct (_ <? 0); congruence.
  - intros Hc. split.
    + intros (n & H & Hn). apply A in H as [[-> ->]|[(k & -> & Hk & ->)|(k & -> & Hk & ->)]]; [auto| |].
      * right. left. exists k. split; [reflexivity|lia].
      * right. right. exists (- k). split; [reflexivity|lia].
    + intros [->|[(k & -> & Hk)|(k & -> & Hk)]].
      * exists 1. split; [reflexivity|lia].
      * exists (Z.min k cpus). split; [apply A; right; left; exists k; repeat split; lia|lia].
      * exists (cpus + k + 1). split; [apply A; right; right; exists (- k); rewrite Z.opp_involutive; repeat split; lia|lia].
Qed.
Print Assumptions C43_n_jobs.

Example C43_case {F} : check_n_jobs 8 (@VInt F (-1)) = Ok 8 /\ check_n_jobs 8 (@VInt F (-3)) = Ok 6 /\
  check_n_jobs 8 (@VInt F 20) = Ok 8 /\ check_n_jobs 8 (@VInt F 0) = Ok 0 /\ check_n_jobs 8 (@VInt F (-9)) = Ok 0 /\
  check_n_jobs 8 (@VBool F true) = Err ValueError.
Proof. repeat split; reflexivity. Qed.
