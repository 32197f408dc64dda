(** Property theorems C01-C08: windows, primes, logarithmic choice, distances, features of one shapelet. *)
From Coq Require Import ZArith List Bool Reals Lra Lia Permutation Znumtheory.
From Verif Require Import Prelude Num Kernel Spec KernelProofs PrimeProofs RealBase RealProofs ChoiceProofs KernelLaws.
Import ListNotations.
Open Scope Z_scope.

(** ** C01 *)

Theorem C01_strides_1D : forall (F : Type) (N : NumOps F) (X : list F) (w d : Z) (ph : bool),
  (ph = true /\ 0 <= w \/ ph = false /\ 1 <= w /\ 0 <= d /\ (w - 1) * d <= zlen X) ->
  exists S, generate_strides_1D X w d ph = Ok S /\
    zlen S = (if ph then zlen X else zlen X - (w - 1) * d) /\
    forall i row, nthZ S i = Some row -> zlen row = w /\
      forall j, 0 <= j < w -> exists p, p = (if ph then (i + j * d) mod zlen X else i + j * d) /\
        0 <= p < zlen X /\ nthZ row j = nthZ X p.
Proof.
  intros F N X w d ph H. apply (strides_1D_spec N).
  destruct H as [[-> H]|[-> H]]; exact H.
Qed.
Print Assumptions C01_strides_1D.

Example C01_case : generate_strides_1D [10; 11; 12; 13; 14; 15] 3 2 false = Ok [[10; 12; 14]; [11; 13; 15]] /\
  generate_strides_1D [10; 11; 12; 13] 3 2 true = Ok [[10; 12; 10]; [11; 13; 11]; [12; 10; 12]; [13; 11; 13]].
Proof. split; reflexivity. Qed.

Theorem C01_strides_2D : forall (F : Type) (N : NumOps F) (X : list (list F)) (n w d : Z) (ph : bool),
  X <> [] -> (forall r, In r X -> zlen r = n) ->
  (ph = true /\ 0 <= w \/ ph = false /\ 1 <= w /\ 0 <= d /\ (w - 1) * d <= n) ->
  exists S, generate_strides_2D X w d ph = Ok S /\
    Forall2 (fun r s => zlen s = (if ph then zlen r else zlen r - (w - 1) * d) /\
      forall i row, nthZ s i = Some row -> zlen row = w /\
        forall j, 0 <= j < w -> exists p, p = (if ph then (i + j * d) mod zlen r else i + j * d) /\
          0 <= p < zlen r /\ nthZ row j = nthZ r p) X S.
Proof.
  intros F N X n w d ph H1 H2 H3. apply (strides_2D_spec N X n w d ph H1 H2).
  destruct H3 as [[-> H]|[-> H]]; exact H.
Qed.
Print Assumptions C01_strides_2D.

Example C01_case_2D : generate_strides_2D [[10; 11; 12; 13]; [20; 21; 22; 23]] 2 3 false = Ok [[[10; 13]]; [[20; 23]]].
Proof. reflexivity. Qed.

(** ** C02 *)

Theorem C02_short_series_1D : forall (F : Type) (N : NumOps F) (X : list F) (w d : Z), 1 <= w -> 0 <= d ->
  (zlen X < (w - 1) * d -> generate_strides_1D X w d false = Err ValueError) /\
  (zlen X = (w - 1) * d -> generate_strides_1D X w d false = Ok []) /\
  (zlen X > (w - 1) * d -> exists r S, generate_strides_1D X w d false = Ok (r :: S)).
Proof. exact @strides_1D_cases. Qed.
Print Assumptions C02_short_series_1D.

Theorem C02_short_series_2D : forall (F : Type) (N : NumOps F) (X : list (list F)) (n w d : Z),
  X <> [] -> (forall r, In r X -> zlen r = n) -> 1 <= w -> 0 <= d ->
  (n < (w - 1) * d -> generate_strides_2D X w d false = Err ValueError) /\
  (n = (w - 1) * d -> exists S, generate_strides_2D X w d false = Ok S /\ forall s, In s S -> s = []) /\
  (n > (w - 1) * d -> exists S, generate_strides_2D X w d false = Ok S /\ forall s, In s S -> s <> []).
Proof. exact @strides_2D_cases. Qed.
Print Assumptions C02_short_series_2D.

Theorem C02_short_series_dist_vector : forall (F : Type) (N : NumOps F) (X v : list F) (l d : Z) (nm : bool),
  1 <= l -> 0 <= d -> l <= zlen v ->
  (zlen X < (l - 1) * d -> compute_shapelet_dist_vector N X v l d nm false = Err ValueError) /\
  (zlen X >= (l - 1) * d -> exists ds, compute_shapelet_dist_vector N X v l d nm false = Ok ds /\
     zlen ds = zlen X - (l - 1) * d).
Proof. exact @dist_vector_cases. Qed.
Print Assumptions C02_short_series_dist_vector.

Example C02_case : generate_strides_1D [1; 2; 3] 3 2 false = Err ValueError /\
  generate_strides_1D [1; 2; 3; 4] 3 2 false = Ok [] /\
  generate_strides_1D [1; 2; 3; 4; 5] 3 2 false = Ok [[1; 3; 5]].
Proof. repeat split; reflexivity. Qed.

(** ** C03 *)

Theorem C03_subsequence_is_stride_row : forall (F : Type) (N : NumOps F) (X : list F) (i l d : Z) (nm ph : bool),
  (if ph then 0 <= l else 1 <= l /\ 0 <= d /\ (l - 1) * d <= zlen X) ->
  0 <= i < (if ph then zlen X else zlen X - (l - 1) * d) ->
  exists S row, generate_strides_1D X l d ph = Ok S /\ nthZ S i = Some row /\
    get_subsequence N X i l d nm ph = Ok (if nm then zscore N row else row).
Proof. exact @get_subsequence_row. Qed.
Print Assumptions C03_subsequence_is_stride_row.

Example C03_case : get_subsequence ZN [10; 11; 12; 13; 14] 3 3 2 false true = Ok [13; 10; 12] /\
  get_subsequence ZN [10; 11; 12; 13; 14] 0 3 2 false false = Ok [10; 12; 14].
Proof. split; reflexivity. Qed.

(** ** C04.  The square root used by the code must be right after truncation: it is over the reals. *)

Theorem C04_is_prime : forall n, 0 <= n -> is_prime RN n = true <-> n = 1 \/ prime n.
Proof. exact (is_prime_spec RN R_sqrt_law). Qed.
Print Assumptions C04_is_prime.

Theorem C04_prime_up_to : forall n, -1 <= n ->
  exists l, prime_up_to RN n = Ok l /\ incr l /\ forall p, In p l <-> 1 <= p <= n /\ (p = 1 \/ prime p).
Proof. exact (prime_up_to_spec RN R_sqrt_law). Qed.
Print Assumptions C04_prime_up_to.

Theorem C04_is_prime_any_sqrt : forall (F : Type) (N : NumOps F),
  (forall n, 0 <= n -> ntrunc N (nsqrt N (nofZ N n)) = Z.sqrt n) ->
  forall n, 0 <= n -> is_prime N n = true <-> n = 1 \/ prime n.
Proof. exact @is_prime_spec. Qed.
Print Assumptions C04_is_prime_any_sqrt.

(** 1 is accepted although it is not a prime. *)
Theorem C04_one_is_not_prime_refuted : exists n, is_prime RN n = true /\ ~ prime n.
Proof. exists 1. split; [apply (is_prime_spec RN R_sqrt_law); [lia|left; reflexivity]|apply not_prime_1]. Qed.
Print Assumptions C04_one_is_not_prime_refuted.

Example C04_case : is_prime RN 7 = true /\ is_prime RN 9 = false.
Proof.
  split.
  - apply C04_is_prime; [lia|]. right. apply prime_intro; [lia|]. intros m Hm. apply Zgcd_1_rel_prime.
    assert (C : m = 1 \/ m = 2 \/ m = 3 \/ m = 4 \/ m = 5 \/ m = 6) by lia.
    repeat (destruct C as [->|C]; [reflexivity|]). subst. reflexivity.
  - apply not_true_is_false. intros H. apply C04_is_prime in H as [H|H]; try lia.
    destruct (prime_divisors 9 H 3) as [E|[E|[E|E]]]; try lia. exists 3. reflexivity.
Qed.

(** ** C05 *)

Theorem C05_choice_log_range : forall (S : Type) (rng : Rng R S) (n m : Z) (s : S), 0 <= m ->
  (forall s, 0 <= fst (r_unif rng s) < 1)%R ->
  exists ks s', choice_log RN rng n m s = Ok (ks, s') /\ zlen ks = m /\ forall k, In k ks -> 0 <= k < Z.max 1 n.
Proof.
  intros S rng n m s Hm HU.
  assert (E : exists ks s', choice_log RN rng n m s = Ok (ks, s')).
  { destruct (choice_log_R rng n m s Hm HU) as [H1 H2]. destruct (Z.le_gt_cases n 1); [eauto|].
    destruct H2 as (ks & E & _); [lia|eauto]. }
  destruct E as (ks & s' & E). exists ks, s'. split; [exact E|]. exact (choice_log_spec rng n m s ks s' Hm HU E).
Qed.
Print Assumptions C05_choice_log_range.

(** The k-th index is drawn exactly when the uniform draw lies in the k-th slot of the
    cumulative weights [w_i = 1 / 2^ln(i+1)]. *)
Theorem C05_choice_log_slot : forall (S : Type) (rng : Rng R S) (n m : Z) (s : S), 0 <= m -> 2 <= n ->
  (forall s, 0 <= fst (r_unif rng s) < 1)%R ->
  exists ks, choice_log RN rng n m s = Ok (ks, snd (draws rng (Z.to_nat m) s)) /\
    Forall2 (fun u k => 0 <= k < n /\ forall k', 0 <= k' < n ->
        ((u <= cumw (k' + 1) / cumw n)%R /\ (k' = 0 \/ (cumw k' / cumw n < u)%R) <-> k' = k))
      (fst (draws rng (Z.to_nat m) s)) ks.
Proof.
  intros S rng n m s Hm Hn HU. destruct (choice_log_R rng n m s Hm HU) as [_ H2]. destruct (H2 Hn) as (ks & E & HF).
  exists ks. split; [exact E|]. clear E H2. induction HF as [|u k us kk Hk HF IH]; constructor; [|exact IH].
  split; [destruct Hk; assumption|]. intros k' Hk'. split.
  - intros [A B]. apply (in_slot_unique n u); [split; [exact Hk'|split; assumption]|exact Hk].
  - intros ->. destruct Hk as (_ & A & B). split; assumption.
Qed.
Print Assumptions C05_choice_log_slot.

Definition rng_third : Rng R Z := mkRng R Z (fun s => s) (fun n s => (s mod n, s + 1)) (fun s => ((1 / 3)%R, s + 1)).

Example C05_case : exists ks s', choice_log RN rng_third 5 2 0 = Ok (ks, s') /\ zlen ks = 2 /\ forall k, In k ks -> 0 <= k < 5.
Proof. apply (C05_choice_log_range Z rng_third 5 2 0); [lia|]. intros s. cbn. lra. Qed.

(** ** C06 *)

Theorem C06_combinations : forall x y : list Z, zlen x = zlen y ->
  exists l, combinations_1d x y = Ok l /\ NoDup l /\
    (forall p, In p l <-> exists i, nthZ x i = Some (fst p) /\ nthZ y i = Some (snd p)) /\
    (exists idx, incr idx /\ map (nthZ (combine x y)) idx = map Some l /\
       forall i, In i idx -> forall j, 0 <= j < i -> nthZ (combine x y) j <> nthZ (combine x y) i).
Proof. exact combinations_spec. Qed.
Print Assumptions C06_combinations.

Example C06_case : combinations_1d [9; 7; 9; 7; 9] [2; 2; 2; 1; 1] = Ok [(9, 2); (7, 2); (7, 1); (9, 1)].
Proof. reflexivity. Qed.

(** ** C07 *)

Theorem C07_manhattan_metric : 
  (forall x y, zlen x = zlen y -> exists v, manhattan RN x y = Ok v /\ (0 <= v)%R /\ (v = 0%R <-> x = y)) /\
  (forall x y, zlen x = zlen y -> manhattan RN x y = manhattan RN y x) /\
  (forall x y z a b c, zlen x = zlen y -> zlen y = zlen z ->
     manhattan RN x z = Ok a -> manhattan RN x y = Ok b -> manhattan RN y z = Ok c -> (a <= b + c)%R) /\
  (forall ps ps', Permutation ps ps' ->
     manhattan RN (map fst ps) (map snd ps) = manhattan RN (map fst ps') (map snd ps')).
Proof. exact manhattan_metric. Qed.
Print Assumptions C07_manhattan_metric.

Theorem C07_euclidean_metric : 
  (forall x y, zlen x = zlen y -> exists v, euclidean RN x y = Ok v /\ (0 <= v)%R /\ (v = 0%R <-> x = y)) /\
  (forall x y, zlen x = zlen y -> euclidean RN x y = euclidean RN y x) /\
  (forall x y z a b c, zlen x = zlen y -> zlen y = zlen z ->
     euclidean RN x z = Ok a -> euclidean RN x y = Ok b -> euclidean RN y z = Ok c -> (a <= b + c)%R) /\
  (forall ps ps', Permutation ps ps' ->
     euclidean RN (map fst ps) (map snd ps) = euclidean RN (map fst ps') (map snd ps')).
Proof. exact euclidean_metric. Qed.
Print Assumptions C07_euclidean_metric.

Theorem C07_squared_euclidean : forall x y a b, zlen x = zlen y ->
  euclidean RN x y = Ok a -> squared_euclidean RN x y = Ok b -> b = (a * a)%R.
Proof. exact squared_is_square. Qed.
Print Assumptions C07_squared_euclidean.

(** The exact value, so that "metric" is not satisfied by, e.g., a scaled sum. *)
Theorem C07_manhattan_value : forall x y, zlen x <= zlen y ->
  manhattan RN x y = Ok (rsum (map (fun j => Rabs (nthd 0%R x j - nthd 0%R y j)) (zrange 0 (zlen x)))).
Proof. intros x y H. rewrite (manhattan_ok RN x y H). rewrite l1_rsum. reflexivity. Qed.
Print Assumptions C07_manhattan_value.

(** Vectors of different lengths: only the first [len(x)] points count, and a shorter [y] is read out of range. *)
Theorem C07_manhattan_lengths : forall (F : Type) (N : NumOps F) (x y : list F),
  (exists v, manhattan N x y = Ok v) <-> zlen x <= zlen y.
Proof. exact @manhattan_length. Qed.
Print Assumptions C07_manhattan_lengths.

Example C07_case : manhattan ZN [1; 5; 2] [4; 5; 0] = Ok 5 /\ manhattan ZN [4; 5; 0] [1; 5; 2] = Ok 5 /\
  squared_euclidean ZN [1; 5; 2] [4; 5; 0] = Ok 13.
Proof. repeat split; reflexivity. Qed.

(** ** C08 *)

Theorem C08_features_univariate : forall (x : list (list R)) (v : list R) (thr : R),
  (forall r, In r x -> zlen r <= zlen v) ->
  exists f, apply_one_univariate RN x v thr = Ok f /\ is_features RN (map (fun r => l1 RN r v) x) thr f.
Proof.
  intros x v thr H. apply (apply_one_univariate_spec RN (fun _ => True) x v thr R_ord_laws H).
  intros r _. split; [exact I|apply nleb_l1].
Qed.
Print Assumptions C08_features_univariate.

Theorem C08_features_multivariate : forall (x : list (list (list R))) (v : list (list R)) (thr : R) (n l : Z),
  x <> [] -> (forall r, In r x -> zlen r = n /\ forall w, In w r -> zlen w = l) -> zlen v = zlen x ->
  (forall u, In u v -> zlen u = l) ->
  exists f, apply_one_multivariate RN x v thr = Ok f /\
    is_features RN (map (fun i => sumF RN (map (fun ft => l1 RN (nthd [] (nthd [] x ft) i) (nthd [] v ft))
                                            (zrange 0 (zlen x)))) (zrange 0 n)) thr f.
Proof.
  intros x v thr n l H1 H2 H3 H4. apply (apply_one_multivariate_spec RN (fun _ => True) x v thr n l R_ord_laws H1 H2 H3 H4).
  intros i _. split; [exact I|apply mdist_at_nonneg].
Qed.
Print Assumptions C08_features_multivariate.

(** The same for any numbers whose comparisons behave on the computed distances (e.g. integers, finite floats). *)
Theorem C08_features_univariate_any : forall (F : Type) (N : NumOps F) (ok : F -> Prop) x v thr, OrdLaws N ok ->
  (forall r, In r x -> zlen r <= zlen v) ->
  (forall r, In r x -> ok (l1 N r v) /\ nleb N (n0 N) (l1 N r v) = true) ->
  exists f, apply_one_univariate N x v thr = Ok f /\ is_features N (map (fun r => l1 N r v) x) thr f.
Proof. exact @apply_one_univariate_spec. Qed.
Print Assumptions C08_features_univariate_any.

Theorem C08_features_unique : forall ds thr f g, is_features RN ds thr f -> is_features RN ds thr g -> f = g.
Proof. exact is_features_unique. Qed.
Print Assumptions C08_features_unique.

Example C08_case : apply_one_univariate ZN [[5; 9]; [1; 3]; [2; 2]; [1; 2]] [1; 2] 1 = Ok (0, 3, 3) /\
  apply_one_univariate ZN [] [1; 2] 1 = Ok (-1, 0, 0) /\
  apply_one_multivariate ZN [[[5; 9]; [1; 3]]; [[0; 0]; [4; 4]]] [[1; 2]; [0; 1]] 8 = Ok (8, 1, 1).
Proof. repeat split; reflexivity. Qed.
