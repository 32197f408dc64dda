(** Model of convst/utils/experiments_utils.py. *)
From Coq Require Import ZArith List Bool.
From Verif Require Import Prelude Num Kernel Gen.
Import ListNotations.
Open Scope Z_scope.

Fixpoint zlist_eqb (a b : list Z) : bool :=
  match a, b with
  | [], [] => true
  | x :: a', y :: b' => (x =? y) && zlist_eqb a' b'
  | _, _ => false
  end.

(** [numpy.unique(y, return_counts=True)] *)
Definition unique_counts (y : list Z) : list Z * list Z :=
  (unique y, map (fun l => zlen (filter (Z.eqb l) y)) (unique y)).

Section RESAMPLE.
(** [T]: a sample.  [S]: a random state; [shuf]: RandomState.shuffle, which permutes an index array in place;
    [seed i]: sklearn's check_random_state(i), a fresh state. *)
Context {T S : Type} (shuf : list Z -> S -> list Z * S) (seed : Z -> S).

Definition split4 : Type := list T * list Z * list T * list Z.

(** experiments_utils.py:67-94, one iteration: class number [li]. *)
Definition resample_class (all_data : list T) (all_labels unique_train counts_train : list Z)
  (st : split4 * S) (li : Z) : res (split4 * S) :=
  let '((X_train, y_train, X_test, y_test), s) := st in
  let* num_instances := get counts_train li in
  let* label := get unique_train li in
  let indices := where_ (map (fun l => l =? label) all_labels) in
  let '(indices, s) := shuf indices s in
  let train_indices := slice indices 0 num_instances in
  let test_indices := slice indices num_instances (zlen indices) in
  let* train_instances := mapM (get all_data) train_indices in
  let* test_instances := mapM (get all_data) test_indices in
  let* train_labels := mapM (get all_labels) train_indices in
  let* test_labels := mapM (get all_labels) test_indices in
  Ok ((X_train ++ train_instances, y_train ++ train_labels, X_test ++ test_instances, y_test ++ test_labels), s).

(** experiments_utils.py:22-101, [_resample].  Labels are integers (the loader encodes them; their conversion to
    floats by the concatenation with an empty array keeps their values).  Arrays and lists of samples are treated
    alike: for arrays, numpy's check that train and test samples have the same shape is not modelled. *)
Definition resample (X_train : list T) (y_train : list Z) (X_test : list T) (y_test : list Z) (s : S) : res split4 :=
  let all_labels := y_train ++ y_test in
  let all_data := X_train ++ X_test in
  let '(unique_train, counts_train) := unique_counts y_train in
  let '(unique_test, counts_test) := unique_counts y_test in
  let* _ := guard (zlist_eqb unique_train unique_test) AssertionError in
  let* st := foldM (resample_class all_data all_labels unique_train counts_train)
                   (zrange 0 (zlen unique_train)) (([], [], [], []), s) in
  let '((X_train, y_train, X_test, y_test), _) := st in
  let '(_, counts_train_new) := unique_counts y_train in
  let '(_, counts_test_new) := unique_counts y_test in
  let* _ := guard (zlist_eqb counts_train_new counts_train) AssertionError in
  let* _ := guard (zlist_eqb counts_test_new counts_test) AssertionError in
  Ok (X_train, y_train, X_test, y_test).

(** experiments_utils.py:117-130 and 151-159: the data of fold [i].  The copies of fold 0 are not observable. *)
Definition fold_data (X_train : list T) (y_train : list Z) (X_test : list T) (y_test : list Z) (i : Z) : res split4 :=
  if i =? 0 then Ok (X_train, y_train, X_test, y_test)
  else resample X_train y_train X_test y_test (seed i).

Section SCORE.
(** The pipeline being evaluated (an object with a state) and the scorers. *)
Context {P V : Type} (fit : P -> list T -> list Z -> res P) (predict : P -> list T -> res (list Z))
  (scorers : list (list Z -> list Z -> V)).

(** experiments_utils.py:115-136, one fold.  The 'time' column is not modelled. *)
Definition score_fold (X_train : list T) (y_train : list Z) (X_test : list T) (y_test : list Z)
  (st : P * list (list V)) (i : Z) : res (P * list (list V)) :=
  let '(pipeline, rows) := st in
  let* d := fold_data X_train y_train X_test y_test i in
  let '(X_tr, y_tr, X_te, y_te) := d in
  let* pipeline := fit pipeline X_tr y_tr in
  let* y_pred := predict pipeline X_te in
  Ok (pipeline, rows ++ [map (fun scorer => scorer y_te y_pred) scorers]).

(** experiments_utils.py:110-138, [cross_validate_UCR_UEA.score] on the loaded data. *)
Definition score (n_split : Z) (X_train : list T) (y_train : list Z) (X_test : list T) (y_test : list Z) (pipeline : P)
  : res (list (list V)) :=
  let* st := foldM (score_fold X_train y_train X_test y_test) (zrange 0 n_split) (pipeline, []) in
  Ok (snd st).
End SCORE.
End RESAMPLE.

Section CV.
Context {F S : Type} (N : NumOps F) (shuf : list Z -> S -> list Z * S) (seed : Z -> S).

(** [(a == b).all()] for two series of the same length *)
Definition series_eqb (a b : list F) : bool :=
  forallb (fun p => neqb N (fst p) (snd p)) (combine a b).

(** [numpy.where((X == x).all(axis=2))[0][0]]: X has the shape (samples, channels, time) and x (channels, time).
    An empty result has no element 0. *)
Definition find_index (X : list (list (list F))) (x : list (list F)) : res Z :=
  let M := map (fun s => map (fun p => series_eqb (fst p) (snd p)) (combine s x)) X in
  match map fst (where2 M) with i :: _ => Ok i | [] => Err IndexError end.

(** experiments_utils.py:146-162, [_sklearn_cv.split], the pair yielded for fold [i]; the loaded data are arguments.
    Lists of series of unequal length (not convertible to an array) are not modelled. *)
Definition cv_split (X_train : list (list (list F))) (y_train : list Z) (X_test : list (list (list F))) (y_test : list Z)
  (X : list (list (list F))) (i : Z) : res (list Z * list Z) :=
  let* d := fold_data shuf seed X_train y_train X_test y_test i in
  let '(X_tr, _, X_te, _) := d in
  let* idx_Train := mapM (find_index X) X_tr in
  let* idx_Test := mapM (find_index X) X_te in
  Ok (idx_Train, idx_Test).
End CV.
