(** Model of the data preparation: convst/utils/dataset_utils.py and
    convst/transformers/_input_transformers.py. *)
From Coq Require Import ZArith List Bool.
From Verif Require Import Prelude Num Kernel Apply Gen.
Import ListNotations.
Open Scope Z_scope.

Section PREPROC.
Context {F : Type} (N : NumOps F).

(** * convst/utils/dataset_utils.py *)

(** [X[i, j] = (X[i, j] - X[i, j].mean()) / (X[i, j].std() + 1e-8)]: the series is read, normalised and written back. *)
Definition znorm_cell (X : dataset F) (i j : Z) : res (dataset F) :=
  let* smp := get X i in
  let* x := get smp j in
  upd_at X i (fun s => set s j (znorm N x)).

(** dataset_utils.py:14-36, [z_norm_3D].  Not compiled with parallel=True, so prange is range.  The argument is
    overwritten and returned: the result is also the new content of the argument.  Cells are floats (writing into an
    integer array would truncate; not modelled). *)
Definition z_norm_3D (X : dataset F) : res (dataset F) :=
  foldM (fun X i_x => foldM (fun X i_ft => znorm_cell X i_x i_ft) (zrange 0 (shape1 X)) X) (zrange 0 (zlen X)) X.

(** dataset_utils.py:39-61, [z_norm_3D_list]; also in place. *)
Definition z_norm_3D_list (X : dataset F) : res (dataset F) :=
  foldM (fun X i_x =>
    let* smp := get X i_x in
    foldM (fun X i_ft => znorm_cell X i_x i_ft) (zrange 0 (zlen smp)) X) (zrange 0 (zlen X)) X.

(** sklearn.preprocessing.LabelEncoder on integer labels: [fit] sorts the distinct labels, [transform] gives the
    position of a label and raises ValueError on an unseen one.  (UCR labels are strings; only their order matters.) *)
Definition le_transform (classes : list Z) (y : list Z) : res (list Z) :=
  mapM (fun l => match where_ (map (Z.eqb l) classes) with i :: _ => Ok i | [] => Err ValueError end) y.

(** What aeon's load_classification returns: an array when all series have the same length, a list otherwise. *)
Inductive container := CArr (X : dataset F) | CList (X : dataset F).
Definition items (c : container) : dataset F := match c with CArr X => X | CList X => X end.
Definition is_list (c : container) : bool := match c with CArr _ => false | CList _ => true end.

(** [min([len(X[i][0]) for i in range(len(X))])] *)
Definition shortest (X : dataset F) : res Z :=
  let* ls := mapM (fun smp => let* x := get smp 0 in Ok (zlen x)) X in min_list ls.

(** z_norm_3D applied to the content of a container: a list of arrays is rejected by numba's typing. *)
Definition z_norm_arr (c : container) : res container :=
  match c with CArr X => let* X' := z_norm_3D X in Ok (CArr X') | CList _ => Err TypeError end.
Definition z_norm_lst (c : container) : res container :=
  match c with
  | CArr X => let* X' := z_norm_3D_list X in Ok (CArr X')
  | CList X => let* X' := z_norm_3D_list X in Ok (CList X')
  end.

(** dataset_utils.py:64-111, [load_UCR_UEA_dataset_split]; the data read by aeon are arguments. *)
Definition load_split (X_train X_test : container) (y_train y_test : list Z) (normalize : bool)
  : res (container * container * list Z * list Z * Z) :=
  let le := unique y_train in
  let* y_train := le_transform le y_train in
  let* y_test := le_transform le y_test in
  let* m1 := shortest (items X_train) in
  let* m2 := shortest (items X_test) in
  let min_len := Z.min m1 m2 in
  let* XX := if normalize && negb (is_list X_train)
             then let* a := z_norm_arr X_train in let* b := z_norm_arr X_test in Ok (a, b)
             else Ok (X_train, X_test) in
  let '(X_train, X_test) := XX in
  let* XX := if normalize && is_list X_train
             then let* a := z_norm_lst X_train in let* b := z_norm_lst X_test in Ok (a, b)
             else Ok (X_train, X_test) in
  let '(X_train, X_test) := XX in
  Ok (X_train, X_test, y_train, y_test, min_len).

(** * convst/transformers/_input_transformers.py *)

(** _input_transformers.py:43-49, [z_norm_one_sample]: row i of the new array is written once, by iteration i. *)
Definition z_norm_one_sample (x : list (list F)) : res (list (list F)) :=
  mapM (fun i => let* xi := get x i in Ok (znorm N xi)) (zrange 0 (zlen x)).

(** _input_transformers.py:52-58, [z_norm_all_samples]: the parallel iterations write distinct cells. *)
Definition z_norm_all_samples (X : dataset F) : res (dataset F) :=
  mapM (fun i => let* x := get X i in z_norm_one_sample x) (zrange 0 (zlen X)).

(** [numpy.diff] of one series. *)
Definition ndiff (x : list F) : list F :=
  map (fun p => nsub N (fst p) (snd p)) (combine (slice x 1 (zlen x)) (slice x 0 (-1))).

(** _input_transformers.py:91-94, [Derivate.transform] on an array (the last axis is time). *)
Definition derivate_transform (order : Z) (X : dataset F) : dataset F :=
  fold_left (fun X _ => map (map ndiff) X) (zrange 0 order) X.

(** [X[:, cols]] of a 2D array. *)
Definition take_cols (X : list (list F)) (cols : list Z) : res (list (list F)) :=
  mapM (fun r => mapM (get r) cols) X.

(** [X[:, j]] *)
Definition column (X : list (list F)) (j : Z) : res (list F) := mapM (fun r => get r j) X.

(** [numpy.where(numpy.std(X, axis=0) != 0)[0]] for X with p columns (numpy adds the rows of X one after the other). *)
Definition usefull_atts (p : Z) (X : list (list F)) : res (list Z) :=
  let* cols := mapM (column X) (zrange 0 p) in
  Ok (where_ (map (fun col => negb (neqb N (std N col) (n0 N))) cols)).

Section SCALER.
(** The sklearn scaler being extended (StandardScaler or MinMaxScaler): its own fit and transform are arguments. *)
Context {S : Type} (sk_fit : list (list F) -> res S) (sk_transform : S -> list (list F) -> res (list (list F))).

Record scaler := mkScaler { sc_atts : list Z; sc_inner : S }.

(** _input_transformers.py:26-28 ([c_StandardScaler]) and 35-37 ([c_MinMaxScaler]), [fit]. *)
Definition c_fit (p : Z) (X : list (list F)) : res scaler :=
  let* atts := usefull_atts p X in
  let* sel := take_cols X atts in
  let* s := sk_fit sel in
  Ok (mkScaler atts s).

(** _input_transformers.py:30-31 and 39-40, [transform]. *)
Definition c_transform (sc : scaler) (X : list (list F)) : res (list (list F)) :=
  let* sel := take_cols X (sc_atts sc) in
  sk_transform (sc_inner sc) sel.
End SCALER.
End PREPROC.
