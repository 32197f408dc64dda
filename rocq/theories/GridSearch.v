(** Model of convst/utils/experiments_utils.py 165-190, [grid_search_UCR_UEA.score], and of the part of sklearn's
    GridSearchCV it uses. *)
From Coq Require Import ZArith List Bool.
From Verif Require Import Prelude Num Experiments.
Import ListNotations.
Open Scope Z_scope.

Section GRID.
(** [C]: a candidate, i.e. one combination of parameter values; [configure c]: clone(pipeline()) followed by
    set_params(c), which both may raise; [scorer q X y]: the scorer on a fitted pipeline; [best]: the position of the
    candidate GridSearchCV finds best. *)
Context {F S P C V : Type} (N : NumOps F) (shuf : list Z -> S -> list Z * S) (seed : Z -> S)
  (configure : C -> res P) (fit : P -> list (list (list F)) -> list Z -> res P)
  (scorer : P -> list (list (list F)) -> list Z -> res V) (best : list (list (option V)) -> Z).

(** GridSearchCV, one candidate on one fold: the samples at the two lists of positions.  When fit or the scorer raises,
    the cell is NaN ([None]); an exception of clone or set_params, or a position out of bounds, is not caught. *)
Definition grid_cell (X : list (list (list F))) (y : list Z) (c : C) (f : list Z * list Z) : res (option V) :=
  let '(tr, te) := f in
  let* p := configure c in
  let* X_tr := mapM (get X) tr in
  let* y_tr := mapM (get y) tr in
  let* X_te := mapM (get X) te in
  let* y_te := mapM (get y) te in
  match (let* q := fit p X_tr y_tr in scorer q X_te y_te) with
  | Ok v => Ok (Some v)
  | Err _ => Ok None
  end.

(** experiments_utils.py 173-187 on the loaded data, cv.fit and cv_results_: a row per candidate, a column per fold.
    ValueError if there is no fit to do, or if every one failed; the best candidate is then fitted on all the data.
    Means, deviations, ranks and timings of cv_results_ are not modelled. *)
Definition grid_search (n_split : Z) (X_train : list (list (list F))) (y_train : list Z) (X_test : list (list (list F)))
  (y_test : list Z) (cands : list C) : res (list (list (option V))) :=
  let X := X_train ++ X_test in
  let y := y_train ++ y_test in
  let* folds := mapM (cv_split N shuf seed X_train y_train X_test y_test X) (zrange 0 n_split) in
  let* table := mapM (fun c => mapM (grid_cell X y c) folds) cands in
  let* _ := guard (existsb (existsb (fun v => match v with Some _ => true | None => false end)) table) ValueError in
  let* c := get cands (best table) in
  let* p := configure c in
  let* _ := fit p X y in
  Ok table.
End GRID.
