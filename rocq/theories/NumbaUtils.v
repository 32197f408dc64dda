(** Model of convst/utils/numba_utils.py. *)
From Coq Require Import ZArith List Bool.
From Verif Require Import Prelude Num Gen Sorting.
Import ListNotations.
Open Scope Z_scope.

(** A 2D array: number of columns and rows (numpy keeps the number of columns of
    an array without rows). *)
Record arr2 (F : Type) : Type := mkArr2 { a_cols : Z; a_rows : list (list F) }.
Arguments mkArr2 {F}. Arguments a_cols {F}. Arguments a_rows {F}.

Definition map2 {A B C} (f : A -> B -> C) (l : list A) (m : list B) : list C :=
  map (fun p => f (fst p) (snd p)) (combine l m).

(** convst/utils/numba_utils.py:19-24, [_np_all_axis0].  Reads rows 0 and 1. *)
Definition np_all_axis0 (arr : list (list bool)) : res (list bool) :=
  let* r0 := get arr 0 in
  let* r1 := get arr 1 in
  Ok (fold_left (fun out v => map2 (fun v2 o => v2 && o) v out) (slice arr 2 (zlen arr)) (map2 andb r0 r1)).

(** convst/utils/numba_utils.py:31-37, [_np_all_axis1].  The loops fill one cell
    of [out] per row, so the model computes the cells row by row; columns 0 and 1
    are read even without rows, which cannot fail then. *)
Definition np_all_axis1 (arr : list (list bool)) : res (list bool) :=
  mapM (fun r =>
    let* c0 := get r 0 in
    let* c1 := get r 1 in
    Ok (fold_left (fun o v2 => v2 && o) (slice r 2 (zlen r)) (c0 && c1))) arr.

(** convst/utils/numba_utils.py:64-71, the 2D implementation: any axis but 0 is
    treated as 1. *)
Definition np_all_2d (arr : list (list bool)) (axis : Z) : res (list bool) :=
  if axis =? 0 then np_all_axis0 arr else np_all_axis1 arr.

Section UNIQUE.
Context {F : Type} (N : NumOps F).

(** [input_data.T.copy()] *)
Definition transpose (A : arr2 F) : res (arr2 F) :=
  let* rows := mapM (fun j => mapM (fun r => get r j) (a_rows A)) (zrange 0 (a_cols A)) in
  Ok (mkArr2 (zlen (a_rows A)) rows).

(** One pass of the loop at convst/utils/numba_utils.py:110-115.  [argsort] of
    NaNs is not modelled (theorems exclude them). *)
Definition unique_pass (st : list (list F) * list Z) (i : Z) : res (list (list F) * list Z) :=
  let '(data, orig) := st in
  let* col := mapM (fun r => get r i) data in
  let sorter := argsort (nltb N) col in
  let* data' := mapM (get data) sorter in
  let* orig' := mapM (get orig) sorter in
  Ok (data', orig').

(** convst/utils/numba_utils.py:84-133, [nb_unique]. *)
Definition nb_unique (input : arr2 F) (axis : Z) : res (list (list F) * list Z * list Z) :=
  let* A := if axis =? 1 then transpose input else Ok input in
  let n := zlen (a_rows A) in
  let* st := foldM unique_pass (rev (zrange 0 (a_cols A))) (a_rows A, zrange 0 n) in
  let '(data, orig) := st in
  let eqs := map2 (map2 (neqb N)) (slice data 0 (-1)) (slice data 1 n) in
  let* additional :=
    if a_cols A >? 1
    then let* al := np_all_2d eqs 1 in Ok (map (fun j => j + 1) (where_ (map negb al)))
    else Ok (map (fun p => fst p + 1) (where2 (map (map negb) eqs))) in
  let idx := 0 :: additional in
  let counts := map2 Z.sub (slice idx 1 (zlen idx) ++ [n]) idx in
  let* d := mapM (get data) idx in
  let* o := mapM (get orig) idx in
  Ok (d, o, counts).
End UNIQUE.
