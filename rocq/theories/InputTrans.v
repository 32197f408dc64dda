(** Model of the input transformers of convst/transformers/_input_transformers.py on the arguments of an ensemble
    (Python values).  Derivate on datasets is also in Preproc.v. *)
From Coq Require Import String ZArith List Bool.
From Verif Require Import Prelude Num Kernel Apply Gen Checks Estimator Classifiers.
Import ListNotations.
Open Scope Z_scope.

Section INPUT.
Context {F : Type} (N : NumOps F).

Definition numeric_dtype (dt : dtype) : bool := match dt with DInt64 | DFloat64 => true | _ => false end.

(** difference of two cells of an int64 or float64 array (without int64 overflow) *)
Definition sub_cell (a b : pyv F) : res (pyv F) :=
  match a, b with
  | VInt x, VInt y => Ok (VInt (x - y))
  | _, _ => let* x := as_F N a in let* y := as_F N b in Ok (VFloat (nsub N x y))
  end.
Definition diff_row (r : list (pyv F)) : res (list (pyv F)) :=
  mapM (fun p => sub_cell (fst p) (snd p)) (combine (skipn 1 r) r).

(** numpy.diff along the last axis of an int64 or float64 array of three dimensions.  Other arguments (lists are first
    turned into arrays by numpy; boolean arrays) are not modelled and refused. *)
Definition np_diff (X : pyv F) : res (pyv F) :=
  match X with
  | VArr [n; f; t] dt cells =>
      let* _ := guard (numeric_dtype dt) TypeError in
      let* rows := mapM diff_row (rows2 (n * f) t cells) in
      Ok (VArr [n; f; Z.max 0 (t - 1)] dt (concat rows))
  | _ => Err TypeError
  end.

(** _input_transformers.py:80-98, [Derivate]: the parameter order, replaced at fit by a random choice among 1, 2, 3, 4
    when random is set (the choice is an argument) *)
Record derivate := mkDer { de_order : Z; de_random : bool }.
Definition derivate_fit (choice : Z) (d : derivate) : derivate := if de_random d then mkDer choice (de_random d) else d.
Definition derivate_apply (d : derivate) : @itrans F :=
  fun X => foldM (fun X _ => np_diff X) (zrange 0 (de_order d)) X.

(** _input_transformers.py:74-78, [Raw] *)
Definition raw_apply : @itrans F := fun X => Ok X.

(** assignment X_new[i, j] = p for a row of n_ts cells *)
Definition store_row (n_ts : Z) (p : list F) : res (list (pyv F)) :=
  let* _ := guard (zlen p =? n_ts) ValueError in Ok (map VFloat p).

(** _input_transformers.py:113-123, [Periodigram.transform]; [pg window x] is scipy's periodogram(x, detrend=False,
    window=window)[1].  A list (or a tuple) cannot be indexed by [0, 0, :]; an array of objects has one dimension only.
    Arrays that are not int64 or float64 are not modelled and refused. *)
Definition periodigram_apply (pg : string -> list F -> res (list F)) (window : string) : @itrans F :=
  fun X =>
  match X with
  | VArr [n; f; t] dt cells =>
      let* _ := guard (numeric_dtype dt) TypeError in
      let* rows := mapM (mapM (as_F N)) (rows2 (n * f) t cells) in
      let* _ := guard ((0 <? n) && (0 <? f)) IndexError in
      let* r0 := get rows 0 in
      let* p0 := pg window r0 in
      let n_ts := zlen p0 in
      let* new := mapM (fun r => let* p := pg window r in store_row n_ts p) rows in
      Ok (VArr [n; f; n_ts] DFloat64 (concat new))
  | VArr _ _ _ => Err IndexError
  | _ => Err TypeError
  end.

(** _input_transformers.py:149-176, [FastHankelTransform]; [fht a dln mu offset bias] acts on each row of the last axis,
    [fhtoffset dln mu initial bias]: scipy.fft.  Line 167 passes dln as mu and bias as initial. *)
Record hankel := mkHan { hk_dln : F; hk_mu : F; hk_offset : F; hk_bias : F; hk_optimal : bool }.
Definition hankel_apply (fht : list F -> F -> F -> F -> F -> list F) (fhtoffset : F -> F -> F -> F -> F) (k : hankel)
  (X : dataset F) : dataset F :=
  map (map (fun r =>
    if hk_optimal k
    then fht r (hk_dln k) (hk_mu k) (fhtoffset (hk_dln k) (hk_dln k) (hk_bias k) (n0 N)) (hk_bias k)
    else fht r (hk_dln k) (hk_mu k) (hk_offset k) (hk_bias k))) X.
End INPUT.

(** The input transformers of an ensemble built without argument, rdst_ensemble.py 198-199 *)
Definition default_transformers {F} (N : NumOps F) (pg : string -> list F -> res (list F)) : list (@itrans F) :=
  [raw_apply; derivate_apply N (mkDer 1 false); periodigram_apply N pg "boxcar"].
