(** Model of convst/utils/checks_utils.py, and of the Python values it tells apart. *)
From Coq Require Import ZArith List Bool Lia String Ascii.
From Verif Require Import Prelude Num.
Import ListNotations.
Open Scope Z_scope.

(** Element types of numpy arrays.  [DOtherNum] stands for the other numeric types (int32, float16, ...). *)
Inductive dtype := DBool | DInt64 | DFloat32 | DFloat64 | DOtherNum | DStr | DObject.

Definition dtype_eqb (a b : dtype) : bool :=
  match a, b with
  | DBool, DBool | DInt64, DInt64 | DFloat32, DFloat32 | DFloat64, DFloat64
  | DOtherNum, DOtherNum | DStr, DStr | DObject, DObject => true
  | _, _ => false
  end.

Section Values.
Context {F : Type}.

(** Python values given to the constructors and to fit/transform.  numpy integers and numpy.float64 scalars are not
    distinguished from int and float (the code tests isinstance against both, and numpy.float64 is a subclass of
    float).  [VArr] is a numpy array: shape, element type, cells in row-major order.  [VFrame] is a pandas DataFrame
    (two-dimensional, no attribute dtype; [dt] is the element type of its .values).  [VRng] is a numpy RandomState, by reference.  [VOther] is any other
    object: it has none of the attributes used by the code. *)
Inductive pyv : Type :=
| VNone
| VBool (b : bool)
| VInt (z : Z)
| VFloat (x : F)
| VStr (s : string)
| VList (l : list pyv)
| VTuple (l : list pyv)
| VArr (shape : list Z) (dt : dtype) (cells : list pyv)
| VFrame (rows cols : Z) (dt : dtype) (cells : list pyv)
| VRng (id : Z)
| VOther.

Context (N : NumOps F).

(** ** numpy.asarray of a list *)

Definition shape_eqb (a b : list Z) : bool := if list_eq_dec Z.eq_dec a b then true else false.

(** Common shape of nested sequences; [None] when they are ragged. *)
Fixpoint shape_of (v : pyv) : option (list Z) :=
  let fix seq (l : list pyv) : option (list Z) :=
      match l with
      | [] => Some [0]
      | [x] => option_map (cons 1) (shape_of x)
      | x :: t => match shape_of x, seq t with
                  | Some s, Some (n :: s') => if shape_eqb s s' then Some (n + 1 :: s') else None
                  | _, _ => None
                  end
      end in
  match v with
  | VList l => seq l
  | VTuple l => seq l
  | VArr sh _ _ => Some sh
  | VFrame r c _ _ => Some [r; c]
  | _ => Some []
  end.

Fixpoint leaves (v : pyv) : list pyv :=
  match v with
  | VList l => flat_map leaves l
  | VTuple l => flat_map leaves l
  | VArr _ _ cs => cs
  | VFrame _ _ _ cs => cs
  | _ => [v]
  end.

Definition leaf_dtype (v : pyv) : dtype :=
  match v with
  | VBool _ => DBool
  | VInt _ => DInt64
  | VFloat _ => DFloat64
  | VStr _ => DStr
  | _ => DObject
  end.

(** Promotion of element types; mixtures other than bool/int/float give [DObject] (numpy gives strings or narrower
    types for some of them; the code treats all of these alike, as neither int nor float). *)
Definition promote (a b : dtype) : dtype :=
  if dtype_eqb a b then a else
  let num d := match d with DBool | DInt64 | DFloat32 | DFloat64 => true | _ => false end in
  let int d := match d with DBool | DInt64 => true | _ => false end in
  if int a && int b then DInt64 else if num a && num b then DFloat64 else DObject.

Definition cast_cell (dt : dtype) (v : pyv) : pyv :=
  match dt, v with
  | DInt64, VBool b => VInt (if b then 1 else 0)
  | DFloat64, VInt z => VFloat (nofZ N z)
  | DFloat64, VBool b => VFloat (nofZ N (if b then 1 else 0))
  | _, _ => v
  end.

(** numpy.asarray(list).  An empty list has type float64.  Ragged lists raise ValueError (numpy 1.24; older
    versions warn and build an array of objects). *)
Definition np_asarray (v : pyv) : res pyv :=
  match shape_of v with
  | None => Err ValueError
  | Some sh =>
      let cs := leaves v in
      let dt := match cs with [] => DFloat64 | c :: t => fold_left (fun d x => promote d (leaf_dtype x)) t (leaf_dtype c) end in
      Ok (VArr sh dt (map (cast_cell dt) cs))
  end.

(** ** checks_utils.py *)

(** checks_utils.py 7-10 *)
Definition is_int (x : pyv) : bool := match x with VInt _ => true | _ => false end.

(** checks_utils.py 12-16 *)
Definition check_is_numeric (x : pyv) : res pyv :=
  match x with VInt _ | VFloat _ => Ok x | _ => Err ValueError end.

(** checks_utils.py 18-24 *)
Definition check_is_boolean (x : pyv) : res bool :=
  match x with VBool b => Ok b | _ => Err ValueError end.

(** checks_utils.py 28-48; [cpus] is os.cpu_count() *)
Definition check_n_jobs (cpus : Z) (n_jobs : pyv) : res Z :=
  match n_jobs with
  | VNone => Ok 1
  | VInt n => if n <? 0 then Ok (cpus + n + 1) else Ok (Z.min n cpus)
  | _ => Err ValueError
  end.

Definition prod (l : list Z) : Z := fold_left Z.mul l 1.

(** .shape of an array or a frame *)
Definition shape (X : pyv) : list Z :=
  match X with VArr sh _ _ => sh | VFrame r c _ _ => [r; c] | _ => [] end.

(** checks_utils.py 170-200 *)
Definition check_is_numpy_or_pd (X : pyv) : res pyv :=
  match X with
  | VList _ => np_asarray X
  | VFrame _ _ _ _ => Ok X
  | VArr _ _ _ => Ok X
  | _ => Err ValueError
  end.

(** checks_utils.py 202-228 *)
Definition check_is_numpy (X : pyv) : res pyv :=
  match X with
  | VList _ => np_asarray X
  | VArr _ _ _ => Ok X
  | _ => Err ValueError
  end.

(** The conditions of checks_utils.py 74-88 and 91-95 on the shape *)
Definition check_shape_3D (sh : list Z) (is_univariate : bool) (min_timestamps : Z) : res unit :=
  match sh with
  | [_; ft; ts] =>
      let* _ := guard (negb (prod sh =? 0)) ValueError in
      let* _ := guard (min_timestamps <? ts) ValueError in
      guard (negb is_univariate || (ft =? 1)) ValueError
  | _ => Err ValueError
  end.

(** checks_utils.py 50-96.  A DataFrame has two dimensions, so the test at line 89 is never reached with one. *)
Definition check_array_3D (X : pyv) (is_univariate : bool) (min_timestamps : Z) : res pyv :=
  let* X := check_is_numpy_or_pd X in
  let* _ := check_shape_3D (shape X) is_univariate min_timestamps in
  Ok X.

(** checks_utils.py 98-134 *)
Definition check_array_2D (X : pyv) (coerce_to_numpy : bool) : res pyv :=
  let* X := check_is_numpy_or_pd X in
  let* _ := guard (zlen (shape X) =? 2) ValueError in
  let* _ := guard (negb (prod (shape X) =? 0)) ValueError in
  Ok (match X with
      | VFrame r c dt cells => if coerce_to_numpy then VArr [r; c] dt cells else X
      | _ => X
      end).

(** checks_utils.py 136-168 *)
Definition check_array_1D (X : pyv) : res pyv :=
  let* X := check_is_numpy X in
  let* _ := guard (zlen (shape X) =? 1) ValueError in
  let* _ := guard (negb (prod (shape X) =? 0)) ValueError in
  Ok X.

End Values.
Arguments pyv : clear implicits.
