(** sklearn.base.clone on the estimators: which constructors keep the very objects they are given. *)
From Coq Require Import String ZArith List Bool.
From Verif Require Import Prelude Num Checks Estimator.
Import ListNotations.
Open Scope Z_scope.

Section CLONE.
Context {F : Type} (N : NumOps F) {RS : Type} (V : pyenv RS).

(** A Python object: its identity (what [is] compares) and its value.  Identities of existing objects are below a bound;
    new objects get identities from the bound upwards. *)
Record obj := mkObj { o_id : Z; o_val : pyv F }.

(** How a constructor turns one argument into the attribute of the same name: [rule new a], [new] being an unused identity. *)
Definition rule := Z -> obj -> res obj.

(** stored as it is *)
Definition keep : rule := fun _ a => Ok a.
(** checks_utils.py 12-16 and 18-24 return their argument; bool(x) of a bool is x *)
Definition keep_numeric : rule := fun _ a => let* _ := check_is_numeric (o_val a) in Ok a.
Definition keep_boolean : rule := fun _ a => let* _ := check_is_boolean (o_val a) in Ok a.
Definition keep_numeric_or_none : rule := fun n a => match o_val a with VNone => Ok a | _ => keep_numeric n a end.
(** checks_utils.py 136-168: an array is returned itself, a list becomes a new array *)
Definition array_1D : rule := fun n a =>
  let* v := check_array_1D N (o_val a) in
  Ok (match o_val a with VArr _ _ _ => a | _ => mkObj n v end).
(** rdst.py 486-491: CPython's str.lower returns a new string, whatever the case of its argument *)
Definition lowered : rule := fun n a =>
  let* _ := validate_transform_type (o_val a) in
  Ok (mkObj n (match o_val a with VStr s => VStr (lower s) | v => v end)).
(** rdst.py 139: int(x) is x for an int (a numpy integer is not told apart) and a new int for a float *)
Definition int_of_numeric : rule := fun n a =>
  let* v := check_is_numeric (o_val a) in
  let* k := as_int N v in
  Ok (match v with VInt _ => a | _ => mkObj n (VInt k) end).
(** rdst.py 141-146 *)
Definition bounds_rule : rule := fun _ a =>
  match o_val a with VNone => Ok a | v => let* k := py_len v in let* _ := guard (k =? 2) ValueError in Ok a end.
(** rdst.py 147-149 *)
Definition reduction_rule : rule := fun _ a =>
  let* v := check_is_numeric (o_val a) in
  let* r := as_F N v in
  let* _ := guard (negb (nleb N (n1 N) r)) ValueError in Ok a.
(** rdst.py 493-498 *)
Definition percentiles_rule : rule := fun n a => let* _ := validate_percentiles N (o_val a) in array_1D n a.
(** sklearn.utils.check_random_state: a RandomState is returned itself, None gives numpy's global one (identity 0), a
    seed a new one *)
Definition random_state_rule : rule := fun n a =>
  match o_val a with
  | VRng _ => Ok a
  | VNone => Ok (mkObj 0 (VRng 0))
  | VInt s => let* _ := guard ((0 <=? s) && (s <? 2 ^ 32)) ValueError in Ok (mkObj n (VRng n))
  | VBool _ => Ok (mkObj n (VRng n))
  | _ => Err ValueError
  end.
(** rdst.py 152-156, rdst_ridge.py 141-145: min(n_jobs, cpu_count()) returns its first argument when it is not larger *)
Definition n_jobs_rule : rule := fun n a =>
  let* v := init_n_jobs V (o_val a) in
  Ok (match o_val a with
      | VBool _ => a
      | VInt k => if (0 <=? k) && (k <=? v_cpus V) then a else mkObj n v
      | _ => mkObj n v
      end).
(** rdst_ensemble.py 198-201 *)
Definition transformers_rule : rule := fun n a =>
  match o_val a with VNone => Ok (mkObj n (VList [VOther; VOther; VOther])) | _ => Ok a end.

(** The parameters of the three constructors in the order of their signatures. *)
(** rdst.py 115-159 *)
Definition rdst_rules : list rule :=
  [lowered; keep_boolean; keep_numeric; keep_boolean; keep_numeric_or_none; int_of_numeric; array_1D; bounds_rule; reduction_rule;
   keep_boolean; keep_numeric; percentiles_rule; random_state_rule; keep; keep; n_jobs_rule].
(** rdst_ridge.py 105-147 *)
Definition ridge_rules : list rule :=
  [keep; keep; keep; keep; keep; keep; keep; keep; keep; keep; keep; keep; n_jobs_rule; keep; keep; keep; keep; keep].
(** rdst_ensemble.py 146-201 *)
Definition ensemble_rules : list rule :=
  [keep_numeric; array_1D; keep; keep; keep_boolean; keep_numeric_or_none; keep; keep; keep; random_state_rule; keep_numeric; keep_numeric;
   array_1D; keep_boolean; transformers_rule; keep; keep_boolean; keep; keep; keep; keep; keep; keep].

(** rdst_ensemble.py 203-211: the lengths of proba_norm (parameter 12) and input_transformers (parameter 14) agree *)
Definition ensemble_check (l : list obj) : res unit :=
  let* pn := get l 12 in
  let* tr := get l 14 in
  let* n := py_len (o_val pn) in
  let* m := py_len (o_val tr) in
  guard (m =? n) ValueError.

(** A call of the constructor: attribute i is made from argument i.  (When several arguments are refused, the exception
    raised is that of the first one in the signature; the bodies check them in another order.) *)
Fixpoint store (rules : list rule) (new : Z) (args : list obj) : res (list obj) :=
  match rules, args with
  | [], [] => Ok []
  | r :: rs, a :: l => let* o := r new a in let* os := store rs (new + 1) l in Ok (o :: os)
  | _, _ => Err TypeError
  end.
Definition construct (rules : list rule) (check : list obj -> res unit) (new : Z) (args : list obj) : res (list obj) :=
  let* l := store rules new args in let* _ := check l in Ok l.

(** copy.deepcopy (and clone of a list of estimators): immutable scalars are shared, everything else is copied *)
Definition deepcopy (new : Z) (o : obj) : obj :=
  match o_val o with
  | VNone | VBool _ | VInt _ | VFloat _ | VStr _ => o
  | VRng _ => mkObj new (VRng new)
  | v => mkObj new v
  end.

Fixpoint copies (new : Z) (l : list obj) : list obj :=
  match l with [] => [] | o :: t => deepcopy new o :: copies (new + 1) t end.

Inductive cloned := Cloned (attrs : list obj) | RuntimeError | Raised (e : err).

(** sklearn.base.clone(estimator) for an estimator whose parameters are the objects [attrs]: copies of the parameters are
    given to the constructor, and each parameter of the new object must be the very object given. *)
Definition clone (rules : list rule) (check : list obj -> res unit) (new : Z) (attrs : list obj) : cloned :=
  let params := copies new attrs in
  match construct rules check (new + zlen attrs) params with
  | Err e => Raised e
  | Ok attrs' => if forallb (fun p => o_id (fst p) =? o_id (snd p)) (combine params attrs') then Cloned attrs' else RuntimeError
  end.
End CLONE.
Arguments obj : clear implicits.
Arguments mkObj {F}.
Arguments Cloned {F}. Arguments RuntimeError {F}. Arguments Raised {F}.
