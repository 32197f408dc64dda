(** Model of convst/classifiers/rdst_ridge.py and convst/classifiers/rdst_ensemble.py. *)
From Coq Require Import ZArith List Bool.
From Verif Require Import Prelude Num Kernel Parallel Apply Gen Checks Estimator Preproc.
Import ListNotations.
Open Scope Z_scope.

(** decision_function of sklearn: one column per class, or a vector when there are two classes *)
Inductive decision (F : Type) := D1 (d : list F) | D2 (d : list (list F)).
Arguments D1 {F}. Arguments D2 {F}.

(** What the two classifiers use of sklearn and numpy: StandardScaler, RidgeClassifierCV built with the parameters [P]
    (alphas, class_weight, fit_intercept), exp and power.  [k_cv m] is the array cv_values_[:, :, alpha_idx] of a fitted
    ridge classifier, one row per training sample (alpha_idx is taken to select exactly one alpha). *)
Record sklearn (F SC P M : Type) := mkSk {
  k_scale_fit : list (list F) -> res SC;
  k_scale : SC -> list (list F) -> res (list (list F));
  k_ridge_fit : P -> list (list F) -> list Z -> res M;
  k_ridge_predict : M -> list (list F) -> res (list Z);
  k_decision : M -> list (list F) -> res (decision F);
  k_cv : M -> list (list F);
  k_exp : F -> F;
  k_pow : F -> F -> F
}.
Arguments k_scale_fit {F SC P M}. Arguments k_scale {F SC P M}. Arguments k_ridge_fit {F SC P M}. Arguments k_ridge_predict {F SC P M}.
Arguments k_decision {F SC P M}. Arguments k_cv {F SC P M}. Arguments k_exp {F SC P M}. Arguments k_pow {F SC P M}.

(** number of columns of a 2D array (an array without rows is not met: R_DST rejects it) *)
Definition ncols {A} (X : list (list A)) : Z := match X with r :: _ => zlen r | [] => 0 end.

Section CLASSIFIERS.
Context {F : Type} (N : NumOps F) {S : Type} (rng : Rng F S) {RS : Type} (V : pyenv RS) {SC P M : Type} (K : sklearn F SC P M).

(** ** R_DST_Ridge *)

(** make_pipeline(c_StandardScaler(with_mean=True), RidgeClassifierCV(...)), rdst_ridge.py 157-164: fit and predict *)
Definition pipe_fit (p : P) (X : list (list F)) (y : list Z) : res (@scaler SC * M) :=
  let* sc := c_fit N (k_scale_fit K) (ncols X) X in
  let* Z := c_transform (k_scale K) sc X in
  let* m := k_ridge_fit K p Z y in
  Ok (sc, m).
Definition pipe_predict (c : @scaler SC * M) (X : list (list F)) : res (list Z) :=
  let* Z := c_transform (k_scale K) (fst c) X in
  k_ridge_predict K (snd c) Z.

(** An R_DST_Ridge object: the arguments (max_channels is not one of them and stays None), the checked n_jobs, the
    attributes classifier (absent, not fitted, fitted) and transformer. *)
Record ridge := mkRidge {
  rd_args : @rargs F;
  rd_hyper : P;
  rd_n_jobs : pyv F;
  rd_classifier : option (option (@scaler SC * M));
  rd_transformer : option (@est F)
}.

(** rdst_ridge.py 105-147: only n_jobs is checked *)
Definition ridge_init (a : @rargs F) (p : P) : res ridge :=
  let* nj := init_n_jobs V (p_n_jobs a) in Ok (mkRidge a p nj None None).

(** rdst_ridge.py 165-181: the arguments given to R_DST *)
Definition ridge_rdst_args (a : @rargs F) : @rargs F :=
  mkArgs (p_transform_type a) (p_phase_invariance a) (p_alpha a) (p_normalize_output a) (p_n_samples a) (p_n_shapelets a)
    (p_shapelet_lengths a) (p_bounds a) (p_reduction a) (p_prime_dilations a) (p_proba_norm a) (p_percentiles a)
    (p_random_state a) None (p_min_len a) (VBool false).

(** rdst_ridge.py 156-200, [_init_components] and [fit]: a failure leaves what was assigned before it *)
Definition ridge_fit (ex : @executor S) (X : pyv F) (y : list Z) (r : ridge) (h : @heap RS) : res unit * ridge * heap :=
  let r1 := mkRidge (rd_args r) (rd_hyper r) (rd_n_jobs r) (Some None) (rd_transformer r) in
  match init N V (ridge_rdst_args (rd_args r)) h with
  | (Err e, h1) => (Err e, r1, h1)
  | (Ok t, h1) =>
      let '(u, t1, h2) := fit N rng V ex X y t h1 in
      let r2 := mkRidge (rd_args r) (rd_hyper r) (rd_n_jobs r) (Some None) (Some t1) in
      match (let* _ := u in let* Z := transform N t1 X in pipe_fit (rd_hyper r) Z y) with
      | Ok c => (Ok tt, mkRidge (rd_args r) (rd_hyper r) (rd_n_jobs r) (Some (Some c)) (Some t1), h2)
      | Err e => (Err e, r2, h2)
      end
  end.

(** rdst_ridge.py 202-219 (predicting after a fit that failed inside the pipeline raises; which exception depends on
    how far sklearn got, NotFittedError here) *)
Definition ridge_predict (r : ridge) (X : pyv F) : res (list Z) :=
  match rd_classifier r with
  | None => Err NotFittedError
  | Some c =>
      match rd_transformer r with
      | None => Err AttributeError
      | Some t => let* Z := transform N t X in
                  match c with None => Err NotFittedError | Some c => pipe_predict c Z end
      end
  end.

(** sklearn.metrics.accuracy_score *)
Definition accuracy (y p : list Z) : res F :=
  let* _ := guard (zlen y =? zlen p) ValueError in
  Ok (ndiv N (nofZ N (zlen (filter (fun q => fst q =? snd q) (combine y p)))) (nofZ N (zlen y))).

(** rdst_ridge.py 221-241 *)
Definition ridge_score (r : ridge) (X : pyv F) (y : list Z) : res F :=
  let* p := ridge_predict r X in accuracy y p.

(** ** R_DST_Ensemble *)

(** numpy argmax: the first position of a maximal value (NaN, which numpy counts as maximal, is not modelled) *)
Fixpoint argmax_from (l : list F) (i best : Z) (bv : F) : Z :=
  match l with
  | [] => best
  | v :: t => if nltb N bv v then argmax_from t (i + 1) i v else argmax_from t (i + 1) best bv
  end.
Definition argmax (l : list F) : res Z :=
  match l with [] => Err ValueError | v :: t => Ok (argmax_from t 1 0 v) end.

(** sklearn.utils.extmath.softmax of one row: the maximum of the row is subtracted first *)
Definition softmax (row : list F) : res (list F) :=
  match row with
  | [] => Err ValueError
  | v :: t =>
      let m := fold_left (fun m x => if nltb N m x then x else m) t v in
      let e := map (fun x => k_exp K (nsub N x m)) row in
      let s := nsum N e in
      Ok (map (fun x => ndiv N x s) e)
  end.

(** rdst_ensemble.py 28-58, [_internalRidgeCV] *)
Definition iridge_fit (p : P) (X : list (list F)) (y : list Z) : res (SC * M) :=
  let* sc := k_scale_fit K X in
  let* Z := k_scale K sc X in
  let* m := k_ridge_fit K p Z y in
  Ok (sc, m).
(** 41-45: the distances, one row per sample *)
Definition rows_of_decision (d : decision F) : list (list F) :=
  match d with D1 d => map (fun x => [nsub N (n0 N) x; x]) d | D2 d => d end.
Definition iridge_proba (c : SC * M) (X : list (list F)) : res (list (list F)) :=
  let* Z := k_scale K (fst c) X in
  let* d := k_decision K (snd c) Z in
  mapM softmax (rows_of_decision d).
(** 47-54: the decisions of the left-out samples are turned into class numbers and compared with the labels *)
Definition loocv_class (row : list F) : res Z :=
  match row with
  | [x] => Ok (if nltb N (n0 N) x then 1 else 0)
  | _ => argmax row
  end.
Definition loocv_acc (c : SC * M) (y : list Z) : res F :=
  let* p := mapM loocv_class (k_cv K (snd c)) in accuracy p y.

(** An input transformer: what its fit_transform and transform do to the data *)
Definition itrans := pyv F -> res (pyv F).

(** A fitted member: make_pipeline(input transformer, R_DST, _internalRidgeCV) *)
Record member := mkMember { m_in : itrans; m_rdst : @est F; m_ridge : SC * M }.

(** An R_DST_Ensemble object.  [en_args] holds the arguments common to the members (proba_norm, n_jobs and random_state
    are kept apart).  [en_fitted]: the attributes models and model_weights. *)
Record ens := mkEns {
  en_args : @rargs F;
  en_hyper : P;
  en_a_w : pyv F;
  en_probas : list (pyv F);
  en_trans : list itrans;
  en_rs : Z;
  en_n_jobs : pyv F;
  en_n_jobs_rdst : option Z;
  en_fitted : option (list member * list F)
}.

(** rdst_ensemble.py 146-211: n_jobs and a few others are stored unchecked; [a] carries the checked values *)
Definition ens_init (a : @rargs F) (p : P) (a_w proba_norm : pyv F) (trans : list itrans) (h : @heap RS) : res ens * heap :=
  let before :=
    let* ph := check_is_boolean (p_phase_invariance a) in
    let* no := check_is_boolean (p_normalize_output a) in
    let* ns := match p_n_samples a with VNone => Ok VNone | v => check_is_numeric v end in
    let* pr := check_is_boolean (p_prime_dilations a) in
    Ok (ph, no, ns, pr) in
  match before with
  | Err e => (Err e, h)
  | Ok (ph, no, ns, pr) =>
      let '(r, h') := check_random_state V (p_random_state a) h in
      (let* id := r in
       let* nsh := check_is_numeric (p_n_shapelets a) in
       let* sl := check_array_1D N (p_shapelet_lengths a) in
       let* al := check_is_numeric (p_alpha a) in
       let* aw := check_is_numeric a_w in
       let* pn := check_array_1D N proba_norm in
       let* n := py_len pn in
       let* ps := match pn with VArr _ _ cells => Ok cells | _ => Err TypeError end in
       let* _ := guard (zlen trans =? n) ValueError in
       Ok (mkEns (mkArgs (p_transform_type a) (VBool ph) al (VBool no) ns nsh sl (p_bounds a) (p_reduction a) (VBool pr)
                    VNone (p_percentiles a) (VRng id) (p_max_channels a) (p_min_len a) VNone)
                 p aw ps trans id (p_n_jobs a) None None), h')
  end.

(** rdst_ensemble.py 234-250: the arguments of the R_DST of member i (normalize_output keeps its default False) *)
Definition member_args (e : ens) (pn : pyv F) : @rargs F :=
  let a := en_args e in
  mkArgs (p_transform_type a) (p_phase_invariance a) (p_alpha a) (VBool false) (p_n_samples a) (p_n_shapelets a)
    (p_shapelet_lengths a) (p_bounds a) (p_reduction a) (p_prime_dilations a) pn (p_percentiles a)
    (VRng (en_rs e)) (p_max_channels a) (p_min_len a) (VBool false).

(** rdst_ensemble.py 229-257: construction and fit of member i *)
Definition member_fit (ex : @executor S) (e : ens) (X : pyv F) (y : list Z) (i : Z) (h : @heap RS) : res member * heap :=
  match (let* tr := get (en_trans e) i in let* pn := get (en_probas e) i in Ok (tr, pn)) with
  | Err er => (Err er, h)
  | Ok (tr, pn) =>
      match init N V (member_args e pn) h with
      | (Err er, h1) => (Err er, h1)
      | (Ok t, h1) =>
          match tr X with
          | Err er => (Err er, h1)
          | Ok X1 =>
              let '(u, t1, h2) := fit N rng V ex X1 y t h1 in
              (let* _ := u in
               let* Z := transform N t1 X1 in
               let* c := iridge_fit (en_hyper e) Z y in
               Ok (mkMember tr t1 c), h2)
          end
      end
  end.

(** joblib's Parallel with shared memory (228-259): the members are fitted in the order [sched] in which their threads
    run, each fit being one step (a fit touches the shared generator once); the results come back by position.  After a
    failure no further fit is run (simplification: joblib may let fits already started finish). *)
Fixpoint run_members (ex : @executor S) (e : ens) (X : pyv F) (y : list Z) (sched : list Z) (h : @heap RS) : res (list (Z * member)) * heap :=
  match sched with
  | [] => (Ok [], h)
  | i :: t =>
      match member_fit ex e X y i h with
      | (Err er, h1) => (Err er, h1)
      | (Ok m, h1) =>
          let '(r, h2) := run_members ex e X y t h1 in
          (let* ms := r in Ok ((i, m) :: ms), h2)
      end
  end.
Definition find_member (ms : list (Z * member)) (i : Z) : res member :=
  match filter (fun p => fst p =? i) ms with p :: _ => Ok (snd p) | [] => Err IndexError end.

(** rdst_ensemble.py 220-223, [_manage_n_jobs]: n_jobs is overwritten before the division *)
Definition manage_n_jobs (e : ens) : res Z * ens :=
  match check_n_jobs (v_cpus V) (en_n_jobs e) with
  | Err er => (Err er, e)
  | Ok total =>
      let n := Z.min (zlen (en_trans e)) total in
      let e1 := mkEns (en_args e) (en_hyper e) (en_a_w e) (en_probas e) (en_trans e) (en_rs e) (VInt n) (en_n_jobs_rdst e) (en_fitted e) in
      if n =? 0 then (Err ZeroDivisionError, e1)
      else let k := Z.max 1 (total / n) in
           (Ok k, mkEns (en_args e) (en_hyper e) (en_a_w e) (en_probas e) (en_trans e) (en_rs e) (VInt n) (Some k) (en_fitted e))
  end.

(** rdst_ensemble.py 262-265 *)
Definition ens_weights (e : ens) (y : list Z) (ms : list member) : res (list F) :=
  mapM (fun m => let* acc := loocv_acc (m_ridge m) y in let* a := as_F N (en_a_w e) in Ok (k_pow K acc a)) ms.
(** rdst_ensemble.py 225-266, [fit] *)
Definition ens_fit (ex : @executor S) (sched : list Z) (X : pyv F) (y : list Z) (e : ens) (h : @heap RS) : res unit * ens * heap :=
  match manage_n_jobs e with
  | (Err er, e1) => (Err er, e1, h)
  | (Ok k, e1) =>
      match set_num_threads V k with
      | Err er => (Err er, e1, h)
      | Ok _ =>
          let '(r, h1) := run_members ex e1 X y sched h in
          match (let* ms := r in mapM (find_member ms) (zrange 0 (zlen (en_trans e)))) with
          | Err er => (Err er, e1, h1)
          | Ok models =>
              let with_fitted f := mkEns (en_args e1) (en_hyper e1) (en_a_w e1) (en_probas e1) (en_trans e1) (en_rs e1) (en_n_jobs e1)
                                     (en_n_jobs_rdst e1) f in
              match ens_weights e1 y models with
              | Ok ws => (Ok tt, with_fitted (Some (models, ws)), h1)
              | Err er =>
                  (** models is already overwritten, model_weights keeps its old value if it had one *)
                  (Err er, with_fitted (match en_fitted e1 with Some (_, ws) => Some (models, ws) | None => None end), h1)
              end
          end
      end
  end.

(** rdst_ensemble.py 65-66 *)
Definition member_proba (m : member) (w : F) (X : pyv F) : res (list (list F)) :=
  let* X1 := m_in m X in
  let* Z := transform N (m_rdst m) X1 in
  let* p := iridge_proba (m_ridge m) Z in
  Ok (map (map (fun v => nmul N v w)) p).

(** sum over the members of arrays of one shape (numpy adds them one after the other); other shapes do not form an array *)
Definition add_rows (a b : list F) : res (list F) :=
  let* _ := guard (zlen a =? zlen b) ValueError in Ok (map (fun p => nadd N (fst p) (snd p)) (combine a b)).
Definition add_mats (a b : list (list F)) : res (list (list F)) :=
  let* _ := guard (zlen a =? zlen b) ValueError in mapM (fun p => add_rows (fst p) (snd p)) (combine a b).

(** rdst_ensemble.py 268-278, [predict]: the number of the class, for each sample *)
Definition ens_predict (e : ens) (X : pyv F) : res (list Z) :=
  match en_fitted e with
  | None => Err NotFittedError
  | Some (models, ws) =>
      let* ps := mapM (fun mw => member_proba (fst mw) (snd mw) X) (combine models ws) in
      match ps with
      | [] => Err ValueError
      | p :: t => let* s := foldM add_mats t p in mapM argmax s
      end
  end.
End CLASSIFIERS.
