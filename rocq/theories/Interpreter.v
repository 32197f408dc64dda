(** Model of convst/interpreters/rdst_interpreter.py.  A plotting call is modelled by the data it hands to matplotlib or
    seaborn; figures, colours and legends are not modelled. *)
From Coq Require Import ZArith List Bool.
From Verif Require Import Prelude Num Kernel Parallel Apply Gen Checks Estimator Preproc Classifiers.
Import ListNotations.
Open Scope Z_scope.

(** indexing of a numpy array by interpreted code: negative indices count from the end *)
Definition pyget {A} (l : list A) (i : Z) : res A := match get l i with Ok x => Ok x | Err _ => Err IndexError end.
Definition pyset {A} (l : list A) (i : Z) (x : A) : res (list A) := match set l i x with Ok l' => Ok l' | Err _ => Err IndexError end.

Section INTERPRETER.
Context {F : Type} (N : NumOps F).

(** numpy argmin: the first position of a minimal value (NaN is not modelled) *)
Fixpoint argmin_from (l : list F) (i best : Z) (bv : F) : Z :=
  match l with
  | [] => best
  | v :: t => if nltb N v bv then argmin_from t (i + 1) i v else argmin_from t (i + 1) best bv
  end.
Definition argmin (l : list F) : res Z :=
  match l with [] => Err ValueError | v :: t => Ok (argmin_from t 1 0 v) end.

(** ** Shapelet *)

(** rdst_interpreter.py 49-55 *)
Record shapelet := mkShp {
  sp_values : list F;
  sp_length : Z;
  sp_dilation : Z;
  sp_norm : bool;
  sp_threshold : F;
  sp_phase : bool
}.

(** What plot_on_X draws: the curve, and the dots (one per value of the shapelet) *)
Record drawing := mkDrawing { dw_curve : list F; dw_at : list Z; dw_dots : list F }.

(** rdst_interpreter.py 134-161; X is one channel.  matplotlib's scatter refuses positions and heights of different
    numbers.  numpy's mean and std are those of [Kernel] (numpy may add in another order). *)
Definition shp_plot_on_X (s : shapelet) (X : list F) : res drawing :=
  let* c := compute_shapelet_dist_vector N X (sp_values s) (sp_length s) (sp_dilation s) (sp_norm s) (sp_phase s) in
  let* idx_match := mapM (fun i => let* a := argmin c in Ok ((a + i * sp_dilation s) mod zlen X)) (zrange 0 (sp_length s)) in
  let* _values :=
    if sp_norm s then
      let* w := mapM (pyget X) idx_match in
      Ok (map (fun v => nadd N (nmul N v (std N w)) (mean N w)) (sp_values s))
    else Ok (sp_values s) in
  let* _ := guard (zlen idx_match =? zlen _values) ValueError in
  Ok (mkDrawing X idx_match _values).

(** rdst_interpreter.py 189-202: the curve, and the height of the horizontal line *)
Definition shp_plot_distance_vector (s : shapelet) (X : list F) : res (list F * F) :=
  let* c := compute_shapelet_dist_vector N X (sp_values s) (sp_length s) (sp_dilation s) (sp_norm s) (sp_phase s) in
  Ok (c, sp_threshold s).

(** rdst_interpreter.py 75-92: the curve, and the dilation, normalisation and threshold of the title (before rounding) *)
Definition shp_plot (s : shapelet) : list F * (Z * bool * F) := (sp_values s, (sp_dilation s, sp_norm s, sp_threshold s)).

(** ** RDST_interpreter *)

(** rdst_interpreter.py 229-242: shapelets_ of a multivariate model is a tuple of seven arrays, which cannot be unpacked
    into five variables *)
Definition get_params (t : @est F) (id_shapelet : Z) : res shapelet :=
  match e_shapelets t with
  | None => Err AttributeError
  | Some (FM _) => Err ValueError
  | Some (FU s) =>
      match e_type t with
      | TKind KM | TKind KMV => Err NotImplementedErr
      | _ =>
          let* length_ := pyget (us_len s) id_shapelet in
          let* row := pyget (us_values s) id_shapelet in
          let* dilation := pyget (us_dil s) id_shapelet in
          let* norm := pyget (us_norm s) id_shapelet in
          let* threshold_ := pyget (us_thr s) id_shapelet in
          Ok (mkShp (slice row 0 length_) length_ dilation norm threshold_ (e_phase t))
      end
  end.

(** rdst_interpreter.py 244-336 *)
Definition plot_on_X (t : @est F) (id_shapelet : Z) (X : list F) : res drawing :=
  let* s := get_params t id_shapelet in shp_plot_on_X s X.
Definition plot_distance_vector (t : @est F) (id_shapelet : Z) (X : list F) : res (list F * F) :=
  let* s := get_params t id_shapelet in shp_plot_distance_vector s X.
Definition plot (t : @est F) (id_shapelet : Z) : res (list F * (Z * bool * F)) :=
  let* s := get_params t id_shapelet in Ok (shp_plot s).

(** ** RDST_Ridge_interpreter *)

Section RIDGE.
(** [k_coef m] is the attribute coef_ of a fitted RidgeClassifierCV: one row per class, or a single row when there are two
    classes.  [argsort] is numpy's, whose order of equal values is not specified. *)
Context {SC P M : Type} (k_coef : M -> list (list F)) (argsort : list F -> list Z).

(** An object given to a constructor: one of the three estimators, or something without a method fit.  (Other estimators,
    which may have an attribute of the same name, are not modelled.) *)
Inductive pyobj := ORdst (t : @est F) | ORidge (r : @ridge F SC P M) | OEns (e : @ens F SC P M) | OOther.

(** rdst_interpreter.py 220-227; check_is_fitted(obj, ['shapelets_']) asks for a method fit and for the attribute *)
Definition rdst_interp (o : pyobj) : res (@est F) :=
  match o with
  | OOther => Err TypeError
  | ORdst t => match e_shapelets t with None => Err NotFittedError | Some _ => Ok t end
  | ORidge _ | OEns _ => Err NotFittedError
  end.

(** rdst_interpreter.py 368-376: the Ridge object and the interpreter of its transformer *)
Definition ridge_interp (o : pyobj) : res (@ridge F SC P M * @est F) :=
  match o with
  | OOther => Err TypeError
  | ORdst _ | OEns _ => Err NotFittedError
  | ORidge r =>
      match rd_classifier r with
      | None => Err NotFittedError
      | Some _ =>
          match rd_transformer r with
          | None => Err AttributeError
          | Some t => let* i := rdst_interp (ORdst t) in Ok (r, i)
          end
      end
  end.

(** rdst_interpreter.py 469-476: an R_DST_Ensemble has no attribute classifier *)
Definition ens_interp (o : pyobj) : res (@ens F SC P M) :=
  match o with
  | OOther => Err TypeError
  | ORdst _ | OEns _ => Err NotFittedError
  | ORidge r => match rd_classifier r with None => Err NotFittedError | Some _ => Err TypeError end
  end.

(** c_[atts] = row: numpy repeats a row of one element *)
Definition scatter (c : list F) (atts : list Z) (row : list F) : res (list F) :=
  let* row := match row with
              | [v] => Ok (repeat v (length atts))
              | _ => let* _ := guard (zlen row =? zlen atts) ValueError in Ok row
              end in
  foldM (fun c p => pyset c (fst p) (snd p)) (combine atts row) c.

Definition n_fitted (f : @fitted F) : Z := match f with FU s => zlen (us_len s) | FM s => zlen (ms_len s) end.

(** rdst_interpreter.py 378-386; a classifier whose fit failed has no attribute coef_.  [-coefs] is written 0 - x. *)
Definition importance (r : @ridge F SC P M) (class_id : Z) : res (list F) :=
  match rd_classifier r with
  | None | Some None => Err AttributeError
  | Some (Some (sc, m)) =>
      let coefs := k_coef m in
      let coefs := if zlen coefs =? 1 then map (map (fun x => nsub N (n0 N) x)) coefs ++ coefs else coefs in
      match rd_transformer r with
      | None => Err AttributeError
      | Some t =>
          match e_shapelets t with
          | None => Err AttributeError
          | Some f =>
              let c_ := repeat (n0 N) (Z.to_nat (n_fitted f * 3)) in
              let* row := pyget coefs class_id in
              scatter c_ (sc_atts sc) row
          end
      end
  end.

(** rdst_interpreter.py 422-426, the while loop *)
Fixpoint pick_best (n_shp : Z) (idx shp_ids : list Z) : list Z :=
  match idx with
  | [] => shp_ids
  | i :: t =>
      if zlen shp_ids <? n_shp
      then pick_best n_shp t (if existsb (Z.eqb i) shp_ids then shp_ids else shp_ids ++ [i])
      else shp_ids
  end.

(** rdst_interpreter.py 418-426: the numbers of the shapelets shown *)
Definition best_shapelets (r : @ridge F SC P M) (class_id n_shp : Z) : res (list Z) :=
  let* coefs := importance r class_id in
  let idx := rev (map (fun j => j / 3) (argsort coefs)) in
  Ok (pick_best n_shp idx []).

(** What is drawn for one shapelet, rdst_interpreter.py 432-463 *)
Record panel := mkPanel {
  pn_shapelet : Z;
  pn_group : list bool;          (** y_copy: which samples are of the class *)
  pn_min : list F;
  pn_argmin : list F;
  pn_occurrence : list F;
  pn_values : list F * (Z * bool * F);
  pn_other : drawing;
  pn_own : drawing;
  pn_dist_other : list F * F;
  pn_dist_own : list F * F
}.

(** X[i, 0] for a 3D array; a list or a 1D array of objects cannot be indexed by a pair *)
Definition series_of (X : pyv F) (i : Z) : res (list F) :=
  match X with
  | VArr [_; _; _] _ _ => let* D := to_dataset N X in let* x := pyget D i in pyget x 0
  | VArr _ _ _ => Err IndexError
  | _ => Err TypeError
  end.

(** np.random.choice of a non-empty vector; [choice] is what the generator picks *)
Definition random_choice (choice : list Z -> Z) (l : list Z) : res Z :=
  match l with [] => Err ValueError | _ => Ok (choice l) end.

(** rdst_interpreter.py 388-465 *)
Definition visualize_best (choice1 choice2 : list Z -> Z) (r : @ridge F SC P M) (t : @est F) (X : pyv F) (y : list Z) (class_id n_shp : Z)
  : res (list panel) :=
  let* shp_ids := best_shapelets r class_id n_shp in
  let* X_new := match rd_transformer r with Some t => transform N t X | None => Err AttributeError end in
  let* i_example := random_choice choice1 (where_ (map (fun l => l =? class_id) y)) in
  let* i_example2 := random_choice choice2 (where_ (map (fun l => negb (l =? class_id)) y)) in
  let y_copy := map (fun l => l =? class_id) y in
  mapM (fun i_shp =>
    let* mn := mapM (fun row => pyget row (i_shp * 3)) X_new in
    let* am := mapM (fun row => pyget row (1 + i_shp * 3)) X_new in
    let* oc := mapM (fun row => pyget row (2 + i_shp * 3)) X_new in
    let* pv := plot t i_shp in
    let* x2 := series_of X i_example2 in
    let* p2 := plot_on_X t i_shp x2 in
    let* x1 := series_of X i_example in
    let* p1 := plot_on_X t i_shp x1 in
    let* d2 := plot_distance_vector t i_shp x2 in
    let* d1 := plot_distance_vector t i_shp x1 in
    Ok (mkPanel i_shp y_copy mn am oc pv p2 p1 d2 d1)) shp_ids.
End RIDGE.
End INTERPRETER.
