(** Model of the four *_apply_all_shapelets functions (transform). *)
From Coq Require Import ZArith List Bool Lia.
From Verif Require Import Prelude Num Kernel Parallel.
Import ListNotations.
Open Scope Z_scope.

(** A dataset: samples x features x timestamps. *)
Definition dataset (F : Type) := list (list (list F)).

(** _univariate_same_length.py 273-291 (the same text is in
    _univariate_variable_length.py 306-324, _multivariate_same_length.py 336-360,
    _multivariate_variable_length.py 369-393): the distinct (length, dilation) pairs, the
    shapelet indices sorted by pair, and the cumulated counts. *)
Definition group_shapelets (lengths dilations : list Z) : res (list (Z * Z) * list Z * list Z) :=
  let n_shapelets := zlen lengths in
  let* params := combinations_1d lengths dilations in
  let* st := foldM (fun st i =>
      let '(a, idx, cnt) := st in
      let* p := get params i in
      let ix := where_ (map (fun q : Z * Z => (fst q =? fst p) && (snd q =? snd p))
                            (combine lengths dilations)) in
      let b := a + zlen ix in
      let* idx' := set_slice idx a b ix in
      let* cnt' := set cnt (i + 1) (zlen ix) in
      Ok (b, idx', cnt'))
    (zrange 0 (zlen params))
    (0, repeat 0 (Z.to_nat n_shapelets), repeat 0 (Z.to_nat (zlen params + 1))) in
  let '(_, idx, cnt) := st in
  Ok (params, idx, cumsum cnt).

Section Apply.
Context {F : Type} (N : NumOps F).

(** Tuple returned by univariate fit. *)
Record ushp := mkUshp {
  us_values : list (list F);
  us_len : list Z;
  us_dil : list Z;
  us_thr : list F;
  us_norm : list bool
}.

(** Tuple returned by multivariate fit; values and channels are flat arrays. *)
Record mshp := mkMshp {
  ms_values : list F;
  ms_len : list Z;
  ms_dil : list Z;
  ms_thr : list F;
  ms_norm : list bool;
  ms_nch : list Z;
  ms_chan : list Z
}.

(** [X_new[i_sample, 3*i_shp : 3*i_shp+3] = (m, a, c)] *)
Definition feature_writes (i_sample i_shp : Z) (f : F * F * F) : list (write F) :=
  let '(m, a, c) := f in
  [(i_sample, 3 * i_shp, m); (i_sample, 3 * i_shp + 1, a); (i_sample, 3 * i_shp + 2, c)].

(** Body of the parallel loops, _univariate_same_length.py 294-329 (the same
    text in _univariate_variable_length.py 327-361, _multivariate_same_length.py 363-407,
    _multivariate_variable_length.py 395-438).  [strides_of] builds the windows of a sample,
    [norm_strides] is the in-place normalisation of the windows, [one] computes one
    shapelet's features from windows.  One task per (i_sample, i_shp_param). *)
Definition apply_task {ST} (strides_of : Z -> Z -> Z -> res ST) (norm_strides : ST -> ST)
  (one : ST -> Z -> Z -> res (F * F * F)) (normalize : list bool)
  (params : list (Z * Z)) (idx_shp n_shp_params : list Z) (i_sample i_param : Z)
  : res (list (write F)) :=
  let* p := get params i_param in
  let '(_length, _dilation) := p in
  let* strides := strides_of i_sample _length _dilation in
  let* a := get n_shp_params i_param in
  let* b := get n_shp_params (i_param + 1) in
  let _idx_shp := slice idx_shp a b in
  let* flags := mapM (get normalize) _idx_shp in
  let* idx_no_norm := mapM (get _idx_shp) (where_ (map negb flags)) in
  let* w1 := mapM (fun i_shp => let* f := one strides i_shp _length in
                                Ok (feature_writes i_sample i_shp f)) idx_no_norm in
  let* idx_norm := mapM (get _idx_shp) (where_ flags) in
  let* w2 :=
    if 0 <? zlen idx_norm then
      let strides' := norm_strides strides in
      mapM (fun i_shp => let* f := one strides' i_shp _length in
                         Ok (feature_writes i_sample i_shp f)) idx_norm
    else Ok [] in
  Ok (concat w1 ++ concat w2).

Definition apply_tasks {ST} (strides_of : Z -> Z -> Z -> res ST) (norm_strides : ST -> ST)
  (one : ST -> Z -> Z -> res (F * F * F)) (lengths dilations : list Z) (normalize : list bool)
  (n_samples : Z) : res (list (list (write F))) :=
  let* g := group_shapelets lengths dilations in
  let '(params, idx_shp, n_shp_params) := g in
  mapM (fun t : Z * Z =>
          apply_task strides_of norm_strides one normalize params idx_shp n_shp_params (fst t) (snd t))
       (flat_map (fun i_sample => map (pair i_sample) (zrange 0 (zlen n_shp_params - 1)))
                 (zrange 0 n_samples)).

(** X_new = zeros((n_samples, 3*n_shapelets)): _univariate_same_length.py 293 *)
Definition X_new0 (n_samples n_shapelets : Z) : list (list F) :=
  repeat (repeat (n0 N) (Z.to_nat (3 * n_shapelets))) (Z.to_nat n_samples).

(** *** Univariate *)

(** [values[i_shp, :_length]], [threshold[i_shp]] and the call at
    _univariate_same_length.py 309-314 and 324-329, _univariate_variable_length.py 341-346, 356-361 *)
Definition u_one (s : ushp) (strides : list (list F)) (i_shp _length : Z) : res (F * F * F) :=
  let* v := get (us_values s) i_shp in
  let* thr := get (us_thr s) i_shp in
  apply_one_univariate N strides (slice v 0 _length) thr.

(** [X[i_sample, 0]] *)
Definition u_series (X : dataset F) (i_sample : Z) : res (list F) :=
  let* x := get X i_sample in get x 0.

(** [X[i_sample, 0, :X_len[i_sample]]] *)
Definition u_series_vl (X : dataset F) (X_len : list Z) (i_sample : Z) : res (list F) :=
  let* x := get X i_sample in
  let* r := get x 0 in
  let* n := get X_len i_sample in
  Ok (slice r 0 n).

(** The tasks of U_SL_apply_all_shapelets, _univariate_same_length.py 233-331 *)
Definition U_SL_tasks (X : dataset F) (s : ushp) (use_phase : bool) : res (list (list (write F))) :=
  apply_tasks (fun i l d => let* x := u_series X i in generate_strides_1D x l d use_phase)
              (map (znorm N)) (u_one s) (us_len s) (us_dil s) (us_norm s) (zlen X).

(** The tasks of U_VL_apply_all_shapelets, _univariate_variable_length.py 263-363 *)
Definition U_VL_tasks (X : dataset F) (X_len : list Z) (s : ushp) (use_phase : bool)
  : res (list (list (write F))) :=
  apply_tasks (fun i l d => let* x := u_series_vl X X_len i in generate_strides_1D x l d use_phase)
              (map (znorm N)) (u_one s) (us_len s) (us_dil s) (us_norm s) (zlen X).

(** Sequential execution of the two functions. *)
Definition U_SL_apply (X : dataset F) (s : ushp) (use_phase : bool) : res (list (list F)) :=
  let* ts := U_SL_tasks X s use_phase in run_writes (concat ts) (X_new0 (zlen X) (zlen (us_len s))).
Definition U_VL_apply (X : dataset F) (X_len : list Z) (s : ushp) (use_phase : bool) : res (list (list F)) :=
  let* ts := U_VL_tasks X X_len s use_phase in run_writes (concat ts) (X_new0 (zlen X) (zlen (us_len s))).

(** *** Multivariate *)

(** [concatenate((zeros(1), cumsum(a)))]: _multivariate_same_length.py 343, 345 *)
Definition offsets (a : list Z) : list Z := 0 :: cumsum a.

(** [v.reshape(n, l)] of a flat array: ValueError unless the sizes match *)
Definition reshape (v : list F) (n l : Z) : res (list (list F)) :=
  let* _ := guard (zlen v =? n * l) ValueError in
  Ok (map (fun c => slice v (c * l) ((c + 1) * l)) (zrange 0 n)).

(** elementwise product of two integer arrays *)
Definition zmul_list (a b : list Z) : list Z := map (fun p : Z * Z => fst p * snd p) (combine a b).

(** _multivariate_same_length.py 378-386 and 399-407, _multivariate_variable_length.py 409-417, 430-438 *)
Definition m_one (s : mshp) (strides : list (list (list F))) (i_shp _length : Z) : res (F * F * F) :=
  let a1 := offsets (zmul_list (ms_nch s) (ms_len s)) in
  let a2 := offsets (ms_nch s) in
  let* c0 := get a2 i_shp in let* c1 := get a2 (i_shp + 1) in
  let channels := slice (ms_chan s) c0 c1 in
  let* v0 := get a1 i_shp in let* v1 := get a1 (i_shp + 1) in
  let* nch := get (ms_nch s) i_shp in
  let* values := reshape (slice (ms_values s) v0 v1) nch _length in
  let* thr := get (ms_thr s) i_shp in
  let* sel := mapM (get strides) channels in
  apply_one_multivariate N sel values thr.

(** [X[i_sample, :, :X_len[i_sample]]] *)
Definition m_series_vl (X : dataset F) (X_len : list Z) (i_sample : Z) : res (list (list F)) :=
  let* x := get X i_sample in
  let* n := get X_len i_sample in
  Ok (map (fun r => slice r 0 n) x).

(** The tasks of M_SL_apply_all_shapelets, _multivariate_same_length.py 295-408 *)
Definition M_SL_tasks (X : dataset F) (s : mshp) (use_phase : bool) : res (list (list (write F))) :=
  apply_tasks (fun i l d => let* x := get X i in generate_strides_2D x l d use_phase)
              (map (map (znorm N))) (m_one s) (ms_len s) (ms_dil s) (ms_norm s) (zlen X).

(** The tasks of M_VL_apply_all_shapelets, _multivariate_variable_length.py 326-439 *)
Definition M_VL_tasks (X : dataset F) (X_len : list Z) (s : mshp) (use_phase : bool)
  : res (list (list (write F))) :=
  apply_tasks (fun i l d => let* x := m_series_vl X X_len i in generate_strides_2D x l d use_phase)
              (map (map (znorm N))) (m_one s) (ms_len s) (ms_dil s) (ms_norm s) (zlen X).

Definition M_SL_apply (X : dataset F) (s : mshp) (use_phase : bool) : res (list (list F)) :=
  let* ts := M_SL_tasks X s use_phase in run_writes (concat ts) (X_new0 (zlen X) (zlen (ms_len s))).
Definition M_VL_apply (X : dataset F) (X_len : list Z) (s : mshp) (use_phase : bool) : res (list (list F)) :=
  let* ts := M_VL_tasks X X_len s use_phase in run_writes (concat ts) (X_new0 (zlen X) (zlen (ms_len s))).

End Apply.
Arguments mkUshp {F}. Arguments us_values {F}. Arguments us_len {F}. Arguments us_dil {F}.
Arguments us_thr {F}. Arguments us_norm {F}.
Arguments mkMshp {F}. Arguments ms_values {F}. Arguments ms_len {F}. Arguments ms_dil {F}.
Arguments ms_thr {F}. Arguments ms_norm {F}. Arguments ms_nch {F}. Arguments ms_chan {F}.
Arguments ushp : clear implicits. Arguments mshp : clear implicits.
