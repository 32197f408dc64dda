(** The transform of Kernel.v and Apply.v once more, on machine integers: numba computes lengths, dilations, indices and counts in int64, which
    wraps around.  Each definition is the one of Kernel.v or Apply.v (which cite the code) with the result of every integer operation of the code
    reduced to 64 bits.  Loop counters and sizes of arrays that exist are not reduced (memory is smaller than 2^63 bytes). *)
From Coq Require Import ZArith List Bool Lia.
From Verif Require Import Prelude Num Kernel Parallel Apply.
Import ListNotations.
Open Scope Z_scope.

(** the signed 64-bit integer with the same low 64 bits *)
Definition w64 (z : Z) : Z := (z + 2 ^ 63) mod 2 ^ 64 - 2 ^ 63.

Section Int64.
Context {F : Type} (N : NumOps F).

(** _commons.py 75-100 *)
Definition i_strides_1D (X : list F) (w d : Z) : res (list (list F)) :=
  let n := w64 (zlen X - w64 (w64 (w - 1) * d)) in
  let* _ := guard ((0 <=? n) && (0 <=? w)) ValueError in
  mapM (fun i => mapM (fun j => get X (w64 (i + w64 (j * d)))) (zrange 0 w)) (zrange 0 n).

(** _commons.py 139-163 *)
Definition i_strides_1D_phase (X : list F) (w d : Z) : res (list (list F)) :=
  let n := zlen X in
  let* _ := guard (0 <=? w) ValueError in
  mapM (fun i => mapM (fun j => get X (w64 (i + w64 (j * d)) mod n)) (zrange 0 w)) (zrange 0 n).

(** _commons.py 55-59 *)
Definition i_generate_strides_1D (X : list F) (w d : Z) (use_phase : bool) : res (list (list F)) :=
  if use_phase then i_strides_1D_phase X w d else i_strides_1D X w d.

(** _commons.py 106-133 *)
Definition i_strides_2D (X : list (list F)) (w d : Z) : res (list (list (list F))) :=
  let n := w64 (shape1 X - w64 (w64 (w - 1) * d)) in
  let* _ := guard ((0 <=? n) && (0 <=? w)) ValueError in
  mapM (fun ft => mapM (fun i => mapM (fun j =>
          let* row := get X ft in get row (w64 (i + w64 (j * d)))) (zrange 0 w)) (zrange 0 n))
       (zrange 0 (zlen X)).

(** _commons.py 169-195 *)
Definition i_strides_2D_phase (X : list (list F)) (w d : Z) : res (list (list (list F))) :=
  let n := shape1 X in
  let* _ := guard (0 <=? w) ValueError in
  mapM (fun ft => mapM (fun i => mapM (fun j =>
          let* row := get X ft in get row (w64 (i + w64 (j * d)) mod n)) (zrange 0 w)) (zrange 0 n))
       (zrange 0 (zlen X)).

(** _commons.py 65-69 *)
Definition i_generate_strides_2D (X : list (list F)) (w d : Z) (use_phase : bool) : res (list (list (list F))) :=
  if use_phase then i_strides_2D_phase X w d else i_strides_2D X w d.

(** Loop body of _commons.py 513-518 and 567-572. *)
Definition i_feat_step (threshold : F) (st : F * Z * Z) (i : Z) (dist : F) : F * Z * Z :=
  let '(mn, am, cnt) := st in
  let '(mn', am') :=
    if nltb N dist mn || neqb N mn (nm1 N) then (dist, i) else (mn, am) in
  (mn', am', if nleb N dist threshold then w64 (cnt + 1) else cnt).

(** _commons.py 474-520 *)
Definition i_apply_one_univariate (x : list (list F)) (values : list F) (threshold : F) : res (F * F * F) :=
  let* st := foldM (fun st i =>
      let* row := get x i in
      let* dist := manhattan N row values in
      Ok (i_feat_step threshold st i dist))
    (zrange 0 (zlen x)) (nm1 N, 0, 0) in
  let '(mn, am, cnt) := st in
  Ok (mn, nofZ N am, nofZ N cnt).

(** _commons.py 526-574 *)
Definition i_apply_one_multivariate (x : list (list (list F))) (values : list (list F)) (threshold : F) : res (F * F * F) :=
  let* st := foldM (fun st i =>
      let* dist := foldM (fun acc ft =>
            let* xf := get x ft in
            let* row := get xf i in
            let* v := get values ft in
            let* m := manhattan N row v in
            Ok (nadd N acc m)) (zrange 0 (zlen x)) (n0 N) in
      Ok (i_feat_step threshold st i dist))
    (zrange 0 (shape1 x)) (nm1 N, 0, 0) in
  let '(mn, am, cnt) := st in
  Ok (mn, nofZ N am, nofZ N cnt).

(** _commons.py 581-615; only the counter [i_comb] is the result of arithmetic *)
Definition i_combinations_1d (x y : list Z) : res (list (Z * Z)) :=
  let u_x := unique x in
  let u_y := unique y in
  let mask0 := map (fun _ => map (fun _ => false) u_y) u_x in
  let* mask := foldM (fun m i =>
      let* xi := get x i in let* yi := get y i in
      let* a := index_of u_x xi in let* b := index_of u_y yi in
      set2 m a b true) (zrange 0 (zlen x)) mask0 in
  let comb0 := repeat (0, 0) (Z.to_nat (count_true mask)) in
  let* st := foldM (fun st i =>
      let '(m, comb, i_comb) := st in
      let* xi := get x i in let* yi := get y i in
      let* a := index_of u_x xi in let* b := index_of u_y yi in
      let* b0 := get2 m a b in
      if (b0 : bool) then
        let* comb' := set comb i_comb (xi, yi) in
        let* m' := set2 m a b false in
        Ok (m', comb', w64 (i_comb + 1))
      else Ok st) (zrange 0 (zlen x)) (mask, comb0, 0) in
  let '(_, comb, _) := st in Ok comb.

(** numpy.cumsum of an int64 array *)
Fixpoint i_cumsum_from (s : Z) (l : list Z) : list Z :=
  match l with [] => [] | x :: t => w64 (s + x) :: i_cumsum_from (w64 (s + x)) t end.
Definition i_cumsum (l : list Z) : list Z := i_cumsum_from 0 l.

(** _univariate_same_length.py 273-291 *)
Definition i_group_shapelets (lengths dilations : list Z) : res (list (Z * Z) * list Z * list Z) :=
  let n_shapelets := zlen lengths in
  let* params := i_combinations_1d lengths dilations in
  let* st := foldM (fun st i =>
      let '(a, idx, cnt) := st in
      let* p := get params i in
      let ix := where_ (map (fun q : Z * Z => (fst q =? fst p) && (snd q =? snd p))
                            (combine lengths dilations)) in
      let b := w64 (a + zlen ix) in
      let* idx' := set_slice idx a b ix in
      let* cnt' := set cnt (w64 (i + 1)) (zlen ix) in
      Ok (b, idx', cnt'))
    (zrange 0 (zlen params))
    (0, repeat 0 (Z.to_nat n_shapelets), repeat 0 (Z.to_nat (w64 (zlen params + 1)))) in
  let '(_, idx, cnt) := st in
  Ok (params, idx, i_cumsum cnt).

(** [X_new[i_sample, 3*i_shp : 3*i_shp+3] = (m, a, c)] *)
Definition i_feature_writes (i_sample i_shp : Z) (f : F * F * F) : list (write F) :=
  let '(m, a, c) := f in
  [(i_sample, w64 (3 * i_shp), m); (i_sample, w64 (w64 (3 * i_shp) + 1), a); (i_sample, w64 (w64 (3 * i_shp) + 2), c)].

(** _univariate_same_length.py 294-329 *)
Definition i_apply_task {ST} (strides_of : Z -> Z -> Z -> res ST) (norm_strides : ST -> ST)
  (one : ST -> Z -> Z -> res (F * F * F)) (normalize : list bool)
  (params : list (Z * Z)) (idx_shp n_shp_params : list Z) (i_sample i_param : Z)
  : res (list (write F)) :=
  let* p := get params i_param in
  let '(_length, _dilation) := p in
  let* strides := strides_of i_sample _length _dilation in
  let* a := get n_shp_params i_param in
  let* b := get n_shp_params (w64 (i_param + 1)) in
  let _idx_shp := slice idx_shp a b in
  let* flags := mapM (get normalize) _idx_shp in
  let* idx_no_norm := mapM (get _idx_shp) (where_ (map negb flags)) in
  let* w1 := mapM (fun i_shp => let* f := one strides i_shp _length in
                                Ok (i_feature_writes i_sample i_shp f)) idx_no_norm in
  let* idx_norm := mapM (get _idx_shp) (where_ flags) in
  let* w2 :=
    if 0 <? zlen idx_norm then
      let strides' := norm_strides strides in
      mapM (fun i_shp => let* f := one strides' i_shp _length in
                         Ok (i_feature_writes i_sample i_shp f)) idx_norm
    else Ok [] in
  Ok (concat w1 ++ concat w2).

Definition i_apply_tasks {ST} (strides_of : Z -> Z -> Z -> res ST) (norm_strides : ST -> ST)
  (one : ST -> Z -> Z -> res (F * F * F)) (lengths dilations : list Z) (normalize : list bool)
  (n_samples : Z) : res (list (list (write F))) :=
  let* g := i_group_shapelets lengths dilations in
  let '(params, idx_shp, n_shp_params) := g in
  mapM (fun t : Z * Z =>
          i_apply_task strides_of norm_strides one normalize params idx_shp n_shp_params (fst t) (snd t))
       (flat_map (fun i_sample => map (pair i_sample) (zrange 0 (w64 (zlen n_shp_params - 1))))
                 (zrange 0 n_samples)).

(** _univariate_same_length.py 293 *)
Definition i_X_new0 (n_samples n_shapelets : Z) : list (list F) :=
  repeat (repeat (n0 N) (Z.to_nat (w64 (3 * n_shapelets)))) (Z.to_nat n_samples).

(** _univariate_same_length.py 309-314 and 324-329 *)
Definition i_u_one (s : ushp F) (strides : list (list F)) (i_shp _length : Z) : res (F * F * F) :=
  let* v := get (us_values s) i_shp in
  let* thr := get (us_thr s) i_shp in
  i_apply_one_univariate strides (slice v 0 _length) thr.

(** _univariate_same_length.py 233-331, _univariate_variable_length.py 263-363 *)
Definition i_U_SL_tasks (X : dataset F) (s : ushp F) (use_phase : bool) : res (list (list (write F))) :=
  i_apply_tasks (fun i l d => let* x := u_series X i in i_generate_strides_1D x l d use_phase)
                (map (znorm N)) (i_u_one s) (us_len s) (us_dil s) (us_norm s) (zlen X).
Definition i_U_VL_tasks (X : dataset F) (X_len : list Z) (s : ushp F) (use_phase : bool) : res (list (list (write F))) :=
  i_apply_tasks (fun i l d => let* x := u_series_vl X X_len i in i_generate_strides_1D x l d use_phase)
                (map (znorm N)) (i_u_one s) (us_len s) (us_dil s) (us_norm s) (zlen X).

(** _multivariate_same_length.py 343, 345 *)
Definition i_offsets (a : list Z) : list Z := 0 :: i_cumsum a.
Definition i_zmul_list (a b : list Z) : list Z := map (fun p : Z * Z => w64 (fst p * snd p)) (combine a b).
(** numba's reshape compares the sizes *)
Definition i_reshape (v : list F) (n l : Z) : res (list (list F)) :=
  let* _ := guard (zlen v =? w64 (n * l)) ValueError in
  Ok (map (fun c => slice v (w64 (c * l)) (w64 (w64 (c + 1) * l))) (zrange 0 n)).

(** _multivariate_same_length.py 378-386 and 399-407 *)
Definition i_m_one (s : mshp F) (strides : list (list (list F))) (i_shp _length : Z) : res (F * F * F) :=
  let a1 := i_offsets (i_zmul_list (ms_nch s) (ms_len s)) in
  let a2 := i_offsets (ms_nch s) in
  let* c0 := get a2 i_shp in let* c1 := get a2 (w64 (i_shp + 1)) in
  let channels := slice (ms_chan s) c0 c1 in
  let* v0 := get a1 i_shp in let* v1 := get a1 (w64 (i_shp + 1)) in
  let* nch := get (ms_nch s) i_shp in
  let* values := i_reshape (slice (ms_values s) v0 v1) nch _length in
  let* thr := get (ms_thr s) i_shp in
  let* sel := mapM (get strides) channels in
  i_apply_one_multivariate sel values thr.

(** _multivariate_same_length.py 295-408, _multivariate_variable_length.py 326-439 *)
Definition i_M_SL_tasks (X : dataset F) (s : mshp F) (use_phase : bool) : res (list (list (write F))) :=
  i_apply_tasks (fun i l d => let* x := get X i in i_generate_strides_2D x l d use_phase)
                (map (map (znorm N))) (i_m_one s) (ms_len s) (ms_dil s) (ms_norm s) (zlen X).
Definition i_M_VL_tasks (X : dataset F) (X_len : list Z) (s : mshp F) (use_phase : bool) : res (list (list (write F))) :=
  i_apply_tasks (fun i l d => let* x := m_series_vl X X_len i in i_generate_strides_2D x l d use_phase)
                (map (map (znorm N))) (i_m_one s) (ms_len s) (ms_dil s) (ms_norm s) (zlen X).

Definition i_U_SL_apply (X : dataset F) (s : ushp F) (use_phase : bool) : res (list (list F)) :=
  let* ts := i_U_SL_tasks X s use_phase in run_writes (concat ts) (i_X_new0 (zlen X) (zlen (us_len s))).
Definition i_U_VL_apply (X : dataset F) (X_len : list Z) (s : ushp F) (use_phase : bool) : res (list (list F)) :=
  let* ts := i_U_VL_tasks X X_len s use_phase in run_writes (concat ts) (i_X_new0 (zlen X) (zlen (us_len s))).
Definition i_M_SL_apply (X : dataset F) (s : mshp F) (use_phase : bool) : res (list (list F)) :=
  let* ts := i_M_SL_tasks X s use_phase in run_writes (concat ts) (i_X_new0 (zlen X) (zlen (ms_len s))).
Definition i_M_VL_apply (X : dataset F) (X_len : list Z) (s : mshp F) (use_phase : bool) : res (list (list F)) :=
  let* ts := i_M_VL_tasks X X_len s use_phase in run_writes (concat ts) (i_X_new0 (zlen X) (zlen (ms_len s))).

End Int64.
