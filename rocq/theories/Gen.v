(** Model of the four *_generate_shapelet functions (fit) and of the
    *_init_random_shapelet_params functions they call.

    Execution model.  The loop over the distinct dilations is a numba prange: its
    iterations run on several threads, each with its own random generator.  One
    [iteration] below is the body executed for one shapelet; it acts on the shared
    arrays.  A parallel execution runs the iterations in some order which keeps the order inside
    each dilation, and each iteration starts from whatever state the generator of its thread
    has; the model lets this state be arbitrary. *)
From Coq Require Import ZArith List Bool Lia.
From Verif Require Import Prelude Num Kernel Apply.
Import ListNotations.
Open Scope Z_scope.

Fixpoint foldG {S A B} (f : B -> A -> G S B) (l : list A) (b : B) : G S B :=
  match l with
  | [] => retG b
  | x :: t => let! b' := f b x in foldG f t b'
  end.

(** [l[i] = f(l[i])]; nested, it models assignments to a cell of a multi-dimensional array. *)
Definition upd_at {A} (l : list A) (i : Z) (f : A -> res A) : res (list A) :=
  let* x := get l i in let* x' := f x in set l i x'.

Definition b2z (b : bool) : Z := if b then 1 else 0.

(** [where(M)] of a 2D boolean array: positions in row-major order *)
Definition where2 (M : list (list bool)) : list (Z * Z) :=
  concat (map (fun p : Z * list bool => map (fun j => (fst p, j)) (where_ (snd p)))
              (combine (zrange 0 (zlen M)) M)).

(** [l[a:] = False] *)
Definition clear_from (l : list bool) (a : Z) : list bool :=
  slice l 0 a ++ repeat false (Z.to_nat (zlen l - zlen (slice l 0 a))).

(** The groups of the prange: [where(dilations == unique_dil[i_d])[0]],
    _univariate_same_length.py 155-157 and the same lines of the other three files. *)
Definition group_ids (dilations : list Z) (i_d : Z) : list Z :=
  match nthZ (unique dilations) i_d with
  | Some d => where_ (map (Z.eqb d) dilations)
  | None => []
  end.

(** All iterations in sequential order. *)
Definition seq_sched (dilations : list Z) : list (Z * Z) :=
  concat (map (fun i_d => map (fun i => (i_d, i)) (group_ids dilations i_d))
              (zrange 0 (zlen (unique dilations)))).

(** Execution orders of the parallel loop. *)
Definition is_schedule (dilations : list Z) (sched : list (Z * Z)) : Prop :=
  forall i_d, filter (fun e => fst e =? i_d) sched = map (fun i => (i_d, i)) (group_ids dilations i_d).

(** A way to schedule the loop, whatever the dilations. *)
Definition scheduler (sched : list Z -> list (Z * Z)) : Prop := forall dilations, is_schedule dilations (sched dilations).

Section Gen.
Context {F : Type} (N : NumOps F).

(** ** numpy.percentile as compiled by numba *)

Fixpoint finsert (x : F) (l : list F) : list F :=
  match l with
  | [] => [x]
  | y :: t => if nleb N x y then x :: l else y :: finsert x t
  end.
Definition fsort (l : list F) : list F := fold_right finsert [] l.

(** One percentile of a non-empty array (numba: _collect_percentiles_inner).  numba selects the two order
    statistics by quickselect; the model sorts.  NaN handling is not modelled. *)
Definition percentile1 (a : list F) (q : F) : res F :=
  let n := zlen a in
  let h := nofZ N 100 in
  if n =? 1 then get a 0
  else if neqb N q h then get (fsort a) (n - 1)
  else if neqb N q (n0 N) then get (fsort a) 0
  else
    let rank := nadd N (n1 N) (nmul N (nofZ N (n - 1)) (ndiv N q h)) in
    let f := nfloor N rank in
    let m := nsub N rank (nofZ N f) in
    let* lower := get (fsort a) (f - 1) in
    let* upper := get (fsort a) f in
    Ok (nadd N (nmul N lower (nsub N (n1 N) m)) (nmul N upper m)).

(** Both percentiles; outside [0,100]: ValueError; empty array: NaN, here 0/0. *)
Definition percentiles (a : list F) (q1 q2 : F) : res (F * F) :=
  let inside q := nleb N (n0 N) q && nleb N q (nofZ N 100) in
  let* _ := guard (inside q1 && inside q2) ValueError in
  if zlen a =? 0 then Ok (ndiv N (n0 N) (n0 N), ndiv N (n0 N) (n0 N))
  else let* p1 := percentile1 a q1 in let* p2 := percentile1 a q2 in Ok (p1, p2).

(** [max] of a float array *)
Definition fmax_list (l : list F) : res F :=
  match l with
  | [] => Err ValueError
  | x :: t => Ok (fold_left (fun a b => if nltb N a b then b else a) t x)
  end.

Context {S : Type} (rng : Rng F S).

(** ** numpy.random.choice *)

(** [choice(l, size=n)] *)
Definition choice_n {A} (l : list A) (n : Z) : G S (list A) :=
  let! _ := liftG (guard ((0 <? zlen l) && (0 <=? n)) ValueError) in
  mapG (fun _ => choice rng l) (zrange 0 n).

Definition swap {A} (l : list A) (i j : Z) : res (list A) :=
  let* x := get l i in let* y := get l j in
  let* l' := set l i y in set l' j x.

(** numpy.random.permutation: Fisher-Yates from the last position *)
Definition permutation {A} (l : list A) : G S (list A) :=
  foldG (fun l' k => let i := zlen l - 1 - k in
                     let! j := draw_int rng (i + 1) in liftG (swap l' i j))
        (zrange 0 (zlen l - 1)) l.

(** [choice(l, n, replace=False)] *)
Definition choice_norep {A} (l : list A) (n : Z) : G S (list A) :=
  let! _ := liftG (guard ((0 <? zlen l) && (0 <=? n) && (n <=? zlen l)) ValueError) in
  let! p := permutation l in retG (slice p 0 n).

(** ** Drawing the parameters *)

(** Parameters of a call, as given by R_DST.fit (rdst.py 234-259). *)
Record gparams := mkG {
  g_n : Z;              (** n_shapelets *)
  g_sizes : list Z;     (** shapelet_sizes *)
  g_seed : Z;           (** r_seed *)
  g_pnorm : F;
  g_pmin : F;
  g_pmax : F;
  g_alpha : F;
  g_phase : bool;
  g_prime : bool
}.

Record drawn := mkDrawn { dr_len : list Z; dr_dil : list Z; dr_norm : list bool }.

(** [log2(floor_divide(n_timestamps-1, lengths-1))], _univariate_same_length.py 62.  (For l = 1 numba divides by 0;
    the theorems suppose l >= 2, which the checks of R_DST.fit enforce but for the one case of C34.) *)
Definition upper_bound (n_ts l : Z) : F := nlog2 N (nofZ N ((n_ts - 1) / (l - 1))).

(** _univariate_same_length.py 62-75 (same text in the other three files: 64-77, 69-82, 69-82) *)
Definition draw_dilations (n_shapelets n_ts : Z) (lengths : list Z) (prime_scheme : bool) : G S (list Z) :=
  let ubs := map (upper_bound n_ts) lengths in
  if prime_scheme then
    let! mx := liftG (fmax_list ubs) in
    let! primes := liftG (prime_up_to N (ntrunc N (npow2 N mx))) in
    mapG (fun ub =>
        let shp_primes := filter (fun p => p <=? ntrunc N (npow2 N ub)) primes in
        let! c := choice_log N rng (zlen shp_primes) 1 in
        let! k := liftG (get c 0) in
        liftG (get shp_primes k)) ubs
  else
    mapG (fun ub => let! p := uniform N rng (n0 N) ub in retG (nfloor N (npow2 N p))) ubs.

(** [random(size=n) < p_norm] *)
Definition draw_norm (n_shapelets : Z) (p_norm : F) : G S (list bool) :=
  mapG (fun _ => let! u := draw_unif rng in retG (nltb N u p_norm)) (zrange 0 n_shapelets).

(** U_SL_init_random_shapelet_params, _univariate_same_length.py 25-87, and U_VL_init_random_shapelet_params,
    _univariate_variable_length.py 26-90 (the same function): values, lengths, dilations,
    threshold, normalize. *)
Definition U_init (n_shapelets : Z) (sizes : list Z) (n_ts : Z) (p_norm : F) (prime_scheme : bool)
  : G S (list (list F) * drawn * list F) :=
  let! lengths := choice_n sizes n_shapelets in
  let! dilations := draw_dilations n_shapelets n_ts lengths prime_scheme in
  let! threshold := liftG (full n_shapelets (n0 N)) in
  let! w := liftG (max_list sizes) in
  let! row := liftG (full w (n0 N)) in
  let! values := liftG (full n_shapelets row) in
  let! normalize := draw_norm n_shapelets p_norm in
  retG (values, mkDrawn lengths dilations normalize, threshold).

(** M_SL_init_random_shapelet_params, _multivariate_same_length.py 27-103, and M_VL_init_random_shapelet_params,
    _multivariate_variable_length.py 27-103: in addition the numbers of channels and the channel ids.
    The size of [values], computed there with a float dot product, is an exact integer here. *)
Definition M_init (n_shapelets : Z) (sizes : list Z) (n_ts : Z) (p_norm : F) (max_channels : Z) (prime_scheme : bool)
  : G S (list F * drawn * list F * list Z * list Z) :=
  let! lengths := choice_n sizes n_shapelets in
  let! dilations := draw_dilations n_shapelets n_ts lengths prime_scheme in
  let! threshold := liftG (full n_shapelets (n0 N)) in
  let! ch := choice_n (zrange 0 max_channels) n_shapelets in
  let n_channels := map (fun c => c + 1) ch in
  let! channel_ids := liftG (full (zsum n_channels) 0) in
  let! values := liftG (full (zsum (zmul_list lengths n_channels)) (n0 N)) in
  let! normalize := draw_norm n_shapelets p_norm in
  retG (values, mkDrawn lengths dilations normalize, threshold, n_channels, channel_ids).

(** ** Pieces of the loop body common to the four files *)

(** [lengths[id_shps].min()], _univariate_same_length.py 158.  Computed once per group there; the
    arrays it reads do not change. *)
Definition min_len_of (dr : drawn) (i_d : Z) : res Z :=
  let* ls := mapM (get (dr_len dr)) (group_ids (dr_dil dr) i_d) in min_list ls.

(** [_length - int64(max(1,(1-alpha)*min_l))], _univariate_same_length.py 179 *)
Definition alpha_size (alpha : F) (l min_l : Z) : Z :=
  let t := nmul N (nsub N (n1 N) alpha) (nofZ N min_l) in
  l - ntrunc N (if nltb N (n1 N) t then t else n1 N).

(** the positions cleared for step [j], _univariate_same_length.py 183-190 *)
Definition cleared (index d n j : Z) : list Z := [(index - j * d) mod n; (index + j * d) mod n].

(** Another sample of the same class if there is one, _univariate_same_length.py 198-203 *)
Definition pick_test (y : list Z) (id_sample : Z) : G S Z :=
  let! c := liftG (get y id_sample) in
  let loc_others := where_ (map (Z.eqb c) y) in
  if 1 <? zlen loc_others
  then choice rng (filter (fun i => negb (i =? id_sample)) loc_others)
  else retG id_sample.

(** _univariate_same_length.py 212-215 *)
Definition draw_threshold (x_dist : list F) (p_min p_max : F) : G S F :=
  let! ps := liftG (percentiles x_dist p_min p_max) in
  uniform N rng (fst ps) (snd ps).

(** ** Univariate *)

(** Shared arrays: mask_sampling[norm, i_d, sample, t], threshold, values. *)
Record ust := mkUst {
  u_mask : list (list (list (list bool)));
  u_thr : list F;
  u_val : list (list F)
}.

(** [mask_sampling[norm, i_d, id_sample, t] = False] *)
Definition clear4 (m : list (list (list (list bool)))) (norm i_d id t : Z) : res (list (list (list (list bool)))) :=
  upd_at m norm (fun m1 => upd_at m1 i_d (fun m2 => upd_at m2 id (fun r => set r t false))).

(** Body of the inner loop of U_SL_generate_shapelet, _univariate_same_length.py 159-216 *)
Definition U_SL_iter (X : dataset F) (y : list Z) (n_ts : Z) (P : gparams) (dr : drawn) (st : ust) (e : Z * Z)
  : G S ust :=
  let '(i_d, i_shp) := e in
  let! min_l := liftG (min_len_of dr i_d) in
  let! _dilation := liftG (get (dr_dil dr) i_shp) in
  let! _length := liftG (get (dr_len dr) i_shp) in
  let! nm := liftG (get (dr_norm dr) i_shp) in
  let norm := b2z nm in
  let d_shape := if g_phase P then n_ts else n_ts - (_length - 1) * _dilation in
  let! mask_dil := liftG (let* m1 := get (u_mask st) norm in get m1 i_d) in
  let i_mask := where2 (map (fun r => slice r 0 d_shape) mask_dil) in
  if 0 <? zlen i_mask then
    let! id_sample := choice rng (map fst i_mask) in
    let! index := choice rng (map snd (filter (fun p => fst p =? id_sample) i_mask)) in
    let! mask' := liftG (foldM (fun m j => foldM (fun m t => clear4 m norm i_d id_sample t)
                                             (cleared index _dilation n_ts j) m)
                           (zrange 0 (alpha_size (g_alpha P) _length min_l)) (u_mask st)) in
    let! x := liftG (u_series X id_sample) in
    let! v := liftG (get_subsequence N x index _length _dilation nm (g_phase P)) in
    let! id_test := pick_test y id_sample in
    let! xt := liftG (u_series X id_test) in
    let! x_dist := liftG (compute_shapelet_dist_vector N xt v _length _dilation nm (g_phase P)) in
    let! thr := draw_threshold x_dist (g_pmin P) (g_pmax P) in
    let! thr' := liftG (set (u_thr st) i_shp thr) in
    let! val' := liftG (upd_at (u_val st) i_shp (fun row => set_slice row 0 _length v)) in
    retG (mkUst mask' thr' val')
  else retG st.

(** Body of the inner loop of U_VL_generate_shapelet, _univariate_variable_length.py 172-242 *)
Definition U_VL_iter (X : dataset F) (X_len : list Z) (y : list Z) (P : gparams) (dr : drawn) (st : ust) (e : Z * Z)
  : G S ust :=
  let '(i_d, i_shp) := e in
  let! min_l := liftG (min_len_of dr i_d) in
  let! _dilation := liftG (get (dr_dil dr) i_shp) in
  let! _length := liftG (get (dr_len dr) i_shp) in
  let! nm := liftG (get (dr_norm dr) i_shp) in
  let norm := b2z nm in
  let! mask_dil := liftG (let* m1 := get (u_mask st) norm in get m1 i_d) in
  let bound n := if g_phase P then n else n - (_length - 1) * _dilation in
  let! i_mask := liftG (mapM (fun i_x => let* r := get mask_dil i_x in let* n := get X_len i_x in
                                         Ok (existsb (fun b : bool => b) (slice r 0 (bound n))))
                             (zrange 0 (zlen X))) in
  let i_mask := where_ i_mask in
  if 0 <? zlen i_mask then
    let! id_sample := choice rng i_mask in
    let! n_s := liftG (get X_len id_sample) in
    let! r := liftG (get mask_dil id_sample) in
    let t_mask := where_ (slice r 0 (bound n_s)) in
    let! index := choice rng t_mask in
    let! mask' := liftG (foldM (fun m j => foldM (fun m t => clear4 m norm i_d id_sample t)
                                             (cleared index _dilation n_s j) m)
                           (zrange 0 (alpha_size (g_alpha P) _length min_l)) (u_mask st)) in
    let! x := liftG (u_series_vl X X_len id_sample) in
    let! v := liftG (get_subsequence N x index _length _dilation nm (g_phase P)) in
    let! id_test := pick_test y id_sample in
    let! xt := liftG (u_series_vl X X_len id_test) in
    let! x_dist := liftG (compute_shapelet_dist_vector N xt v _length _dilation nm (g_phase P)) in
    let! thr := draw_threshold x_dist (g_pmin P) (g_pmax P) in
    let! thr' := liftG (set (u_thr st) i_shp thr) in
    let! val' := liftG (upd_at (u_val st) i_shp (fun row => set_slice row 0 _length v)) in
    retG (mkUst mask' thr' val')
  else retG st.

(** Removal of the rows of zeros, _univariate_same_length.py 218-229, _univariate_variable_length.py 248-259 *)
Definition U_finish (dr : drawn) (st : ust) : ushp F :=
  let mask := map (fun row => negb (forallb (fun x => neqb N x (n0 N)) row)) (u_val st) in
  mkUshp (mask_select mask (u_val st)) (mask_select mask (dr_len dr)) (mask_select mask (dr_dil dr))
         (mask_select mask (u_thr st)) (mask_select mask (dr_norm dr)).

(** shape of the dataset *)
Definition n_features (X : dataset F) : Z := shape1 X.
Definition n_timestamps (X : dataset F) : Z := match X with [] => 0 | x :: _ => shape1 x end.

(** Initial state of the shared arrays, _univariate_same_length.py 144-151, _univariate_variable_length.py 152-165 *)
Definition U_SL_start (X : dataset F) (dr : drawn) (values : list (list F)) (threshold : list F) : ust :=
  let row := repeat true (Z.to_nat (n_timestamps X)) in
  let slice0 := repeat row (length X) in
  mkUst (repeat (repeat slice0 (length (unique (dr_dil dr)))) 2) threshold values.
Definition U_VL_start (X : dataset F) (X_len : list Z) (dr : drawn) (values : list (list F)) (threshold : list F)
  : res ust :=
  let* max_len := max_list X_len in
  let row := repeat true (Z.to_nat max_len) in
  let* slice0 := mapM (fun i => let* n := get X_len i in Ok (clear_from row n)) (zrange 0 (zlen X)) in
  Ok (mkUst (repeat (repeat slice0 (length (unique (dr_dil dr)))) 2) threshold values).

(** A parallel execution: order [sched], generator states [rs i] at the start of the iteration of shapelet [i]. *)
Definition run_sched {ST} (iter : ST -> Z * Z -> G S ST) (rs : Z -> S) (sched : list (Z * Z)) (st : ST) : res ST :=
  foldM (fun st e => let* p := iter st e (rs (snd e)) in Ok (fst p)) sched st.

(** U_SL_generate_shapelet, _univariate_same_length.py 90-229.  The seeding and the initialisation run on the
    calling thread; [exec] executes the loop. *)
Definition U_SL_generate_with (X : dataset F) (y : list Z) (P : gparams)
  (exec : drawn -> (ust -> Z * Z -> G S ust) -> ust -> G S ust) : res (ushp F) :=
  let* p := U_init (g_n P) (g_sizes P) (n_timestamps X) (g_pnorm P) (g_prime P) (r_seed rng (g_seed P)) in
  let '(values, dr, threshold, s1) := p in
  let* q := exec dr (U_SL_iter X y (n_timestamps X) P dr) (U_SL_start X dr values threshold) s1 in
  Ok (U_finish dr (fst q)).

Definition exec_seq {ST} (dr : drawn) (iter : ST -> Z * Z -> G S ST) (st : ST) : G S ST :=
  foldG iter (seq_sched (dr_dil dr)) st.
(** the order is chosen knowing the dilations *)
Definition exec_par {ST} (rs : Z -> S) (sched : list Z -> list (Z * Z)) (dr : drawn) (iter : ST -> Z * Z -> G S ST) (st : ST) : G S ST :=
  liftG (run_sched iter rs (sched (dr_dil dr)) st).

(** on the calling thread only *)
Definition U_SL_generate X y P := U_SL_generate_with X y P exec_seq.
(** one parallel execution *)
Definition U_SL_generate_par rs sched X y P := U_SL_generate_with X y P (exec_par rs sched).

(** U_VL_generate_shapelet, _univariate_variable_length.py 94-259 *)
Definition U_VL_generate_with (X : dataset F) (X_len : list Z) (y : list Z) (min_len : Z) (P : gparams)
  (exec : drawn -> (ust -> Z * Z -> G S ust) -> ust -> G S ust) : res (ushp F) :=
  let* p := U_init (g_n P) (g_sizes P) min_len (g_pnorm P) (g_prime P) (r_seed rng (g_seed P)) in
  let '(values, dr, threshold, s1) := p in
  let* st0 := U_VL_start X X_len dr values threshold in
  let* q := exec dr (U_VL_iter X X_len y P dr) st0 s1 in
  Ok (U_finish dr (fst q)).
Definition U_VL_generate X X_len y min_len P := U_VL_generate_with X X_len y min_len P exec_seq.
Definition U_VL_generate_par rs sched X X_len y min_len P := U_VL_generate_with X X_len y min_len P (exec_par rs sched).

(** ** Multivariate *)

(** Shared arrays: mask_sampling[norm, i_d, sample, feature, t], threshold, flat values and channel ids,
    and mask_return. *)
Record mst := mkMst {
  m_mask : list (list (list (list (list bool))));
  m_thr : list F;
  m_val : list F;
  m_chan : list Z;
  m_ret : list bool
}.

Definition clear5 (m : list (list (list (list (list bool))))) (norm i_d id ch t : Z)
  : res (list (list (list (list (list bool))))) :=
  upd_at m norm (fun m1 => upd_at m1 i_d (fun m2 => upd_at m2 id (fun m3 => upd_at m3 ch (fun r => set r t false)))).

(** [M[ch, :b].sum(axis=0)] for the mask of one sample: per timestamp, number of unmasked channels *)
Definition channel_counts (sample_mask : list (list bool)) (chs : list Z) (b : Z) : res (list Z) :=
  let* rows := mapM (get sample_mask) chs in
  let rows := map (fun r => slice r 0 b) rows in
  Ok (map (fun t => zsum (map (fun r => b2z (nthd false r t)) rows)) (zrange 0 (shape1 rows))).

(** [counts >= _n_channels*alpha] *)
Definition enough (n_ch : Z) (alpha : F) (counts : list Z) : list bool :=
  map (fun c => nleb N (nmul N (nofZ N n_ch) alpha) (nofZ N c)) counts.

(** [a + b] of two arrays of the same size (numpy would also broadcast arrays of size 1) *)
Definition vadd (a b : list F) : res (list F) :=
  let* _ := guard (zlen a =? zlen b) ValueError in
  Ok (map (fun p : F * F => nadd N (fst p) (snd p)) (combine a b)).

(** Loop over the channels, _multivariate_same_length.py 224-256 and _multivariate_variable_length.py 252-285:
    updates the mask, accumulates the distance vector and the values. [n] is the modulus of the mask
    positions, [ser i ch] the series used. *)
Definition M_channels (P : gparams) (ser : Z -> Z -> res (list F)) (norm i_d id_sample id_test index _length _dilation n asize : Z)
  (nm : bool) (chs : list Z) (st : list (list (list (list (list bool)))) * list F * list F)
  : res (list (list (list (list (list bool)))) * list F * list F) :=
  foldM (fun st k =>
      let '(mask, x_dist, vals) := st in
      let* ch := get chs k in
      let* mask' := foldM (fun m j => foldM (fun m t => clear5 m norm i_d id_sample ch t)
                                        (cleared index _dilation n j) m)
                      (zrange 0 asize) mask in
      let* x := ser id_sample ch in
      let* v := get_subsequence N x index _length _dilation nm (g_phase P) in
      let* xt := ser id_test ch in
      let* dv := compute_shapelet_dist_vector N xt v _length _dilation nm (g_phase P) in
      let* x_dist' := vadd x_dist dv in
      let* vals' := set_slice vals (k * _length) ((k + 1) * _length) v in
      Ok (mask', x_dist', vals'))
    (zrange 0 (zlen chs)) st.

(** the assignments of _multivariate_same_length.py 258-265, _multivariate_variable_length.py 288-295 *)
Definition M_store (dr : drawn) (nch : list Z) (i_shp : Z) (vals : list F) (chs : list Z) (st : mst) : res (list F * list Z) :=
  let a1 := offsets (zmul_list nch (dr_len dr)) in
  let a2 := offsets nch in
  let* v0 := get a1 i_shp in let* v1 := get a1 (i_shp + 1) in
  let* c0 := get a2 i_shp in let* c1 := get a2 (i_shp + 1) in
  let* val' := set_slice (m_val st) v0 v1 vals in
  let* chan' := set_slice (m_chan st) c0 c1 chs in
  Ok (val', chan').

(** [X[i, ch]] and [X[i, ch, :X_len[i]]] *)
Definition ch_series (X : dataset F) (i ch : Z) : res (list F) := let* x := get X i in get x ch.
Definition ch_series_vl (X : dataset F) (X_len : list Z) (i ch : Z) : res (list F) :=
  let* x := get X i in let* r := get x ch in let* n := get X_len i in Ok (slice r 0 n).

(** Body of the inner loop of M_SL_generate_shapelet, _multivariate_same_length.py 182-267 *)
Definition M_SL_iter (X : dataset F) (y : list Z) (nf n_ts : Z) (P : gparams) (dr : drawn) (nch : list Z) (st : mst)
  (e : Z * Z) : G S mst :=
  let '(i_d, i_shp) := e in
  let! min_l := liftG (min_len_of dr i_d) in
  let! _dilation := liftG (get (dr_dil dr) i_shp) in
  let! _length := liftG (get (dr_len dr) i_shp) in
  let! nm := liftG (get (dr_norm dr) i_shp) in
  let norm := b2z nm in
  let! _n_channels := liftG (get nch i_shp) in
  let d_shape := if g_phase P then n_ts else n_ts - (_length - 1) * _dilation in
  let! mask_dil := liftG (let* m1 := get (m_mask st) norm in get m1 i_d) in
  let! _values := liftG (full (_n_channels * _length) (n0 N)) in
  let! chs := choice_norep (zrange 0 nf) _n_channels in
  let! cnts := liftG (mapM (fun sm => channel_counts sm chs d_shape) mask_dil) in
  let i_mask := where2 (map (enough _n_channels (g_alpha P)) cnts) in
  if 0 <? zlen i_mask then
    let! x_dist := liftG (full d_shape (n0 N)) in
    let! id_sample := choice rng (map fst i_mask) in
    let! index := choice rng (map snd (filter (fun p => fst p =? id_sample) i_mask)) in
    let! id_test := pick_test y id_sample in
    let! r := liftG (M_channels P (ch_series X) norm i_d id_sample id_test index _length _dilation n_ts
                       (alpha_size (g_alpha P) _length min_l) nm chs (m_mask st, x_dist, _values)) in
    let '(mask', x_dist', vals) := r in
    let! vc := liftG (M_store dr nch i_shp vals chs st) in
    let! thr := draw_threshold x_dist' (g_pmin P) (g_pmax P) in
    let! thr' := liftG (set (m_thr st) i_shp thr) in
    retG (mkMst mask' thr' (fst vc) (snd vc) (m_ret st))
  else
    let! ret' := liftG (set (m_ret st) i_shp false) in
    retG (mkMst (m_mask st) (m_thr st) (m_val st) (m_chan st) ret').

(** Body of the inner loop of M_VL_generate_shapelet, _multivariate_variable_length.py 189-297 *)
Definition M_VL_iter (X : dataset F) (X_len : list Z) (y : list Z) (nf : Z) (P : gparams) (dr : drawn) (nch : list Z) (st : mst)
  (e : Z * Z) : G S mst :=
  let '(i_d, i_shp) := e in
  let! min_l := liftG (min_len_of dr i_d) in
  let! _dilation := liftG (get (dr_dil dr) i_shp) in
  let! _length := liftG (get (dr_len dr) i_shp) in
  let! nm := liftG (get (dr_norm dr) i_shp) in
  let norm := b2z nm in
  let! _n_channels := liftG (get nch i_shp) in
  let! chs := choice_norep (zrange 0 nf) _n_channels in
  let! _values := liftG (full (_n_channels * _length) (n0 N)) in
  let! mask_dil := liftG (let* m1 := get (m_mask st) norm in get m1 i_d) in
  let bound n := if g_phase P then n else n - (_length - 1) * _dilation in
  let! i_mask := liftG (mapM (fun i_x => let* sm := get mask_dil i_x in let* n := get X_len i_x in
                                         let* c := channel_counts sm chs (bound n) in
                                         Ok (existsb (fun b : bool => b) (enough _n_channels (g_alpha P) c)))
                             (zrange 0 (zlen X))) in
  let i_mask := where_ i_mask in
  if 0 <? zlen i_mask then
    let! id_sample := choice rng i_mask in
    let! id_test := pick_test y id_sample in
    let! n_t := liftG (get X_len id_test) in
    let! x_dist := liftG (full (bound n_t) (n0 N)) in
    let! n_s := liftG (get X_len id_sample) in
    let! sm := liftG (get mask_dil id_sample) in
    let! c := liftG (channel_counts sm chs (bound n_s)) in
    let! index := choice rng (where_ (enough _n_channels (g_alpha P) c)) in
    let! r := liftG (M_channels P (ch_series_vl X X_len) norm i_d id_sample id_test index _length _dilation n_s
                       (alpha_size (g_alpha P) _length min_l) nm chs (m_mask st, x_dist, _values)) in
    let '(mask', x_dist', vals) := r in
    let! vc := liftG (M_store dr nch i_shp vals chs st) in
    let! thr := draw_threshold x_dist' (g_pmin P) (g_pmax P) in
    let! thr' := liftG (set (m_thr st) i_shp thr) in
    retG (mkMst mask' thr' (fst vc) (snd vc) (m_ret st))
  else
    let! ret' := liftG (set (m_ret st) i_shp false) in
    retG (mkMst (m_mask st) (m_thr st) (m_val st) (m_chan st) ret').

(** Removal of the shapelets that could not be sampled, _multivariate_same_length.py 269-292,
    _multivariate_variable_length.py 299-323 *)
Definition M_finish (dr : drawn) (nch : list Z) (st : mst) : res (mshp F) :=
  let a1 := offsets (zmul_list nch (dr_len dr)) in
  let a2 := offsets nch in
  let lengths := mask_select (m_ret st) (dr_len dr) in
  let n_channels := mask_select (m_ret st) nch in
  let* mask_channel_ids := full (zsum n_channels) 0 in
  let* mask_values := full (zsum (zmul_list lengths n_channels)) (n0 N) in
  let* q := foldM (fun q p =>
      let '(c1, c2, mv, mc) := q in
      let '(idx, i_shp) := p in
      let* nc := get n_channels idx in
      let* l := get lengths idx in
      let d1 := c1 + nc * l in
      let d2 := c2 + nc in
      let* v0 := get a1 i_shp in let* v1 := get a1 (i_shp + 1) in
      let* k0 := get a2 i_shp in let* k1 := get a2 (i_shp + 1) in
      let* mv' := set_slice mv c1 d1 (slice (m_val st) v0 v1) in
      let* mc' := set_slice mc c2 d2 (slice (m_chan st) k0 k1) in
      Ok (d1, d2, mv', mc'))
    (combine (zrange 0 (zlen (where_ (m_ret st)))) (where_ (m_ret st))) (0, 0, mask_values, mask_channel_ids) in
  let '(_, _, mv, mc) := q in
  Ok (mkMshp mv lengths (mask_select (m_ret st) (dr_dil dr)) (mask_select (m_ret st) (m_thr st))
        (mask_select (m_ret st) (dr_norm dr)) n_channels mc).

(** _multivariate_same_length.py 165-174, _multivariate_variable_length.py 170-182 *)
Definition M_SL_start (X : dataset F) (dr : drawn) (values threshold : list F) (chan : list Z) : mst :=
  let row := repeat true (Z.to_nat (n_timestamps X)) in
  let slice0 := repeat (repeat row (Z.to_nat (n_features X))) (length X) in
  mkMst (repeat (repeat slice0 (length (unique (dr_dil dr)))) 2) threshold values chan
        (repeat true (length (dr_len dr))).
Definition M_VL_start (X : dataset F) (X_len : list Z) (dr : drawn) (values threshold : list F) (chan : list Z) : res mst :=
  let* max_len := max_list X_len in
  let row := repeat true (Z.to_nat max_len) in
  let* slice0 := mapM (fun i => let* n := get X_len i in Ok (repeat (clear_from row n) (Z.to_nat (n_features X))))
                      (zrange 0 (zlen X)) in
  Ok (mkMst (repeat (repeat slice0 (length (unique (dr_dil dr)))) 2) threshold values chan
        (repeat true (length (dr_len dr)))).

(** M_SL_generate_shapelet, _multivariate_same_length.py 106-292 *)
Definition M_SL_generate_with (X : dataset F) (y : list Z) (max_channels : Z) (P : gparams)
  (exec : drawn -> (mst -> Z * Z -> G S mst) -> mst -> G S mst) : res (mshp F) :=
  let* p := M_init (g_n P) (g_sizes P) (n_timestamps X) (g_pnorm P) max_channels (g_prime P) (r_seed rng (g_seed P)) in
  let '(values, dr, threshold, nch, chan, s1) := p in
  let* q := exec dr (M_SL_iter X y (n_features X) (n_timestamps X) P dr nch) (M_SL_start X dr values threshold chan) s1 in
  M_finish dr nch (fst q).
Definition M_SL_generate X y max_channels P := M_SL_generate_with X y max_channels P exec_seq.
Definition M_SL_generate_par rs sched X y max_channels P := M_SL_generate_with X y max_channels P (exec_par rs sched).

(** M_VL_generate_shapelet, _multivariate_variable_length.py 106-323 *)
Definition M_VL_generate_with (X : dataset F) (X_len : list Z) (y : list Z) (max_channels min_len : Z) (P : gparams)
  (exec : drawn -> (mst -> Z * Z -> G S mst) -> mst -> G S mst) : res (mshp F) :=
  let* p := M_init (g_n P) (g_sizes P) min_len (g_pnorm P) max_channels (g_prime P) (r_seed rng (g_seed P)) in
  let '(values, dr, threshold, nch, chan, s1) := p in
  let* st0 := M_VL_start X X_len dr values threshold chan in
  let* q := exec dr (M_VL_iter X X_len y (n_features X) P dr nch) st0 s1 in
  M_finish dr nch (fst q).
Definition M_VL_generate X X_len y max_channels min_len P := M_VL_generate_with X X_len y max_channels min_len P exec_seq.
Definition M_VL_generate_par rs sched X X_len y max_channels min_len P :=
  M_VL_generate_with X X_len y max_channels min_len P (exec_par rs sched).

End Gen.
Arguments mkG {F}. Arguments g_n {F}. Arguments g_sizes {F}. Arguments g_seed {F}. Arguments g_pnorm {F}.
Arguments g_pmin {F}. Arguments g_pmax {F}. Arguments g_alpha {F}. Arguments g_phase {F}. Arguments g_prime {F}.
Arguments mkUst {F}. Arguments u_mask {F}. Arguments u_thr {F}. Arguments u_val {F}.
Arguments mkMst {F}. Arguments m_mask {F}. Arguments m_thr {F}. Arguments m_val {F}. Arguments m_chan {F}. Arguments m_ret {F}.
Arguments gparams : clear implicits. Arguments ust : clear implicits. Arguments mst : clear implicits.
