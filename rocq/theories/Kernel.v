(** Model of convst/transformers/_commons.py. *)
From Coq Require Import ZArith List Bool Lia.
From Verif Require Import Prelude Num.
Import ListNotations.
Open Scope Z_scope.

(** Python [range(a,b,s)] for s > 0. *)
Definition zrange_step (a b s : Z) : list Z :=
  map (fun k => a + s * k) (zrange 0 ((b - a + s - 1) / s)).

(** [X.shape[1]] of a 2D array given as its rows (0 for an array without rows:
    numpy keeps the second dimension, but no cell of it can be read). *)
Definition shape1 {A} (X : list (list A)) : Z :=
  match X with [] => 0 | r :: _ => zlen r end.

(** * Random generator

    numba's per-thread generator: an abstract state, a bounded integer draw and
    a uniform draw.  [G S A] is the type of code that draws random numbers and may
    raise. *)
Record Rng (F S : Type) : Type := mkRng {
  r_seed : Z -> S;               (** numpy.random.seed *)
  r_int : Z -> S -> Z * S;       (** integer in [0,n) *)
  r_unif : S -> F * S            (** float in [0,1) *)
}.
Arguments r_seed {F S}. Arguments r_int {F S}. Arguments r_unif {F S}.

Definition G (S A : Type) : Type := S -> res (A * S).
Definition retG {S A} (a : A) : G S A := fun s => Ok (a, s).
Definition liftG {S A} (m : res A) : G S A := fun s => let* a := m in Ok (a, s).
Definition bindG {S A B} (m : G S A) (f : A -> G S B) : G S B :=
  fun s => let* p := m s in f (fst p) (snd p).
Notation "'let!' x := m 'in' k" := (bindG m (fun x => k))
  (at level 200, x pattern, m at level 100, k at level 200).

Fixpoint mapG {S A B} (f : A -> G S B) (l : list A) : G S (list B) :=
  match l with
  | [] => retG []
  | x :: t => let! y := f x in let! ys := mapG f t in retG (y :: ys)
  end.

Section Kernel.
Context {F : Type} (N : NumOps F).

(** ** Distance functions *)

(** _commons.py 22-26, loop and final square root *)
Definition sq_loop (x y : list F) : res F :=
  foldM (fun s i => let* a := get x i in let* b := get y i in
                    let dlt := nsub N a b in Ok (nadd N s (nmul N dlt dlt)))
        (zrange 0 (zlen x)) (n0 N).
Definition euclidean (x y : list F) : res F :=
  let* s := sq_loop x y in Ok (nsqrt N s).

(** _commons.py 31-35 *)
Definition squared_euclidean (x y : list F) : res F := sq_loop x y.

(** _commons.py 40-44: loops over x.shape[0] only, so reads y out of range when
    y is shorter than x. *)
Definition manhattan (x y : list F) : res F :=
  foldM (fun s i => let* a := get x i in let* b := get y i in
                    Ok (nadd N s (nabs N (nsub N a b))))
        (zrange 0 (zlen x)) (n0 N).

(** ** Subsequences.  Loops filling disjoint cells of a fresh array are written
    as tabulations; [full] accounts for numpy.zeros rejecting negative sizes. *)

(** _commons.py 75-100 *)
Definition strides_1D (X : list F) (w d : Z) : res (list (list F)) :=
  let n := zlen X - (w - 1) * d in
  let* _ := guard ((0 <=? n) && (0 <=? w)) ValueError in
  mapM (fun i => mapM (fun j => get X (i + j * d)) (zrange 0 w)) (zrange 0 n).

(** _commons.py 139-163 *)
Definition strides_1D_phase (X : list F) (w d : Z) : res (list (list F)) :=
  let n := zlen X in
  let* _ := guard (0 <=? w) ValueError in
  mapM (fun i => mapM (fun j => get X ((i + j * d) mod n)) (zrange 0 w)) (zrange 0 n).

(** _commons.py 55-59 *)
Definition generate_strides_1D (X : list F) (w d : Z) (use_phase : bool) : res (list (list F)) :=
  if use_phase then strides_1D_phase X w d else strides_1D X w d.

(** _commons.py 106-133; the number of timestamps is that of the array, i.e. of
    its first row. *)
Definition strides_2D (X : list (list F)) (w d : Z) : res (list (list (list F))) :=
  let n := shape1 X - (w - 1) * d in
  let* _ := guard ((0 <=? n) && (0 <=? w)) ValueError in
  mapM (fun ft => mapM (fun i => mapM (fun j =>
          let* row := get X ft in get row (i + j * d)) (zrange 0 w)) (zrange 0 n))
       (zrange 0 (zlen X)).

(** _commons.py 169-195 *)
Definition strides_2D_phase (X : list (list F)) (w d : Z) : res (list (list (list F))) :=
  let n := shape1 X in
  let* _ := guard (0 <=? w) ValueError in
  mapM (fun ft => mapM (fun i => mapM (fun j =>
          let* row := get X ft in get row ((i + j * d) mod n)) (zrange 0 w)) (zrange 0 n))
       (zrange 0 (zlen X)).

(** _commons.py 65-69 *)
Definition generate_strides_2D (X : list (list F)) (w d : Z) (use_phase : bool)
  : res (list (list (list F))) :=
  if use_phase then strides_2D_phase X w d else strides_2D X w d.

(** numpy mean/std as compiled by numba: sequential sums from 0; std is the
    population standard deviation (numba writes the root as [var ** 0.5]). *)
Definition nsum (l : list F) : F := fold_left (nadd N) l (n0 N).
Definition mean (l : list F) : F := ndiv N (nsum l) (nofZ N (zlen l)).
Definition std (l : list F) : F :=
  let m := mean l in
  nsqrt N (ndiv N (nsum (map (fun v => nmul N (nsub N v m) (nsub N v m)) l)) (nofZ N (zlen l))).

(** [(v - v.mean())/(v.std()+1e-8)]: _commons.py 247, 288, 392, 465 and
    _univariate_same_length.py 320 etc. *)
Definition znorm (v : list F) : list F :=
  let m := mean v in
  let s := nadd N (std v) (neps N) in
  map (fun x => ndiv N (nsub N x m) s) v.

(** Walk of _commons.py 239-244 and 280-285: the running index [_idx] is advanced by
    [step] after each read. *)
Fixpoint walk (X : list F) (step : Z -> Z) (n : nat) (idx : Z) : res (list F) :=
  match n with
  | O => Ok []
  | S n' => let* x := get X idx in
            let* t := walk X step n' (step idx) in Ok (x :: t)
  end.

(** _commons.py 215-248 *)
Definition get_subsequence_nophase (X : list F) (i_start length d : Z) (normalize : bool) : res (list F) :=
  let* _ := guard (0 <=? length) ValueError in
  let* v := walk X (fun idx => idx + d) (Z.to_nat length) i_start in
  Ok (if normalize then znorm v else v).

(** _commons.py 254-289 *)
Definition get_subsequence_phase (X : list F) (i_start length d : Z) (normalize : bool) : res (list F) :=
  let n_ts := zlen X in
  let* _ := guard (0 <=? length) ValueError in
  let* v := walk X (fun idx => (idx + d) mod n_ts) (Z.to_nat length) i_start in
  Ok (if normalize then znorm v else v).

(** _commons.py 201-209 *)
Definition get_subsequence (X : list F) (index length d : Z) (normalize use_phase : bool) : res (list F) :=
  if use_phase then get_subsequence_phase X index length d normalize
  else get_subsequence_nophase X index length d normalize.

(** ** Distance vectors *)

(** _commons.py 327-357 *)
Definition dist_vector (x values : list F) (length dilation : Z) : res (list F) :=
  let* c := strides_1D x length dilation in
  mapM (fun row => manhattan row values) c.

(** _commons.py 363-394 *)
Definition dist_vector_norm (x values : list F) (length dilation : Z) : res (list F) :=
  let* c := strides_1D x length dilation in
  mapM (fun row => manhattan (znorm row) values) c.

(** _commons.py 400-430 *)
Definition dist_vector_phase (x values : list F) (length dilation : Z) : res (list F) :=
  let* c := strides_1D_phase x length dilation in
  mapM (fun row => manhattan row values) c.

(** _commons.py 436-467 *)
Definition dist_vector_norm_phase (x values : list F) (length dilation : Z) : res (list F) :=
  let* c := strides_1D_phase x length dilation in
  mapM (fun row => manhattan (znorm row) values) c.

(** _commons.py 301-321 *)
Definition compute_shapelet_dist_vector (x values : list F) (length dilation : Z)
  (normalize use_phase : bool) : res (list F) :=
  if normalize && use_phase then dist_vector_norm_phase x values length dilation
  else if normalize && negb use_phase then dist_vector_norm x values length dilation
  else if negb normalize && use_phase then dist_vector_phase x values length dilation
  else if negb normalize && negb use_phase then dist_vector x values length dilation
  else Err ValueError.

(** ** Features *)

(** Loop body of _commons.py 513-518 and 567-572. *)
Definition feat_step (threshold : F) (st : F * Z * Z) (i : Z) (dist : F) : F * Z * Z :=
  let '(mn, am, cnt) := st in
  let '(mn', am') :=
    if nltb N dist mn || neqb N mn (nm1 N) then (dist, i) else (mn, am) in
  (mn', am', if nleb N dist threshold then cnt + 1 else cnt).

(** _commons.py 474-520 *)
Definition apply_one_univariate (x : list (list F)) (values : list F) (threshold : F)
  : res (F * F * F) :=
  let* st := foldM (fun st i =>
      let* row := get x i in
      let* dist := manhattan row values in
      Ok (feat_step threshold st i dist))
    (zrange 0 (zlen x)) (nm1 N, 0, 0) in
  let '(mn, am, cnt) := st in
  Ok (mn, nofZ N am, nofZ N cnt).

(** _commons.py 526-574; x is n_ft x n_candidates x length *)
Definition apply_one_multivariate (x : list (list (list F))) (values : list (list F)) (threshold : F)
  : res (F * F * F) :=
  let* st := foldM (fun st i =>
      let* dist := foldM (fun acc ft =>
            let* xf := get x ft in
            let* row := get xf i in
            let* v := get values ft in
            let* m := manhattan row v in
            Ok (nadd N acc m)) (zrange 0 (zlen x)) (n0 N) in
      Ok (feat_step threshold st i dist))
    (zrange 0 (shape1 x)) (nm1 N, 0, 0) in
  let '(mn, am, cnt) := st in
  Ok (mn, nofZ N am, nofZ N cnt).

(** ** Parameter combinations *)

(** [where(u==v)[0][0]] *)
Definition index_of (u : list Z) (v : Z) : res Z := get (where_ (map (Z.eqb v) u)) 0.

Definition get2 {A} (M : list (list A)) (i j : Z) : res A := let* r := get M i in get r j.
Definition set2 {A} (M : list (list A)) (i j : Z) (v : A) : res (list (list A)) :=
  let* r := get M i in let* r' := set r j v in set M i r'.

Definition count_true (M : list (list bool)) : Z :=
  zsum (map (fun r => zlen (filter (fun b : bool => b) r)) M).

(** _commons.py 581-615 *)
Definition combinations_1d (x y : list Z) : res (list (Z * Z)) :=
  let u_x := unique x in
  let u_y := unique y in
  let mask0 := map (fun _ => map (fun _ => false) u_y) u_x in
  let* mask := foldM (fun m i =>
      let* xi := get x i in let* yi := get y i in
      let* a := index_of u_x xi in let* b := index_of u_y yi in
      set2 m a b true) (zrange 0 (zlen x)) mask0 in
  let comb0 := repeat (0, 0) (Z.to_nat (count_true mask)) in
  let* st := foldM (fun st i =>
      let '(m, comb, i_comb) := st in
      let* xi := get x i in let* yi := get y i in
      let* a := index_of u_x xi in let* b := index_of u_y yi in
      let* b0 := get2 m a b in
      if (b0 : bool) then
        let* comb' := set comb i_comb (xi, yi) in
        let* m' := set2 m a b false in
        Ok (m', comb', i_comb + 1)
      else Ok st) (zrange 0 (zlen x)) (mask, comb0, 0) in
  let '(_, comb, _) := st in Ok comb.

(** ** Primes *)

(** _commons.py 630-636 *)
Definition is_prime (n : Z) : bool :=
  if ((n mod 2 =? 0) && (2 <? n)) || (n =? 0) then false
  else forallb (fun i => negb (n mod i =? 0))
         (zrange_step 3 (ntrunc N (nsqrt N (nofZ N n)) + 1) 2).

(** _commons.py 620-624 *)
Definition prime_up_to (n : Z) : res (list Z) :=
  let* _ := guard (0 <=? n + 1) ValueError in
  Ok (where_ (map is_prime (zrange 0 (n + 1)))).

(** ** Random choices *)
Context {S : Type} (rng : Rng F S).

Definition draw_int (n : Z) : G S Z := fun s => Ok (r_int rng n s).
Definition draw_unif : G S F := fun s => Ok (r_unif rng s).

(** numpy.random.choice(a): ValueError on an empty array *)
Definition choice {A} (l : list A) : G S A :=
  let! _ := liftG (guard (0 <? zlen l) ValueError) in
  let! k := draw_int (zlen l) in
  liftG (get l k).

(** numpy.random.uniform(a,b) as compiled by numba: a + (b-a)*random() *)
Definition uniform (a b : F) : G S F :=
  let! u := draw_unif in retG (nadd N a (nmul N (nsub N b a) u)).

Fixpoint ncumsum_from (s : F) (l : list F) : list F :=
  match l with [] => [] | x :: t => let s' := nadd N s x in s' :: ncumsum_from s' t end.

(** the cumulative weights P of _commons.py 643-644 *)
Definition log_weights (n_choice : Z) : list F :=
  map (fun i => ndiv N (n1 N) (npow2 N (nln N (nofZ N i)))) (zrange 1 (n_choice + 1)).
Definition log_cdf (n_choice : Z) : list F :=
  let P := log_weights n_choice in
  map (fun c => ndiv N c (nsum P)) (ncumsum_from (n0 N) P).

(** _commons.py 641-650 *)
Definition choice_log (n_choice n_sample : Z) : G S (list Z) :=
  if 1 <? n_choice then
    let P := log_cdf n_choice in
    mapG (fun _ => let! u := draw_unif in
                   liftG (get (where_ (map (fun p => nleb N u p) P)) 0))
         (zrange 0 n_sample)
  else liftG (full n_sample 0).

End Kernel.
