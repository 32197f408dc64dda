(** Model of convst/transformers/rdst.py: the class R_DST. *)
From Coq Require Import ZArith List Bool Lia String Ascii.
From Verif Require Import Prelude Num Kernel Parallel Apply Gen Checks.
Import ListNotations.
Open Scope Z_scope.

(** STR_UNIVARIATE, STR_MUTLIVARIATE, STR_UNIVARIATE_VARIABLE, STR_MULTIVARIATE_VARIABLE, rdst.py 23-26 *)
Inductive kind := KU | KM | KUV | KMV.

(** Value of the attribute transform_type: 'auto', one of the four names, or None (left by a failed fit). *)
Inductive ttype := TAuto | TKind (k : kind) | TNone.

Definition kind_vl (k : kind) : bool := match k with KUV | KMV => true | _ => false end.

(** str.lower on ASCII *)
Definition lower_ascii (c : ascii) : ascii :=
  let n := nat_of_ascii c in
  if ((65 <=? n) && (n <=? 90))%nat then ascii_of_nat (n + 32) else c.
Fixpoint lower (s : string) : string :=
  match s with EmptyString => EmptyString | String c t => String (lower_ascii c) (lower t) end.

(** What the code uses of numpy, sklearn and the machine: numpy.random.RandomState(seed), its
    randint(2**32-1), sklearn.utils.resample with stratification (which draws from numpy's global generator),
    os.cpu_count() and numba's maximal number of threads. *)
Record pyenv (RS : Type) := mkEnv {
  v_new : Z -> RS;
  v_randint : RS -> Z * RS;
  v_resample : RS -> Z -> bool -> Z -> list Z -> res (list Z) * RS;  (** n, replace, n_samples, y *)
  v_cpus : Z;
  v_threads : Z
}.
Arguments v_new {RS}. Arguments v_randint {RS}. Arguments v_resample {RS}. Arguments v_cpus {RS}. Arguments v_threads {RS}.

Section Estimator.
Context {F : Type} (N : NumOps F) {S : Type} (rng : Rng F S) {RS : Type} (V : pyenv RS).

(** RandomState objects by reference; reference 0 is numpy's global generator. *)
Definition heap := list RS.

(** arguments of R_DST(...), rdst.py 115-133 *)
Record rargs := mkArgs {
  p_transform_type : pyv F;
  p_phase_invariance : pyv F;
  p_alpha : pyv F;
  p_normalize_output : pyv F;
  p_n_samples : pyv F;
  p_n_shapelets : pyv F;
  p_shapelet_lengths : pyv F;
  p_bounds : pyv F;
  p_reduction : pyv F;
  p_prime_dilations : pyv F;
  p_proba_norm : pyv F;
  p_percentiles : pyv F;
  p_random_state : pyv F;
  p_max_channels : option Z;
  p_min_len : option Z;
  p_n_jobs : pyv F
}.

Inductive fitted := FU (s : ushp F) | FM (s : mshp F).

(** attributes of an R_DST object.  min_len and max_channels, stored without any check, are restricted to None or
    an integer. *)
Record est := mkEst {
  e_type : ttype;
  e_phase : bool;
  e_alpha : pyv F;
  e_normout : bool;
  e_n_samples : pyv F;
  e_n_shapelets : Z;
  e_lengths : pyv F;
  e_bounds : option (pyv F * pyv F);
  e_reduction : pyv F;
  e_prime : bool;
  e_proba_norm : pyv F;
  e_percentiles : pyv F;
  e_rs : Z;
  e_n_jobs : pyv F;
  e_max_channels : option Z;
  e_min_len : option Z;
  e_kind : option kind;              (** attributes fitter and transformer *)
  e_shapelets : option fitted        (** attribute shapelets_ *)
}.

(** ** Small Python operations *)

(** conversion of a number to float *)
Definition as_F (v : pyv F) : res F :=
  match v with
  | VInt z => Ok (nofZ N z)
  | VFloat x => Ok x
  | VBool b => Ok (nofZ N (if b then 1 else 0))
  | _ => Err TypeError
  end.

(** conversion of an array cell by astype(int64) *)
Definition as_int (v : pyv F) : res Z :=
  match v with
  | VInt z => Ok z
  | VFloat x => Ok (ntrunc N x)
  | VBool b => Ok (if b then 1 else 0)
  | VStr _ => Err ValueError
  | _ => Err TypeError
  end.

(** len(v) *)
Definition py_len (v : pyv F) : res Z :=
  match v with
  | VList l | VTuple l => Ok (zlen l)
  | VArr (n :: _) _ _ => Ok n
  | VFrame r _ _ _ => Ok r
  | VStr s => Ok (Z.of_nat (String.length s))
  | _ => Err TypeError
  end.

(** v[i] for a position i; a DataFrame is indexed by column names, so the lookup fails *)
Definition py_item (v : pyv F) (i : Z) : res (pyv F) :=
  match v with
  | VList l | VTuple l => get l i
  | VArr [_] _ cells => get cells i
  | VArr (_ :: sh) dt cells => Ok (VArr sh dt (slice cells (i * prod sh) ((i + 1) * prod sh)))
  | VFrame _ _ _ _ => Err IndexError
  | VStr _ => Ok VOther
  | _ => Err TypeError
  end.

(** splitting of a flat row-major array *)
Fixpoint chunks {A} (k n : nat) (l : list A) : list (list A) :=
  match k with O => [] | Datatypes.S k' => firstn n l :: chunks k' n (skipn n l) end.

(** rows of a 2D array of shape (r, c) *)
Definition rows2 {A} (r c : Z) (cells : list A) : list (list A) := chunks (Z.to_nat r) (Z.to_nat c) cells.

(** X.astype(float64) for an array of three dimensions *)
Definition to_dataset (X : pyv F) : res (dataset F) :=
  match X with
  | VArr [n; f; t] _ cells =>
      let* xs := mapM as_F cells in
      Ok (map (rows2 f t) (rows2 n (f * t) xs))
  | _ => Err ValueError
  end.

(** ** Constructor *)

(** sklearn.utils.check_random_state; numpy accepts seeds in [0, 2^32-1] *)
Definition check_random_state (a : pyv F) (h : heap) : res Z * heap :=
  let seeded s := if (0 <=? s) && (s <? 2 ^ 32) then (Ok (zlen h), h ++ [v_new V s]) else (Err ValueError, h) in
  match a with
  | VNone => (Ok 0, h)
  | VInt s => seeded s
  | VBool b => seeded (if b then 1 else 0)
  | VRng id => (Ok id, h)
  | _ => (Err ValueError, h)
  end.

(** rdst.py 486-491; the list of valid names contains STR_UNIVARIATE twice and not STR_UNIVARIATE_VARIABLE *)
Definition validate_transform_type (a : pyv F) : res ttype :=
  match a with
  | VStr s =>
      let s := lower s in
      if (s =? "auto")%string then Ok TAuto
      else if (s =? "univariate")%string then Ok (TKind KU)
      else if (s =? "multivariate")%string then Ok (TKind KM)
      else if (s =? "univariate")%string then Ok (TKind KU)
      else if (s =? "multivariate_variable")%string then Ok (TKind KMV)
      else Err ValueError
  | _ => Err AttributeError
  end.

(** rdst.py 493-498 *)
Definition validate_percentiles (a : pyv F) : res (pyv F) :=
  let* p := check_array_1D N a in
  match p with
  | VArr _ dt cells =>
      if dtype_eqb dt DInt64 || dtype_eqb dt DFloat64 then
        let* p0 := get cells 0 in
        let* p1 := get cells 1 in
        let* x0 := as_F p0 in
        let* x1 := as_F p1 in
        if nleb N x0 x1 then Ok p else Err ValueError
      else Err ValueError
  | _ => Err ValueError
  end.

(** numba.set_num_threads *)
Definition set_num_threads (n : Z) : res unit := guard ((1 <=? n) && (n <=? v_threads V)) ValueError.

(** rdst.py 152-156 (the same statements in rdst_ridge.py 141-145 and rdst_ensemble.py) *)
Definition init_n_jobs (a : pyv F) : res (pyv F) :=
  match a with
  | VBool b => Ok (VBool b)
  | _ => let* n := check_n_jobs (v_cpus V) a in
         let* _ := set_num_threads n in Ok (VInt n)
  end.

(** rdst.py 134-159.  [int(x)] of a numeric value (simplifications: [int] of NaN or an infinity, which raises, is whatever
    [ntrunc] gives; a DataFrame of two rows given as bounds is refused here instead of in fit). *)
Definition init (a : rargs) (h : heap) : res est * heap :=
  let before :=
    let* ty := validate_transform_type (p_transform_type a) in
    let* ph := check_is_boolean (p_phase_invariance a) in
    let* al := check_is_numeric (p_alpha a) in
    let* no := check_is_boolean (p_normalize_output a) in
    let* ns := match p_n_samples a with VNone => Ok VNone | v => check_is_numeric v end in
    let* nsh := let* v := check_is_numeric (p_n_shapelets a) in as_int v in
    let* sl := check_array_1D N (p_shapelet_lengths a) in
    let* bo := match p_bounds a with
               | VNone => Ok None
               | v => let* n := py_len v in
                      if n =? 2 then let* b0 := py_item v 0 in let* b1 := py_item v 1 in Ok (Some (b0, b1))
                      else Err ValueError
               end in
    let* re := check_is_numeric (p_reduction a) in
    let* _ := let* r := as_F re in guard (negb (nleb N (n1 N) r)) ValueError in
    let* pr := check_is_boolean (p_prime_dilations a) in
    let* pn := check_is_numeric (p_proba_norm a) in
    let* pc := validate_percentiles (p_percentiles a) in
    Ok (ty, ph, al, no, ns, nsh, sl, bo, re, pr, pn, pc) in
  match before with
  | Err e => (Err e, h)
  | Ok (ty, ph, al, no, ns, nsh, sl, bo, re, pr, pn, pc) =>
      let '(r, h') := check_random_state (p_random_state a) h in
      (let* id := r in
       let* nj := init_n_jobs (p_n_jobs a) in
       Ok (mkEst ty ph al no ns nsh sl bo re pr pn pc id nj (p_max_channels a) (p_min_len a) None None), h')
  end.

(** ** Methods: they may change the object and the generators, also when they raise. *)
Definition ES (A : Type) : Type := est -> heap -> res A * est * heap.
Definition retE {A} (a : A) : ES A := fun s h => (Ok a, s, h).
Definition liftE {A} (m : res A) : ES A := fun s h => (m, s, h).
Definition bindE {A B} (m : ES A) (f : A -> ES B) : ES B :=
  fun s h => match m s h with
             | (Ok a, s', h') => f a s' h'
             | (Err e, s', h') => (Err e, s', h')
             end.
Notation "'let%' x := m 'in' k" := (bindE m (fun x => k))
  (at level 200, x pattern, m at level 100, k at level 200).
Definition self : ES est := fun s h => (Ok s, s, h).
Definition put (f : est -> est) : ES unit := fun s h => (Ok tt, f s, h).

(** assignments to attributes *)
Definition set_type t s := mkEst t (e_phase s) (e_alpha s) (e_normout s) (e_n_samples s) (e_n_shapelets s) (e_lengths s)
  (e_bounds s) (e_reduction s) (e_prime s) (e_proba_norm s) (e_percentiles s) (e_rs s) (e_n_jobs s) (e_max_channels s)
  (e_min_len s) (e_kind s) (e_shapelets s).
Definition set_normout b s := mkEst (e_type s) (e_phase s) (e_alpha s) b (e_n_samples s) (e_n_shapelets s) (e_lengths s)
  (e_bounds s) (e_reduction s) (e_prime s) (e_proba_norm s) (e_percentiles s) (e_rs s) (e_n_jobs s) (e_max_channels s)
  (e_min_len s) (e_kind s) (e_shapelets s).
Definition set_lengths_attr l s := mkEst (e_type s) (e_phase s) (e_alpha s) (e_normout s) (e_n_samples s) (e_n_shapelets s) l
  (e_bounds s) (e_reduction s) (e_prime s) (e_proba_norm s) (e_percentiles s) (e_rs s) (e_n_jobs s) (e_max_channels s)
  (e_min_len s) (e_kind s) (e_shapelets s).
Definition set_max_channels m s := mkEst (e_type s) (e_phase s) (e_alpha s) (e_normout s) (e_n_samples s) (e_n_shapelets s)
  (e_lengths s) (e_bounds s) (e_reduction s) (e_prime s) (e_proba_norm s) (e_percentiles s) (e_rs s) (e_n_jobs s) m
  (e_min_len s) (e_kind s) (e_shapelets s).
Definition set_min_len m s := mkEst (e_type s) (e_phase s) (e_alpha s) (e_normout s) (e_n_samples s) (e_n_shapelets s)
  (e_lengths s) (e_bounds s) (e_reduction s) (e_prime s) (e_proba_norm s) (e_percentiles s) (e_rs s) (e_n_jobs s)
  (e_max_channels s) m (e_kind s) (e_shapelets s).
Definition set_kind k s := mkEst (e_type s) (e_phase s) (e_alpha s) (e_normout s) (e_n_samples s) (e_n_shapelets s)
  (e_lengths s) (e_bounds s) (e_reduction s) (e_prime s) (e_proba_norm s) (e_percentiles s) (e_rs s) (e_n_jobs s)
  (e_max_channels s) (e_min_len s) (Some k) (e_shapelets s).
Definition set_shapelets f s := mkEst (e_type s) (e_phase s) (e_alpha s) (e_normout s) (e_n_samples s) (e_n_shapelets s)
  (e_lengths s) (e_bounds s) (e_reduction s) (e_prime s) (e_proba_norm s) (e_percentiles s) (e_rs s) (e_n_jobs s)
  (e_max_channels s) (e_min_len s) (e_kind s) (Some f).

(** _auto_class, rdst.py 297-328; [TNone] when no branch returns *)
Definition auto_class (X : pyv F) : res ttype :=
  let variable :=
    let* x0 := py_item X 0 in
    let* n := py_len x0 in
    Ok (TKind (if 1 <? n then KMV else KUV)) in
  match X with
  | VList _ => variable
  | VArr _ dt _ =>
      if dtype_eqb dt DObject then variable
      else if dtype_eqb dt DInt64 || dtype_eqb dt DFloat64 then
        let* A := check_array_3D N X false 2 in
        match shape A with
        | [_; f; _] => Ok (TKind (if 1 <? f then KM else KU))
        | _ => Err ValueError
        end
      else Ok TNone
  | _ => Err AttributeError
  end.

(** _set_fit_transform, rdst.py 331-384 *)
Definition set_fit_transform (X : pyv F) : ES unit :=
  let% s := self in
  let% ty := match e_type s with
             | TAuto => let% ty := liftE (auto_class X) in
                        let% _ := put (set_type ty) in retE ty
             | ty => retE ty
             end in
  match ty with
  | TKind k => put (set_kind k)
  | _ => liftE (Err ValueError)
  end.

(** X[i].shape, then shape[0] and shape[1]; rdst.py 416-418 *)
Definition sample_shape (x : pyv F) : res (Z * Z) :=
  match x with
  | VArr [r; c] _ _ => Ok (r, c)
  | VArr (r :: c :: _) _ _ => Ok (r, c)
  | VArr _ _ _ => Err IndexError
  | VFrame r c _ _ => Ok (r, c)
  | _ => Err AttributeError
  end.

(** [X_new[i, :, :lengths[i]] = X[i]] for a zero-initialised row block; an X[i] of more than two dimensions does not
    broadcast (simplification: numpy accepts some leading dimensions of size 1) *)
Definition pad_sample (width : Z) (x : pyv F) : res (list (list F)) :=
  match x with
  | VArr [r; c] _ cells | VFrame r c _ cells =>
      let* xs := mapM as_F cells in
      Ok (map (fun row => row ++ repeat (n0 N) (Z.to_nat (width - c))) (rows2 r c xs))
  | _ => Err ValueError
  end.

(** _format_uneven_timestamps, rdst.py 386-427: the array, its shape, and the lengths *)
Definition format_uneven (X : pyv F) : res (dataset F * list Z * list Z) :=
  let* n := py_len X in
  let* shs := mapM (fun i => let* x := py_item X i in sample_shape x) (zrange 0 n) in
  let n_ft := map fst shs in
  let lengths := map snd shs in
  let* n_ft0 := get n_ft 0 in
  if forallb (Z.eqb n_ft0) n_ft then
    let* w := max_list lengths in
    let* X_new := mapM (fun i => let* x := py_item X i in pad_sample w x) (zrange 0 n) in
    Ok (X_new, [n; n_ft0; w], lengths)
  else Err ValueError.

(** [isinstance(b, float)] then [int(b*min_len)], rdst.py 172-176; other values than numbers make [max] raise *)
Definition bound_value (min_len : Z) (b : pyv F) : res Z :=
  match b with
  | VFloat x => Ok (ntrunc N (nmul N x (nofZ N min_len)))
  | VInt z => Ok z
  | VBool b => Ok (if b then 1 else 0)
  | _ => Err TypeError
  end.

(** [l[::step]] for step > 0 *)
Definition every {A} (step : Z) (l : list A) : list A :=
  map snd (filter (fun p : Z * A => fst p mod step =? 0) (combine (zrange 0 (zlen l)) l)).

(** rdst.py 169-185 *)
Definition bounds_lengths (min_len : Z) (b0 b1 : Z) (reduction : pyv F) : res (list Z) :=
  let min_l := Z.max 3 b0 in
  let max_l := Z.max 4 (Z.max (b0 + 1) (b1 + 1)) in
  let lengths := zrange min_l max_l in
  if 3 <? zlen lengths then
    let* n_remove := match reduction with
                     | VInt z => Ok (zlen lengths * z)
                     | v => let* r := as_F v in Ok (ntrunc N (nmul N (nofZ N (zlen lengths)) r))
                     end in
    if 0 <? n_remove then Ok (every (zlen lengths / n_remove) lengths) else Ok lengths
  else Ok lengths.

(** _set_lengths, rdst.py 162-185 *)
Definition set_lengths (s : est) (min_len : Z) : res (pyv F) :=
  match e_bounds s with
  | None =>
      match e_lengths s with
      | VArr sh DFloat64 cells =>
          let* fs := mapM as_F cells in
          Ok (VArr sh DFloat64 (map (fun x => VFloat (nofZ N (nfloor N (nmul N (nofZ N min_len) x)))) fs))
      | l => Ok l
      end
  | Some (b0, b1) =>
      let* b0 := bound_value min_len b0 in
      let* b1 := bound_value min_len b1 in
      let* ls := bounds_lengths min_len b0 b1 (e_reduction s) in
      Ok (VArr [zlen ls] DInt64 (map VInt ls))
  end.

(** _check_params, rdst.py 430-484: the shapelet lengths (the warning is not modelled) *)
Definition check_lengths (lengths : pyv F) (n_timestamps : Z) : res (list Z) :=
  let* a := check_array_1D N lengths in
  let* ls := match a with VArr _ _ cells => mapM as_int cells | _ => Err TypeError end in
  let* _ := guard (forallb (fun l => 1 <? l) ls) ValueError in
  if forallb (fun l => l <=? n_timestamps) ls then Ok ls
  else if n_timestamps <? 3 then Err ValueError
  else Ok (map (fun l => if n_timestamps <? l then n_timestamps / 2 else l) ls).

(** [rng.randint(iinfo(uint32).max)] on the generator of the object, rdst.py 479-480 *)
Definition draw_seed : ES Z := fun s h =>
  match get h (e_rs s) with
  | Ok g => let '(z, g') := v_randint V g in
            match set h (e_rs s) g' with
            | Ok h' => (Ok z, s, h')
            | Err e => (Err e, s, h)
            end
  | Err e => (Err e, s, h)
  end.

(** sklearn.utils.resample called without random_state: draws from numpy's global generator *)
Definition call_resample (n : Z) (replace : bool) (k : Z) (y : list Z) : ES (list Z) := fun s h =>
  match h with
  | g :: t => let '(r, g') := v_resample V g n replace k y in (r, s, g' :: t)
  | [] => (Err AttributeError, s, h)
  end.

(** [int(X.shape[0]*self.n_samples)] *)
Definition sample_count (n : Z) (v : pyv F) : res Z :=
  match v with
  | VInt z => Ok (n * z)
  | v => let* r := as_F v in Ok (ntrunc N (nmul N (nofZ N n) r))
  end.

(** rdst.py 210-219: X, y after the optional selection of samples *)
Definition subsample (X : dataset F) (y : list Z) (n : Z) : ES (dataset F * list Z) :=
  let% s := self in
  match e_n_samples s with
  | VNone => retE (X, y)
  | v =>
      let% r := liftE (as_F v) in
      let selection replace :=
        let% k := liftE (sample_count n v) in
        let% ids := call_resample n replace k y in
        let% X' := liftE (mapM (get X) ids) in
        let% y' := liftE (mapM (get y) ids) in
        retE (X', y') in
      if nltb N r (n1 N) then selection false
      else if nltb N (n1 N) r then selection true
      else retE (X, y)
  end.

(** Arguments of the call of the fitter, rdst.py 231-257 *)
Record request := mkReq {
  q_kind : kind;
  q_X : dataset F;
  q_y : list Z;
  q_P : gparams F;
  q_max_channels : Z;
  q_min_len : Z;
  q_X_len : option (list Z)
}.

(** rdst.py 201-208: X as an array, its shape, the lengths in variable-length mode; min_len is set *)
Definition read_X (k : kind) (X : pyv F) : ES (dataset F * list Z * option (list Z)) :=
  if kind_vl k then
    let% r := liftE (format_uneven X) in
    let '(D, sh, lens) := r in
    let% _ := liftE (check_shape_3D sh false 2) in
    let% s := self in
    let% _ := match e_min_len s with
              | None => let% m := liftE (min_list lens) in put (set_min_len (Some m))
              | Some _ => retE tt
              end in
    retE (D, sh, Some lens)
  else
    let% A := liftE (check_array_3D N X false 2) in
    let% D := liftE (to_dataset A) in
    let% _ := put (set_min_len (Some (nthd 0 (shape A) 2))) in
    retE (D, shape A, None).

(** rdst.py 200-230: everything before the call of the fitter *)
Definition prepare (X : pyv F) (y : list Z) : ES request :=
  let% _ := set_fit_transform X in
  let% s := self in
  let% k := match e_type s with TKind k => retE k | _ => liftE (Err ValueError) end in
  let% r := read_X k X in
  let '(D, sh, lens) := r in
  let% p := subsample D y (nthd 0 sh 0) in
  let '(D', y') := p in
  let% s := self in
  let% _ := match e_max_channels s with
            | None => put (set_max_channels (Some (nthd 0 sh 1)))
            | Some _ => retE tt
            end in
  let% s := self in
  let m := match e_min_len s with Some m => m | None => 0 end in
  let% ls := liftE (set_lengths s m) in
  let% _ := put (set_lengths_attr ls) in
  let% sizes := liftE (check_lengths ls m) in
  let% seed := draw_seed in
  let% s := self in
  let% pc := liftE (match e_percentiles s with
                    | VArr _ _ cells => let* a := get cells 0 in let* b := get cells 1 in
                                        let* x := as_F a in let* z := as_F b in Ok (x, z)
                    | _ => Err TypeError
                    end) in
  let% al := liftE (as_F (e_alpha s)) in
  let% pn := liftE (as_F (e_proba_norm s)) in
  retE (mkReq k D' y'
          (mkG (e_n_shapelets s) sizes seed pn (fst pc) (snd pc) al (e_phase s) (e_prime s))
          (match e_max_channels s with Some c => c | None => 0 end) m lens).

(** The execution of the parallel loop of the fitter, see Gen.v. *)
Definition executor := forall ST : Type, drawn -> (ST -> Z * Z -> G S ST) -> ST -> G S ST.

(** the call of the fitter *)
Definition run_fitter (ex : executor) (q : request) : res fitted :=
  let lens := match q_X_len q with Some l => l | None => [] end in
  match q_kind q with
  | KU => let* r := U_SL_generate_with N rng (q_X q) (q_y q) (q_P q) (ex _) in Ok (FU r)
  | KUV => let* r := U_VL_generate_with N rng (q_X q) lens (q_y q) (q_min_len q) (q_P q) (ex _) in Ok (FU r)
  | KM => let* r := M_SL_generate_with N rng (q_X q) (q_y q) (q_max_channels q) (q_P q) (ex _) in Ok (FM r)
  | KMV => let* r := M_VL_generate_with N rng (q_X q) lens (q_y q) (q_max_channels q) (q_min_len q) (q_P q) (ex _) in
           Ok (FM r)
  end.

(** fit, rdst.py 187-261 *)
Definition fit (ex : executor) (X : pyv F) (y : list Z) : ES unit :=
  let% q := prepare X y in
  let% f := liftE (run_fitter ex q) in
  put (set_shapelets f).

(** transform, rdst.py 264-295; the object is not modified *)
Definition transform (s : est) (X : pyv F) : res (list (list F)) :=
  match e_shapelets s with
  | None => Err NotFittedError
  | Some f =>
      let vl := match e_type s with TKind k => kind_vl k | _ => false end in
      if vl then
        let* r := format_uneven X in
        let '(D, sh, lens) := r in
        let* _ := check_shape_3D sh false 2 in
        match e_kind s, f with
        | Some KUV, FU sh => U_VL_apply N D lens sh (e_phase s)
        | Some KMV, FM sh => M_VL_apply N D lens sh (e_phase s)
        | None, _ => Err AttributeError
        | _, _ => Err TypeError
        end
      else
        let* A := check_array_3D N X false 2 in
        let* D := to_dataset A in
        match e_kind s, f with
        | Some KU, FU sh => U_SL_apply N D sh (e_phase s)
        | Some KM, FM sh => M_SL_apply N D sh (e_phase s)
        | None, _ => Err AttributeError
        | _, _ => Err TypeError
        end
  end.

End Estimator.
