(** Model of the computations of convst/utils/plot_utils.py (the drawing itself is not modelled). *)
From Coq Require Import ZArith List Bool.
From Verif Require Import Prelude Num Kernel Sorting.
Import ListNotations.
Open Scope Z_scope.

Section PLOT.
Context {F : Type} (N : NumOps F).

(** plot_utils.py:122-123, 161-162 and 199-200 (three copies): the W - D - L counts shown for a competitor [x] and the
    baseline [y], two columns of the same DataFrame. *)
Definition wdl (margin : F) (x y : list F) : Z * Z * Z :=
  let xy := combine x y in
  let count (f : F -> F -> bool) := zlen (filter (fun p => f (fst p) (snd p)) xy) in
  (count (fun x y => nltb N (nadd N x margin) y),
   count (fun x y => nleb N x (nadd N y margin) && nleb N (nsub N y margin) x),
   count (fun x y => nltb N y (nsub N x margin))).

(** * plot_utils.py:244-316, [_wilcoxon_holm] *)

(** A row of df_perf: classifier_name, dataset_name, accuracy.  Names are numbered in the order of the strings. *)
Definition prow : Type := Z * Z * F.
Definition p_name (r : prow) : Z := fst (fst r).
Definition p_data (r : prow) : Z := snd (fst r).
Definition p_acc (r : prow) : F := snd r.

Definition rows_of (c : Z) (df : list prow) : list prow := filter (fun r => p_name r =? c) df.
(** [numpy.array(df_perf.loc[df_perf['classifier_name'] == c]['accuracy'])]: in the order of the rows *)
Definition perf (c : Z) (df : list prow) : list F := map p_acc (rows_of c df).

(** Lines 250-256: classifiers with the most rows, in the order of the names. *)
Definition max_count (df : list prow) : res Z := max_list (map (fun c => zlen (rows_of c df)) (unique (map p_name df))).
Definition tested (df : list prow) : res (list Z) :=
  let* mx := max_count df in
  Ok (filter (fun c => zlen (rows_of c df) =? mx) (unique (map p_name df))).

Definition pval : Type := Z * Z * F * bool.
Definition pv_p (v : pval) : F := snd (fst v).

Section HOLM.
(** scipy.stats.wilcoxon(a, b, zero_method='pratt')[1]; it can raise. *)
Context (wilcoxon : list F -> list F -> res F).

(** Lines 267-283: all pairs i < j. *)
Definition all_pairs (df : list prow) (classifiers : list Z) : res (list pval) :=
  let m := zlen classifiers in
  let* ls := mapM (fun i =>
    let* c1 := get classifiers i in
    let perf_1 := perf c1 df in
    mapM (fun j =>
      let* c2 := get classifiers j in
      let* p := wilcoxon perf_1 (perf c2 df) in
      Ok (c1, c2, p, false)) (zrange (i + 1) m)) (zrange 0 (m - 1)) in
  Ok (concat ls).

(** Lines 290-300: walk the sorted list, stop at the first failure. *)
Fixpoint holm (alpha : F) (k i : Z) (l : list pval) : list pval :=
  match l with
  | [] => []
  | v :: t =>
      if nleb N (pv_p v) (ndiv N alpha (nofZ N (k - i)))
      then (fst v, true) :: holm alpha k (i + 1) t
      else l
  end.

(** Line 287: list.sort is stable. *)
Definition sort_pvals (l : list pval) : list pval := ssort (fun a b => nltb N (pv_p a) (pv_p b)) l.

(** [a.reshape(m, n)] *)
Definition reshape {A} (m n : Z) (l : list A) : res (list (list A)) :=
  if zlen l =? m * n then Ok (map (fun i => slice l (i * n) ((i + 1) * n)) (zrange 0 m)) else Err ValueError.

(** Lines 303-304: sort_values on two columns is a lexicographic sort. *)
Definition row_ltb (a b : prow) : bool := (p_name a <? p_name b) || ((p_name a =? p_name b) && (p_data a <? p_data b)).

(** Lines 303-310: the accuracies, one row per classifier and one column per dataset. *)
Definition rank_table (df : list prow) (classifiers : list Z) (mx : Z) : res (list (list F)) :=
  let sorted := ssort row_ltb (filter (fun r => existsb (Z.eqb (p_name r)) classifiers) df) in
  let* rank_data := reshape (zlen classifiers) mx (map p_acc sorted) in
  let* _ := guard (zlen (unique (map p_data sorted)) =? mx) ValueError in
  Ok rank_data.

(** pandas' rank(ascending=False) of a value in its column: ties share the average of their ranks. *)
Definition rank_in (col : list F) (v : F) : F :=
  nadd N (nofZ N (zlen (filter (fun u => nltb N v u) col)))
         (ndiv N (nofZ N (zlen (filter (fun u => neqb N v u) col) + 1)) (nofZ N 2)).

(** Lines 313-314, before the final sort: the mean rank of each classifier (pandas' summation order is not modelled). *)
Definition mean_ranks (table : list (list F)) (n_cols : Z) : res (list F) :=
  mapM (fun r =>
    let* ranks := mapM (fun d => let* col := mapM (fun s => get s d) table in let* v := get r d in Ok (rank_in col v)) (zrange 0 n_cols) in
    Ok (mean N ranks)) table.

(** plot_utils.py:244-316, [_wilcoxon_holm].  The Friedman test is only printed, but scipy raises ValueError for fewer
    than three samples.  Among classifiers of equal mean rank the order of the result is not specified by pandas; the
    model keeps their order. *)
Definition wilcoxon_holm (alpha : F) (df : list prow) : res (list pval * list (Z * F) * Z) :=
  match tested df with
  | Err _ => Err ValueError
  | Ok classifiers =>
    let* _ := guard (3 <=? zlen classifiers) ValueError in
    let* mx := max_count df in
    let* ps := all_pairs df classifiers in
    let p_values := holm alpha (zlen ps) 0 (sort_pvals ps) in
    let* table := rank_table df classifiers mx in
    let* ranks := mean_ranks table mx in
    Ok (p_values, ssort (fun a b => nltb N (snd b) (snd a)) (combine classifiers ranks), mx)
  end.
End HOLM.

(** plot_utils.py:226-242, [_form_cliques], up to the matrix given to networkx. *)
Definition clique_matrix (p_values : list pval) (nnames : list Z) : res (list (list Z)) :=
  let m := zlen nnames in
  let* g := full m 0 in
  foldM (fun g (p : pval) =>
    if snd p then Ok g else
    match where_ (map (Z.eqb (fst (fst (fst p)))) nnames), where_ (map (Z.eqb (snd (fst (fst p)))) nnames) with
    | i :: _, j :: _ =>
        let* row := get g (Z.min i j) in
        let* row' := set row (Z.max i j) 1 in
        set g (Z.min i j) row'
    | _, _ => Err IndexError
    end) p_values (repeat g (Z.to_nat m)).
End PLOT.
