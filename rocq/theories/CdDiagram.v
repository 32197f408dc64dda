(** Model of the critical difference diagram: convst/utils/plot_utils.py:205-224 and 320-539. *)
From Coq Require Import String ZArith List Bool.
From Verif Require Import Prelude Num Kernel PlotUtils.
Import ListNotations.
Open Scope Z_scope.

Section CD.
Context {F : Type} (N : NumOps F).

(** A decimal literal a/b (both exact in binary64, so the correctly rounded quotient is the literal). *)
Definition dec (a b : Z) : F := ndiv N (nofZ N a) (nofZ N b).

(** What is written and drawn.  Coordinates are in inches, before the functions [line] and [text] (440-447) multiply them by
    1/width and 1/[height]; y grows downwards.  Sizes and alignment of texts are not modelled. *)
Inductive label := LRank (a : Z) | LValue (v : F) | LName (c : Z).
Inductive cmd :=
| CLine (linewidth : Z) (pts : list (F * F)) (red : bool)
| CText (x y : F) (s : label) (red : bool).

(** Python's min and max of a non-empty sequence *)
Definition minF (l : list F) : res F :=
  match l with [] => Err ValueError | v :: t => Ok (fold_left (fun m x => if nltb N x m then x else m) t v) end.
Definition maxF (l : list F) : res F :=
  match l with [] => Err ValueError | v :: t => Ok (fold_left (fun m x => if nltb N m x then x else m) t v) end.
(** math.ceil *)
Definition ceilF (x : F) : Z := - nfloor N (nsub N (n0 N) x).

(** networkx.find_cliques on the graph of a matrix: the list of cliques it yields, in its order *)
Context (find_cliques : list (list Z) -> list (list Z)).

Section RANKS.
(** arguments of _graph_ranks used by draw_cd_diagram; lowv and highv keep their default None *)
Context (ssums : list F) (nnames : list Z) (width textspace : F) (reverse labels : bool) (highlight : option Z).

(** 394-397 *)
Definition lowv : res Z := let* m := minF ssums in Ok (Z.min 1 (nfloor N m)).
Definition highv : res Z := let* m := maxF ssums in Ok (Z.max (zlen ssums) (ceilF m)).

Definition cline : F := nadd N (dec 4 10) (dec 25 100).                        (** 399, 415 *)
Definition scalewidth : F := nsub N width (nmul N (nofZ N 2) textspace).        (** 404 *)
Definition minnotsignificant : F := nmul N (nofZ N 2) (dec 2 10).               (** 418, with linesblank = 0 *)

(** 406-411 *)
Definition rankpos (lo hi : Z) (rank : F) : F :=
  let a := if reverse then nsub N (nofZ N hi) rank else nsub N rank (nofZ N lo) in
  nadd N textspace (nmul N (ndiv N scalewidth (nofZ N (hi - lo))) a).

Definition half (a : F) : F := ndiv N a (nofZ N 2).

(** 417-419: the height of the figure *)
Definition height : F := nadd N (nadd N cline (nmul N (half (nofZ N (zlen ssums + 1))) (dec 2 10))) minnotsignificant.

(** 457-463: the ticks at lowv, lowv + 0.5, ..., highv; the position is lowv + h/2 *)
Definition ticks (lo hi : Z) : list cmd :=
  map (fun h =>
         let a := nadd N (nofZ N lo) (half (nofZ N h)) in
         let tick := if h mod 2 =? 0 then dec 3 10 else dec 15 100 in
         CLine 2 [(rankpos lo hi a, nsub N cline (half tick)); (rankpos lo hi a, cline)] false)
      (zrange 0 (2 * (hi - lo) + 1)).

(** 465-467: the numbers under the ticks (the last tick drawn is a big one) *)
Definition tick_texts (lo hi : Z) : list cmd :=
  map (fun a => CText (rankpos lo hi (nofZ N a)) (nsub N (nsub N cline (half (dec 3 10))) (dec 5 100)) (LRank a) false)
      (zrange lo (hi + 1)).

Definition is_highlight (c : Z) : bool := match highlight with Some h => c =? h | None => false end.

(** 476-496 (left half) and 498-518 (right half): the names, each with its line; [row] is the number of the line of text, [edge]
    the end of the line, [xt] the place of the name and [xl] the place of the rank *)
Definition name_cmds (lo hi i row : Z) (edge xt xl : F) : res (list cmd) :=
  let* s := get ssums i in
  let* c := get nnames i in
  let chei := nadd N (nadd N cline minnotsignificant) (nmul N (nofZ N row) (dec 24 100)) in
  let red := is_highlight c in
  Ok ([CLine 2 [(rankpos lo hi s, cline); (rankpos lo hi s, chei); (edge, chei)] red]
      ++ (if labels then [CText xl (nsub N chei (dec 75 1000)) (LValue s) false] else [])
      ++ [CText xt chei (LName c) red]).

Definition left_names (lo hi : Z) : res (list cmd) :=
  let k := zlen ssums in
  let* l := mapM (fun i => name_cmds lo hi i i (nsub N textspace (dec 1 10)) (nsub N textspace (dec 2 10)) (nadd N textspace (dec 3 10)))
                 (zrange 0 ((k + 1) / 2)) in
  Ok (concat l).
Definition right_names (lo hi : Z) : res (list cmd) :=
  let k := zlen ssums in
  let r := nadd N textspace scalewidth in
  let* l := mapM (fun i => name_cmds lo hi i (k - i - 1) (nadd N r (dec 1 10)) (nadd N r (dec 2 10)) (nsub N r (dec 3 10)))
                 (zrange ((k + 1) / 2) k) in
  Ok (concat l).

(** 519-539: a bar per clique of more than one classifier.  [st] is the height of the next bar, whether it was moved to the right
    half, and what was drawn.  [side] is -0.02. *)
Definition bar (lo hi : Z) (st : (F * bool) * list cmd) (clq : list Z) : res ((F * bool) * list cmd) :=
  if zlen clq =? 1 then Ok st else
  let '((start, achieved_half), out) := st in
  let* min_idx := min_list clq in
  let* max_idx := max_list clq in
  let '(start, achieved_half) :=
    if (zlen nnames <=? 2 * min_idx) && negb achieved_half
    then (nadd N cline (dec 25 100), true) else (start, achieved_half) in
  let side := nsub N (n0 N) (dec 2 100) in
  let* s1 := get ssums min_idx in
  let* s2 := get ssums max_idx in
  Ok ((nadd N start (dec 1 10), achieved_half),
      out ++ [CLine 4 [(nsub N (rankpos lo hi s1) side, start); (nadd N (rankpos lo hi s2) side, start)] false]).

(** 320-539, [_graph_ranks]: everything drawn, in order.  [scalewidth / (highv - lowv)] is a division of Python numbers. *)
Definition graph_ranks (p_values : list (@pval F)) : res (list cmd) :=
  let* lo := lowv in
  let* hi := highv in
  let axis := CLine 2 [(textspace, cline); (nsub N width textspace, cline)] false in
  let* _ := guard (negb (hi - lo =? 0)) ZeroDivisionError in
  let* ln := left_names lo hi in
  let* rn := right_names lo hi in
  let* g := clique_matrix p_values nnames in
  let* bars := foldM (bar lo hi) (find_cliques g) ((nadd N cline (dec 2 10), false), []) in
  Ok ([axis] ++ ticks lo hi ++ tick_texts lo hi ++ ln ++ rn ++ snd bars).
End RANKS.

(** 205-224, [draw_cd_diagram]: what is drawn and the names of the files written (the title is not modelled; _wilcoxon_holm never
    returns None for the p-values) *)
Definition draw_cd_diagram (wilcoxon : list F -> list F -> res F) (alpha width : F) (labels : bool) (path : option string) (highlight : option Z)
  (df : list (@prow F)) : res (list cmd * list string) :=
  let* r := wilcoxon_holm N wilcoxon alpha df in
  let '(p_values, average_ranks, _) := r in
  let* cmds := graph_ranks (map snd average_ranks) (map fst average_ranks) width (dec 125 100) true labels highlight p_values in
  Ok (cmds, match path with None => ["cd-diagram.png"%string] | Some _ => [] end).
End CD.
Arguments label : clear implicits.
Arguments cmd : clear implicits.
