(** Specification vocabulary, written independently of the code model: what a
    dilated window, a distance, the three features etc. are, in plain
    mathematical terms. *)
From Coq Require Import ZArith List Bool Lia.
From Verif Require Import Prelude Num.
Import ListNotations.
Open Scope Z_scope.

(** Position in a series of [n] points: with phase invariance the series is circular. *)
Definition pos (ph : bool) (n k : Z) : Z := if ph then k mod n else k.

(** Number of windows of length [l] and dilation [d] in a series of [n] points. *)
Definition nwin (ph : bool) (n l d : Z) : Z := if ph then n else n - (l - 1) * d.

(** The point of a series at an index (only used inside the series). *)
Definition pt {F} (N : NumOps F) (X : list F) (i : Z) : F := nthd (n0 N) X i.

(** The window starting at [i]: X[i], X[i+d], ..., X[i+(l-1)d]. *)
Definition window {F} (N : NumOps F) (ph : bool) (X : list F) (l d i : Z) : list F :=
  map (fun j => pt N X (pos ph (zlen X) (i + j * d))) (zrange 0 l).

Definition windows {F} (N : NumOps F) (ph : bool) (X : list F) (l d : Z) : list (list F) :=
  map (window N ph X l d) (zrange 0 (nwin ph (zlen X) l d)).

(** The windows are inside the series. *)
Definition fits (ph : bool) (n l d : Z) : Prop :=
  if ph then 0 <= l else 1 <= l /\ 0 <= d /\ (l - 1) * d <= n.

(** [n] counts the indices in [0,n) satisfying [p]. *)
Definition count_if (p : Z -> bool) (n : Z) : Z := zlen (filter p (zrange 0 n)).

(** Sum, left to right, of a list of numbers. *)
Definition sumF {F} (N : NumOps F) (l : list F) : F := fold_left (nadd N) l (n0 N).

(** L1 distance between the first elements of two vectors, up to the length of the first. *)
Definition l1 {F} (N : NumOps F) (x y : list F) : F :=
  sumF N (map (fun j => nabs N (nsub N (pt N x j) (pt N y j))) (zrange 0 (zlen x))).

(** The three features of a vector of distances: (minimum, first position of the
    minimum, number of entries <= threshold). *)
Definition is_features {F} (N : NumOps F) (dists : list F) (threshold : F) (f : F * F * F) : Prop :=
  let '(m, a, c) := f in
  (dists = [] /\ m = nm1 N /\ a = nofZ N 0 /\ c = nofZ N 0) \/
  (exists k, nthZ dists k = Some m /\ a = nofZ N k /\
     (forall i x, nthZ dists i = Some x -> nleb N m x = true) /\
     (forall i x, nthZ dists i = Some x -> i < k -> nltb N m x = true) /\
     c = nofZ N (zlen (filter (fun x => nleb N x threshold) dists))).

(** Mean, population standard deviation and z-score with the 1e-8 regulariser. *)
Definition avg {F} (N : NumOps F) (w : list F) : F := ndiv N (sumF N w) (nofZ N (zlen w)).
Definition sdev {F} (N : NumOps F) (w : list F) : F :=
  nsqrt N (ndiv N (sumF N (map (fun v => nmul N (nsub N v (avg N w)) (nsub N v (avg N w))) w))
                  (nofZ N (zlen w))).
Definition zscore {F} (N : NumOps F) (w : list F) : list F :=
  map (fun v => ndiv N (nsub N v (avg N w)) (nadd N (sdev N w) (neps N))) w.

(** A window as a shapelet sees it: z-normalised if the shapelet is. *)
Definition seen {F} (N : NumOps F) (nm : bool) (w : list F) : list F := if nm then zscore N w else w.

(** Distances of a shapelet with values [v] to the windows of the series [X]. *)
Definition distances {F} (N : NumOps F) (ph nm : bool) (X v : list F) (l d : Z) : list F :=
  map (fun i => l1 N (seen N nm (window N ph X l d i)) v) (zrange 0 (nwin ph (zlen X) l d)).

(** The same for a multivariate shapelet: channels [chs] with values [vs], one per channel;
    [n] is the common length of the channels of [X]. *)
Definition mdistances {F} (N : NumOps F) (ph nm : bool) (n : Z) (X : list (list F)) (chs : list Z)
  (vs : list (list F)) (l d : Z) : list F :=
  map (fun i => sumF N (map (fun cv : Z * list F =>
                   l1 N (seen N nm (window N ph (nthd [] X (fst cv)) l d i)) (snd cv)) (combine chs vs)))
      (zrange 0 (nwin ph n l d)).

(** Cells 3k, 3k+1, 3k+2 of a row of the transformed data. *)
Definition block {F} (row : list F) (k : Z) (f : F * F * F) : Prop :=
  let '(m, a, c) := f in
  nthZ row (3 * k) = Some m /\ nthZ row (3 * k + 1) = Some a /\ nthZ row (3 * k + 2) = Some c.
