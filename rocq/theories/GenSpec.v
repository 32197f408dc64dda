(** Specification vocabulary for shapelet generation (fit), over the reals: the account of a fit.
    A fit handles [n_shapelets] requests, one after the other inside each dilation.  The account says, for each
    request, which parameters were drawn for it and where it was sampled, if anywhere. *)
From Coq Require Import ZArith Znumtheory List Bool Reals Lra Lia Permutation.
From Verif Require Import Prelude Num Spec GenDraw.
Import ListNotations.
Open Scope Z_scope.

(** Where a shapelet comes from: series and start; the series its threshold was chosen on; the threshold. *)
Record origin := mkO { o_series : Z; o_start : Z; o_test : Z; o_thr : R }.

Record request := mkReq { q_len : Z; q_dil : Z; q_norm : bool; q_origin : option origin }.

Section Account.
Context (ph : bool) (alpha p_min p_max : R) (prime_scheme : bool) (sizes : list Z) (n_ts n : Z).
(** the training series and their labels *)
Context (nser : Z) (series : Z -> list R) (y : list Z).

(** [ml] is the smallest length among the requests of dilation [d] *)
Definition min_len_at (hs : list request) (d ml : Z) : Prop :=
  (exists q, In q hs /\ q_dil q = d /\ q_len q = ml) /\ forall q, In q hs -> q_dil q = d -> ml <= q_len q.

(** Start [t] is too close to the start [o_start o] of an earlier shapelet [q] taken from the same series. *)
Definition too_close (hs : list request) (q : request) (o : origin) (t : Z) : Prop :=
  exists ml j, min_len_at hs (q_dil q) ml /\
    0 <= j < q_len q - Z.max 1 (Rfloor ((1 - alpha) * IZR ml)) /\
    (t = (o_start o - j * q_dil q) mod zlen (series (o_series o)) \/ t = (o_start o + j * q_dil q) mod zlen (series (o_series o))).

(** Request [i] can be sampled from series [s] at start [t]: the window is inside the series and no earlier request of
    the same dilation and normalisation was sampled too close. *)
Definition free_start (hs : list request) (i s t : Z) : Prop :=
  exists q, nthZ hs i = Some q /\ 0 <= s < nser /\ 0 <= t < nwin ph (zlen (series s)) (q_len q) (q_dil q) /\
    forall j q' o, 0 <= j < i -> nthZ hs j = Some q' -> q_origin q' = Some o -> q_dil q' = q_dil q -> q_norm q' = q_norm q ->
      o_series o = s -> ~ too_close hs q' o t.

(** the values sampled for a request *)
Definition q_values (q : request) : option (list R) :=
  match q_origin q with
  | Some o => Some (seen RN (q_norm q) (window RN ph (series (o_series o)) (q_len q) (q_dil q) (o_start o)))
  | None => None
  end.

(** [thr] lies between the two percentiles of the distances [ds] *)
Definition threshold_between (ds : list R) (thr : R) : Prop :=
  exists a b u, is_percentile ds p_min a /\ is_percentile ds p_max b /\ (0 <= u < 1)%R /\ thr = (a + (b - a) * u)%R.

(** series [t] may be used to choose the threshold of a shapelet taken from series [s]: same label, and another
    series unless [s] is alone in its class *)
Definition same_class (s t : Z) : Prop :=
  0 <= t < nser /\ nthZ y t = nthZ y s /\ (t = s -> forall j, 0 <= j < nser -> nthZ y j = nthZ y s -> j = s).

Record account (hs : list request) : Prop := {
  ac_n : zlen hs = n;
  ac_params : forall i q, nthZ hs i = Some q -> In (q_len q) sizes /\ dil_ok prime_scheme n_ts (q_len q) (q_dil q);
  ac_some : forall i q o, nthZ hs i = Some q -> q_origin q = Some o ->
    free_start hs i (o_series o) (o_start o) /\ same_class (o_series o) (o_test o) /\
    exists v, q_values q = Some v /\
      threshold_between (distances RN ph (q_norm q) (series (o_test o)) v (q_len q) (q_dil q)) (o_thr o);
  ac_none : forall i q, nthZ hs i = Some q -> q_origin q = None -> forall s t, ~ free_start hs i s t
}.

(** The requests that end up in the result: sampled, with some non-zero value. *)
Definition kept (q : request) : bool :=
  match q_values q with Some v => negb (forallb (fun x => Reqb x 0) v) | None => false end.
Definition val_of (q : request) : list R := match q_values q with Some v => v | None => [] end.
Definition thr_of (q : request) : R := match q_origin q with Some o => o_thr o | None => 0%R end.
End Account.
