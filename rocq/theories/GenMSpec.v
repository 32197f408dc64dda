(** Specification vocabulary for multivariate shapelet generation (fit), over the reals: the account of a fit.
    As in GenSpec, a fit handles [n] requests; each request also draws the channels the shapelet covers. *)
From Coq Require Import ZArith Znumtheory List Bool Reals Lra Lia Permutation.
From Verif Require Import Prelude Num Spec GenDraw GenSpec.
Import ListNotations.
Open Scope Z_scope.

Record mrequest := mkMReq { mq_len : Z; mq_dil : Z; mq_norm : bool; mq_chs : list Z; mq_origin : option origin }.

Section Account.
Context (ph : bool) (alpha p_min p_max : R) (prime_scheme : bool) (sizes : list Z) (n_ts n max_channels nf : Z).
(** the training series (a list of channels each), their numbers of points and their labels *)
Context (nser : Z) (series : Z -> list (list R)) (slen : Z -> Z) (y : list Z).

(** [ml] is the smallest length among the requests of dilation [d] *)
Definition mmin_len_at (hs : list mrequest) (d ml : Z) : Prop :=
  (exists q, In q hs /\ mq_dil q = d /\ mq_len q = ml) /\ forall q, In q hs -> mq_dil q = d -> ml <= mq_len q.

(** Start [t] is too close to the start [o_start o] of an earlier shapelet [q] taken from the same series. *)
Definition mtoo_close (hs : list mrequest) (q : mrequest) (o : origin) (t : Z) : Prop :=
  exists ml j, mmin_len_at hs (mq_dil q) ml /\
    0 <= j < mq_len q - Z.max 1 (Rfloor ((1 - alpha) * IZR ml)) /\
    (t = (o_start o - j * mq_dil q) mod slen (o_series o) \/ t = (o_start o + j * mq_dil q) mod slen (o_series o)).

(** When request [q], number [i], is handled, start [t] in channel [c] of series [s] is taken: an earlier request of the
    same dilation and normalisation, covering channel [c], was sampled from series [s] too close to [t]. *)
Definition taken (hs : list mrequest) (i : Z) (q : mrequest) (s c t : Z) : Prop :=
  exists j q' o, 0 <= j < i /\ nthZ hs j = Some q' /\ mq_origin q' = Some o /\ mq_dil q' = mq_dil q /\ mq_norm q' = mq_norm q /\
    o_series o = s /\ In c (mq_chs q') /\ mtoo_close hs q' o t.

(** Request [i] can be sampled from series [s] at start [t]: the window is inside the series and at least the fraction
    [alpha] of the channels of the request is not taken there. *)
Definition mfree_start (hs : list mrequest) (i s t : Z) : Prop :=
  exists q free, nthZ hs i = Some q /\ 0 <= s < nser /\ 0 <= t < nwin ph (slen s) (mq_len q) (mq_dil q) /\
    NoDup free /\ (forall c, In c free -> In c (mq_chs q) /\ ~ taken hs i q s c t) /\
    (alpha * IZR (zlen (mq_chs q)) <= IZR (zlen free))%R.

(** the values sampled for a request, one list per channel *)
Definition mq_values (q : mrequest) : option (list (list R)) :=
  match mq_origin q with
  | Some o => Some (map (fun c => seen RN (mq_norm q) (window RN ph (nthd [] (series (o_series o)) c) (mq_len q) (mq_dil q) (o_start o))) (mq_chs q))
  | None => None
  end.

Record maccount (hs : list mrequest) : Prop := {
  mac_n : zlen hs = n;
  mac_params : forall i q, nthZ hs i = Some q -> In (mq_len q) sizes /\ dil_ok prime_scheme n_ts (mq_len q) (mq_dil q) /\
    1 <= zlen (mq_chs q) <= max_channels /\ NoDup (mq_chs q) /\ (forall c, In c (mq_chs q) -> 0 <= c < nf);
  mac_some : forall i q o, nthZ hs i = Some q -> mq_origin q = Some o ->
    mfree_start hs i (o_series o) (o_start o) /\ same_class nser y (o_series o) (o_test o) /\
    exists vs, mq_values q = Some vs /\
      threshold_between p_min p_max (mdistances RN ph (mq_norm q) (slen (o_test o)) (series (o_test o)) (mq_chs q) vs (mq_len q) (mq_dil q)) (o_thr o);
  mac_none : forall i q, nthZ hs i = Some q -> mq_origin q = None -> forall s t, ~ mfree_start hs i s t
}.

(** The requests that end up in the result: those that were sampled. *)
Definition mkept (q : mrequest) : bool := match mq_origin q with Some _ => true | None => false end.
Definition mval_of (q : mrequest) : list (list R) := match mq_values q with Some v => v | None => [] end.
Definition mthr_of (q : mrequest) : R := match mq_origin q with Some o => o_thr o | None => 0%R end.
End Account.
