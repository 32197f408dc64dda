(** Property C58: the un-normalised features in binary64. *)
From Coq Require Import ZArith List Bool Lia.
From Coq Require Import Floats.
From Verif Require Import Prelude Num Kernel Spec KernelProofs Apply ApplyProofs ApplyUni ApplyMulti TransformProofs TransformLaws SampleLaws FloatLaws.
Import ListNotations.
Open Scope Z_scope.

Definition finite (x : float) : Prop := PrimFloat.is_finite x = true.
Definition all_finite (x : list float) : Prop := forall a, In a x -> finite a.

Lemma all_finite_iff x : all_finite x -> forall a, In a x -> FloatLaws.is_finite a.
Proof. intros H a Ha. apply is_finite_prim. apply H. exact Ha. Qed.

(** ** Distances *)

(** Finite data, any length, dilation and window: every distance is a number and not negative. *)
Theorem C58_distances : forall log2 log pow2 ph X v l d y, all_finite X -> all_finite v ->
  In y (distances (FN log2 log pow2) ph false X v l d) -> PrimFloat.is_nan y = false /\ (0 <=? y)%float = true.
Proof.
  intros log2 log pow2 ph X v l d y HX Hv Hy. pose proof (distances_number log2 log pow2 ph X v l d y (all_finite_iff X HX) (all_finite_iff v Hv) Hy) as H.
  apply fpos_nonneg in H. split; [apply is_number_nan, fnonneg_number; exact H|apply fnonneg_iff; exact H].
Qed.
Print Assumptions C58_distances.

Theorem C58_multivariate_distances : forall log2 log pow2 ph n X chs vs l d y, (forall r, In r X -> all_finite r) -> (forall r, In r vs -> all_finite r) ->
  In y (mdistances (FN log2 log pow2) ph false n X chs vs l d) -> PrimFloat.is_nan y = false /\ (0 <=? y)%float = true.
Proof.
  intros log2 log pow2 ph n X chs vs l d y HX Hv Hy.
  pose proof (mdistances_number log2 log pow2 ph n X chs vs l d y (fun r a Hr Ha => all_finite_iff r (HX r Hr) a Ha) (fun r a Hr Ha => all_finite_iff r (Hv r Hr) a Ha) Hy) as H.
  apply fpos_nonneg in H. split; [apply is_number_nan, fnonneg_number; exact H|apply fnonneg_iff; exact H].
Qed.
Print Assumptions C58_multivariate_distances.

(** A window equal to the shapelet is at distance exactly 0. *)
Theorem C58_exact_match : forall log2 log pow2 ph X l d i, all_finite X ->
  let N := FN log2 log pow2 in
  0 <= i < nwin ph (zlen X) l d -> nthZ (distances N ph false X (window N ph X l d i) l d) i = Some 0%float.
Proof.
  intros log2 log pow2 ph X l d i HX N Hi. unfold distances. rewrite nthZ_map, nthZ_zrange by lia. cbn [option_map seen]. f_equal.
  apply l1_self. intros j Hj. split; [reflexivity|]. apply pt_finite. intros a Ha. apply in_map_iff in Ha as (q & <- & _). apply pt_finite. apply all_finite_iff. exact HX.
Qed.
Print Assumptions C58_exact_match.

(** ** Comparisons *)

(** Numbers other than NaN are totally ordered; == and < agree with <=. *)
Theorem C58_order : forall x y z, PrimFloat.is_nan x = false -> PrimFloat.is_nan y = false -> PrimFloat.is_nan z = false ->
  (x <=? x)%float = true /\ ((x <=? y)%float = true -> (y <=? z)%float = true -> (x <=? z)%float = true) /\
  ((x <=? y)%float = true \/ (y <=? x)%float = true) /\ (x <? y)%float = negb (y <=? x)%float /\
  (x =? y)%float = (x <=? y)%float && (y <=? x)%float.
Proof.
  intros x y z Hx Hy Hz. apply is_number_nan in Hx, Hy, Hz. pose proof (float_ord_laws (fun a => a) (fun a => a) (fun a => a)) as L.
  pose proof (flt_key x y Hx Hy) as A. pose proof (fle_key x y Hx Hy) as B. pose proof (fle_key y x Hy Hx) as C. pose proof (feq_key x y Hx Hy) as D.
  split; [apply fle_key; auto; apply klt_irrefl|]. split; [apply (ol_le_trans _ _ L); assumption|].
  assert (T : ~ klt (key (Prim2SF y)) (key (Prim2SF x)) \/ ~ klt (key (Prim2SF x)) (key (Prim2SF y))).
  { pose proof (ol_leb_ltb _ _ L x y Hx Hy) as Q. cbn [nleb nltb FN] in Q. destruct (x <=? y)%float; [left; apply B; reflexivity|right]. intros K.
    apply (f_equal negb) in Q. rewrite negb_involutive in Q. cbn in Q. symmetry in Q. apply flt_key in Q; auto. exact (klt_irrefl _ (klt_trans _ _ _ K Q)). }
  split; [rewrite B, C; exact T|]. pose proof (ol_leb_ltb _ _ L y x Hy Hx) as Q. cbn [nleb nltb FN] in Q. split; [rewrite Q, negb_involutive; reflexivity|].
  destruct (x <=? y)%float, (y <=? x)%float, (x =? y)%float; cbn [andb]; try reflexivity; intuition congruence.
Qed.
Print Assumptions C58_order.

(** ** Features *)

(** the distances that the call compares *)
Lemma dist_of_float log2 log pow2 (c : call float) ph i k x n chs vs l d thr : let N := FN log2 log pow2 in
  wf_call c -> sample_at c i x -> (forall r, In r x -> zlen r = n) -> shapelet_at c k chs vs l d thr false ->
  (forall r, In r x -> all_finite r) -> (forall r, In r vs -> all_finite r) -> dist_of N ph c i k (mdistances N ph false n x chs vs l d) thr.
Proof.
  intros N HW HS Hn HK HX Hv.
  destruct HS as [X s i x sr H1 H2|X X_len s i sr H|nf n' X s L i x H|nf n' X X_len s L i ni x H]; inversion HK; subst;
    try match goal with HM : mshp_at _ _ _ _ _ _ _ _ _ |- _ => rename HM into HMS | HM : ushp_at _ _ _ _ _ _ _ |- _ => rename HM into HMS end.
  - rewrite <- (Hn sr) by (left; reflexivity). unfold N. rewrite <- float_distances_mdistances; [eapply dist_US; eauto| |]; apply all_finite_iff; [apply HX|apply Hv]; left; reflexivity.
  - rewrite <- (Hn sr) by (left; reflexivity). unfold N. rewrite <- float_distances_mdistances; [eapply dist_UV; [exact H|eassumption]| |]; apply all_finite_iff; [apply HX|apply Hv]; left; reflexivity.
  - cbn in HW. destruct HW as ((M1 & M2 & M3) & _). destruct (M3 x (nthZ_In _ _ _ H)) as [E HR].
    assert (n = n').
    { destruct x as [|r t]; [change (zlen (@nil (list float))) with 0 in E; lia|]. rewrite <- (Hn r), <- (HR r); auto; left; reflexivity. }
    subst n'. eapply dist_MS; eauto.
  - cbn in HW. destruct HW as (HXX & HV & _). pose proof H as H'. apply mreal_points_ser in H' as (E1 & E2 & Hi).
    destruct (mser_vl_at nf n' X X_len i HXX HV Hi) as (_ & A & B & C & D). rewrite E1, E2 in *.
    assert (Hnn : n = ni). { destruct x as [|r t]; [congruence|]. rewrite <- (Hn r), <- (B r); auto; left; reflexivity. }
    rewrite Hnn. eapply dist_MV; [exact H|eassumption].
Qed.

(** The three numbers returned for a series and a shapelet that is not normalised are the smallest distance, the first
    position where it is reached and the number of distances at most the threshold, with the comparisons above. *)
Theorem C58_features : forall log2 log pow2 (c : call float) ph T i k x n chs vs l d thr, let N := FN log2 log pow2 in
  wf_call c -> run N c ph = Ok T -> sample_at c i x -> (forall r, In r x -> zlen r = n) -> shapelet_at c k chs vs l d thr false ->
  (forall r, In r x -> all_finite r) -> (forall r, In r vs -> all_finite r) ->
  exists f, cell3 T i k f /\ is_features N (mdistances N ph false n x chs vs l d) thr f.
Proof.
  intros log2 log pow2 c ph T i k x n chs vs l d thr N HW HT HS Hn HK HX Hv.
  pose proof (dist_of_float log2 log pow2 c ph i k x n chs vs l d thr HW HS Hn HK HX Hv) as HD.
  eexists. split; [exact (call_cell N c ph T i k _ _ HW HT HD)|]. apply (feats_spec N is_number); [apply float_ord_laws|]. intros y Hy.
  destruct (C58_multivariate_distances log2 log pow2 ph n x chs vs l d y HX Hv Hy) as [A B]. split; [apply is_number_nan; exact A|exact B].
Qed.
Print Assumptions C58_features.

(** Not so for normalised shapelets: the mean of large finite numbers overflows and the smallest distance of a finite series is NaN. *)
Definition fid (x : float) : float := x.
Theorem C58_normalised_overflow : exists X v T row m,
  all_finite X /\ all_finite v /\ U_SL_apply (FN fid fid fid) [[X]] (mkUshp [v] [3] [1] [1%float] [true]) false = Ok T /\
  nthZ T 0 = Some row /\ nthZ row 0 = Some m /\ PrimFloat.is_nan m = true.
Proof.
  exists [0x1p1023; 0x1p1023; 0x1p1023; 0x1p1023]%float, [0; 1; 2]%float. eexists. eexists. eexists.
  split; [intros a Ha; cbn in Ha; intuition subst; reflexivity|]. split; [intros a Ha; cbn in Ha; intuition subst; reflexivity|].
  split; [vm_compute; reflexivity|]. split; [reflexivity|]. split; [reflexivity|]. vm_compute. reflexivity.
Qed.
Print Assumptions C58_normalised_overflow.

(** A distance can be infinite: it is still a number. *)
Example C58_case : let N := FN fid fid fid in
  distances N false false [0x1p1023; -0x1p1023; 2; 2.5]%float [-0x1p1023; 2]%float 2 1 = [infinity; 0; 0x1p1023]%float /\
  U_SL_apply N [[[0x1p1023; -0x1p1023; 2; 2.5]]]%float (mkUshp [[-0x1p1023; 2]]%float [2] [1] [1%float] [false]) false = Ok [[0; 1; 1]]%float.
Proof. split; vm_compute; reflexivity. Qed.
