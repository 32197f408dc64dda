(** Property C92: integer overflow in the transform. *)
From Coq Require Import ZArith List Bool Reals Lia Floats.
From Verif Require Import Prelude Num Kernel Spec KernelProofs Parallel Apply ApplyProofs ApplyUni ApplyMulti TransformProofs TransformLaws SampleLaws Cases
  Gen GenSched GenBase GenDraw GenSpec GenULaws GenUCase GenMLaws FloatLaws FloatReal FitFloat FitAny FitAnyTop Libm PropsFit64 Int64 Int64Proofs.
Import ListNotations.
Open Scope Z_scope.

(** ** C92.  Machine integers *)

(** the transform with int64 arithmetic *)
Definition i_run {F} (N : NumOps F) (c : call F) (ph : bool) : res (list (list F)) :=
  match c with
  | CallUS X s => i_U_SL_apply N X s ph
  | CallUV X X_len s => i_U_VL_apply N X X_len s ph
  | CallMS _ _ X s _ => i_M_SL_apply N X s ph
  | CallMV _ _ X X_len s _ => i_M_VL_apply N X X_len s ph
  end.

Definition call_data {F} (c : call F) : dataset F :=
  match c with CallUS X _ => X | CallUV X _ _ => X | CallMS _ _ X _ _ => X | CallMV _ _ X _ _ _ => X end.
(** the arrays that hold the values and the channels of the shapelets *)
Definition value_arrays {F} (c : call F) : list (list F) :=
  match c with CallUS _ s => us_values s | CallUV _ _ s => us_values s | CallMS _ _ _ s _ => [ms_values s] | CallMV _ _ _ _ s _ => [ms_values s] end.
Definition channel_array {F} (c : call F) : list Z :=
  match c with CallUS _ s => [] | CallUV _ _ s => [] | CallMS _ _ _ s _ => ms_chan s | CallMV _ _ _ _ s _ => ms_chan s end.

(** Every array has at most 2^62 cells.  (A cell has 8 bytes, so that this is true of every array of a 64-bit machine.) *)
Definition in_memory {F} (c : call F) : Prop :=
  (forall x r, In x (call_data c) -> In r x -> zlen r <= 2 ^ 62) /\ (forall v, In v (value_arrays c) -> zlen v <= 2 ^ 62) /\ zlen (channel_array c) <= 2 ^ 62.

Lemma slice0_le {A} (l : list A) n : zlen (slice l 0 n) <= zlen l.
Proof. unfold slice, zlen. rewrite firstn_length, skipn_length. lia. Qed.

Lemma uni64 {F} (N : NumOps F) (s : ushp F) : wf_ushp s -> (forall v, In v (us_values s) -> zlen v <= 2 ^ 62) ->
  (forall k l d, nthZ (us_len s) k = Some l -> nthZ (us_dil s) k = Some d -> (l - 1) * d <= 2 ^ 62) ->
  forall k l d, nthZ (us_len s) k = Some l -> nthZ (us_dil s) k = Some d -> 1 <= l <= 2 ^ 62 /\ 0 <= d /\ (l - 1) * d <= 2 ^ 62.
Proof.
  intros (W1 & W2 & W3 & W4 & W5 & W6) HV HS k l d Hl Hd. pose proof (nthZ_range _ _ _ Hl). destruct (nthZ_some (us_values s) k) as (v & Hv); [lia|].
  specialize (W5 k v l Hv Hl). specialize (W6 k d Hd). specialize (HS k l d Hl Hd). specialize (HV v (nthZ_In _ _ _ Hv)). lia.
Qed.
Lemma multi64 {F} (N : NumOps F) (s : mshp F) L : packed s L -> zlen (ms_values s) <= 2 ^ 62 ->
  (forall k l d, nthZ (ms_len s) k = Some l -> nthZ (ms_dil s) k = Some d -> (l - 1) * d <= 2 ^ 62) ->
  forall k l d, nthZ (ms_len s) k = Some l -> nthZ (ms_dil s) k = Some d -> 1 <= l <= 2 ^ 62 /\ 0 <= d /\ (l - 1) * d <= 2 ^ 62.
Proof.
  intros (P1 & P2 & P3 & P4 & P5 & P6 & P7 & P8 & P9) HV HS k l d Hl Hd. pose proof (nthZ_range _ _ _ Hl). destruct (nthZ_some L k) as ((chs & vs) & HL); [lia|].
  destruct (P8 k _ l HL Hl) as (E1 & E2 & E4 & E5). cbn [fst snd] in *. specialize (P9 k d Hd). specialize (HS k l d Hl Hd).
  assert (Hin : In (concat vs) (map (fun p => concat (snd p)) L)) by (apply in_map_iff; exists (chs, vs); split; [reflexivity|eapply nthZ_In; exact HL]).
  pose proof (zlen_concat_in _ _ Hin) as Q. rewrite <- P2, (concat_regular_len vs l E4), E1 in Q. split; [nia|lia].
Qed.

(** At most 2^30 shapelets, none of which spans more than 2^62 points: for every well-formed call the int64 code returns what the code on unbounded
    integers returns, exceptions included. *)
Theorem C92_no_overflow : forall F (N : NumOps F) (c : call F) ph, wf_call c -> in_memory c -> n_shapelets c <= 2 ^ 30 ->
  (forall k chs vs l d thr nm, shapelet_at c k chs vs l d thr nm -> (l - 1) * d <= 2 ^ 62) -> i_run N c ph = run N c ph.
Proof.
  intros F N c ph HW (M1 & M2 & M3) HB HS. change (2 ^ 62) with B62 in *. destruct c as [X s|X X_len s|nf n X s L|nf n X X_len s L]; cbn [wf_call i_run run n_shapelets call_data value_arrays channel_array] in *.
  - destruct HW as [HX Hs]. unfold i_U_SL_apply, U_SL_apply. rewrite new64 by (pose proof (zlen_nonneg (us_len s)); lia). unfold i_U_SL_tasks, U_SL_tasks.
    rewrite (U64 N (ser X)); [reflexivity|exact Hs|exact HB| |].
    + intros i Hi. split; [apply u_series_ok; assumption|]. unfold ser. assert (Hin : In (nthd [] X i) X) by (apply (nthZ_In _ i); apply nthZ_nthd; exact Hi).
      specialize (HX _ Hin). apply (M1 _ _ Hin). destruct (nthd [] X i); [congruence|]. left. reflexivity.
    + apply (uni64 N s Hs M2). intros k l d Hl Hd. pose proof Hs as (W1 & W2 & W3 & W4 & _). pose proof (nthZ_range _ _ _ Hl).
      destruct (nthZ_some (us_values s) k) as (v & Hv); [lia|]. destruct (nthZ_some (us_thr s) k) as (t & Ht); [lia|]. destruct (nthZ_some (us_norm s) k) as (b & Hb); [lia|].
      apply (HS k [0] [slice v 0 l] l d t b). constructor. repeat split; eauto.
  - destruct HW as (HX & HL & Hs). unfold i_U_VL_apply, U_VL_apply. rewrite new64 by (pose proof (zlen_nonneg (us_len s)); lia). unfold i_U_VL_tasks, U_VL_tasks.
    rewrite (U64 N (ser_vl X X_len)); [reflexivity|exact Hs|exact HB| |].
    + intros i Hi. split; [apply u_series_vl_ok; assumption|]. unfold ser_vl. assert (Hin : In (nthd [] X i) X) by (apply (nthZ_In _ i); apply nthZ_nthd; exact Hi).
      specialize (HX _ Hin). eapply Z.le_trans; [apply slice0_le|]. apply (M1 _ _ Hin). destruct (nthd [] X i); [congruence|]. left. reflexivity.
    + apply (uni64 N s Hs M2). intros k l d Hl Hd. pose proof Hs as (W1 & W2 & W3 & W4 & _). pose proof (nthZ_range _ _ _ Hl).
      destruct (nthZ_some (us_values s) k) as (v & Hv); [lia|]. destruct (nthZ_some (us_thr s) k) as (t & Ht); [lia|]. destruct (nthZ_some (us_norm s) k) as (b & Hb); [lia|].
      apply (HS k [0] [slice v 0 l] l d t b). constructor. repeat split; eauto.
  - destruct HW as (HX & HP & HC). unfold i_M_SL_apply, M_SL_apply. rewrite new64 by (pose proof (zlen_nonneg (ms_len s)); lia). unfold i_M_SL_tasks, M_SL_tasks.
    specialize (M2 _ (or_introl eq_refl)). rewrite (M64 N (nthd [] X) _ s L); [reflexivity|exact HP|exact M2|exact M3|exact HB| |].
    + intros i Hi. split; [apply get_nthd; exact Hi|]. intros r Hr. apply (M1 (nthd [] X i) r); [|exact Hr]. apply (nthZ_In _ i); apply nthZ_nthd; exact Hi.
    + apply (multi64 N s L HP M2). intros k l d Hl Hd. pose proof HP as (_ & _ & _ & P4 & P5 & P6 & P7 & _). pose proof (nthZ_range _ _ _ Hl).
      destruct (nthZ_some L k) as ((chs & vs) & Hv); [lia|]. destruct (nthZ_some (ms_thr s) k) as (t & Ht); [lia|]. destruct (nthZ_some (ms_norm s) k) as (b & Hb); [lia|].
      apply (HS k chs vs l d t b). constructor. repeat split; assumption.
  - destruct HW as (HX & HL & HP & HC). unfold i_M_VL_apply, M_VL_apply. rewrite new64 by (pose proof (zlen_nonneg (ms_len s)); lia). unfold i_M_VL_tasks, M_VL_tasks.
    specialize (M2 _ (or_introl eq_refl)). rewrite (M64 N (mser_vl X X_len) _ s L); [reflexivity|exact HP|exact M2|exact M3|exact HB| |].
    + intros i Hi. split; [apply (mser_vl_at nf n X X_len i HX HL Hi)|]. intros r Hr. apply in_map_iff in Hr as (r0 & <- & Hr). eapply Z.le_trans; [apply slice0_le|].
      apply (M1 (nthd [] X i) r0); [|exact Hr]. apply (nthZ_In _ i); apply nthZ_nthd; exact Hi.
    + apply (multi64 N s L HP M2). intros k l d Hl Hd. pose proof HP as (_ & _ & _ & P4 & P5 & P6 & P7 & _). pose proof (nthZ_range _ _ _ Hl).
      destruct (nthZ_some L k) as ((chs & vs) & Hv); [lia|]. destruct (nthZ_some (ms_thr s) k) as (t & Ht); [lia|]. destruct (nthZ_some (ms_norm s) k) as (b & Hb); [lia|].
      apply (HS k chs vs l d t b). constructor. repeat split; assumption.
Qed.
Print Assumptions C92_no_overflow.

(** The shapelets fit finds meet the condition: on series of at most 2^40 points, in binary64. *)
Theorem C92_fitted_univariate : forall log2 log pow2 S (rng : Rng float S) c P T (c' : call float) ph, let N := FN log2 log pow2 in
  libm_accurate log2 log pow2 -> RngLaws N rng -> tr_ok c -> lengths_ok P (tr_points c) -> tr_points c <= 2 ^ 40 -> g_n P <= 2 ^ 30 -> GenULaws.fitted N rng P c T ->
  (exists X, c' = CallUS X T) \/ (exists X X_len, c' = CallUV X X_len T) -> wf_call c' -> in_memory c' -> i_run N c' ph = run N c' ph.
Proof.
  intros log2 log pow2 S rng c P T c' ph N LA L HO HL HB Hn HF HC HW HM. subst N. pose proof (binary64_laws log2 log pow2 rng LA L) as FL.
  destruct (any_fitted_wf FL P c T HO HL HB HF) as [_ HZ].
  assert (HN : n_shapelets c' <= 2 ^ 30) by (destruct HC as [(X & ->)|(X & X_len & ->)]; cbn [n_shapelets]; lia).
  apply C92_no_overflow; try assumption. intros k chs vs l d thr nm HK.
  assert (exists v, ushp_at T k v l d thr nm) as (v & HU) by (destruct HC as [(X & ->)|(X & X_len & ->)]; inversion HK; subst; eauto).
  destruct (any_fitted_origin FL P c T k v l d thr nm HO HL HB HF HU) as (_ & (_ & D & _) & _). lia.
Qed.
Print Assumptions C92_fitted_univariate.

Theorem C92_fitted_multivariate : forall log2 log pow2 S (rng : Rng float S) c P mc T L (c' : call float) ph, let N := FN log2 log pow2 in
  libm_accurate log2 log pow2 -> RngLaws N rng -> mt_ok c -> lengths_ok P (mt_points c) -> mt_points c <= 2 ^ 40 -> g_n P <= 2 ^ 30 -> mfitted N rng P mc c T ->
  (exists nf n X, c' = CallMS nf n X T L) \/ (exists nf n X X_len, c' = CallMV nf n X X_len T L) -> wf_call c' -> in_memory c' -> i_run N c' ph = run N c' ph.
Proof.
  intros log2 log pow2 S rng c P mc T L c' ph N LA LR HO HL HB Hn HF HC HW HM. subst N. pose proof (binary64_laws log2 log pow2 rng LA LR) as FL.
  destruct (any_mfitted_packed FL P mc c T HO HL HB HF) as [_ HZ].
  assert (HN : n_shapelets c' <= 2 ^ 30) by (destruct HC as [(nf & n & X & ->)|(nf & n & X & X_len & ->)]; cbn [n_shapelets]; lia).
  apply C92_no_overflow; try assumption. intros k chs vs l d thr nm HK.
  assert (packed T L /\ mshp_at T L k chs vs l d thr nm) as (HP & HU) by (destruct HC as [(nf & n & X & ->)|(nf & n & X & X_len & ->)]; inversion HK; subst; cbn [wf_call] in HW; split; try assumption; apply HW).
  destruct HU as (_ & U2 & U3 & _). destruct (packed_exists T L k HP (nthZ_range _ _ _ U2)) as (chs' & vs' & l' & d' & thr' & nm' & HK').
  destruct (any_mfitted_origin FL P mc c T k _ _ _ _ _ _ HO HL HB HF HK') as (_ & (_ & D & _) & _). destruct HK' as (nc & _ & K2 & K3 & _).
  replace l with l' by congruence. replace d with d' by congruence. lia.
Qed.
Print Assumptions C92_fitted_multivariate.

(** The condition on the span is needed.  For a dilation of 2^62 and a length of 5, (length-1)*dilation is 2^64, which is 0 in int64: instead of the
    ValueError for series which are too short (C02) the code reads outside of the series. *)
Theorem C92_overflow_refuted : exists (x : list Z) l d, d < 2 ^ 63 /\
  generate_strides_1D x l d false = Err ValueError /\ i_generate_strides_1D x l d false = Err OutOfBounds.
Proof.
  exists [1; 2; 3], 5, (2 ^ 62). split; [reflexivity|]. split; [reflexivity|].
  assert (E : get [1; 2; 3] (w64 (0 + w64 (1 * 2 ^ 62))) = Err OutOfBounds).
  { unfold get. destruct (nthZ [1; 2; 3] _) eqn:Q; [|reflexivity]. apply nthZ_range in Q. vm_compute in Q. destruct Q as [_ Q]. discriminate Q. }
  unfold i_generate_strides_1D, i_strides_1D. change (w64 (zlen [1; 2; 3] - w64 (w64 (5 - 1) * 2 ^ 62))) with 3. cbn [guard Z.leb andb bind].
  change (zrange 0 3) with [0; 1; 2]. change (zrange 0 5) with [0; 1; 2; 3; 4]. cbn [mapM]. rewrite E.
  change (get [1; 2; 3] (w64 (0 + w64 (0 * 2 ^ 62)))) with (@Ok Z 1). reflexivity.
Qed.
Print Assumptions C92_overflow_refuted.

(** Two series of 5 points and two shapelets, the second with dilation 2: the hypotheses hold and the int64 code computes the features. *)
Definition c92T : ushp Z := mkUshp [[1; 2; 0]; [2; 0; 3]] [2; 3] [1; 2] [1; 4] [false; false].
Definition c92X : dataset Z := [[[1; 2; 4; 8; 3]]; [[3; 5; 1; 2; 2]]].
Example C92_case : wf_call (CallUS c92X c92T) /\ in_memory (CallUS c92X c92T) /\ n_shapelets (CallUS c92X c92T) <= 2 ^ 30 /\
  (forall k chs vs l d thr nm, shapelet_at (CallUS c92X c92T) k chs vs l d thr nm -> (l - 1) * d <= 2 ^ 62) /\
  i_run ZN (CallUS c92X c92T) false = Ok [[0; 0; 1; 5; 0; 0]; [0; 2; 2; 3; 0; 1]].
Proof.
  assert (W : wf_call (CallUS c92X c92T)).
  { split; [intros x Hx; cbn in Hx; destruct Hx as [<-|[<-|[]]]; discriminate|]. repeat split; try reflexivity.
    - revert H H0. unfold nthZ. destruct (k <? 0); [discriminate|]. destruct (Z.to_nat k) as [|[|[|m]]]; cbn; intros Hv Hl; try discriminate; injection Hl as <-; lia.
    - revert H H0. unfold nthZ. destruct (k <? 0); [discriminate|]. destruct (Z.to_nat k) as [|[|[|m]]]; cbn; intros Hv Hl; try discriminate; injection Hl as <-; injection Hv as <-; vm_compute; discriminate.
    - intros k d. unfold nthZ. destruct (k <? 0); [discriminate|]. destruct (Z.to_nat k) as [|[|[|m]]]; cbn; intros Hv; try discriminate; injection Hv as <-; lia. }
  split; [exact W|]. split.
  { split; [|split].
    - intros x r Hx Hr. cbn in Hx. destruct Hx as [<-|[<-|[]]]; cbn in Hr; destruct Hr as [<-|[]]; vm_compute; discriminate.
    - intros v Hv. cbn in Hv. destruct Hv as [<-|[<-|[]]]; vm_compute; discriminate.
    - vm_compute. discriminate. }
  split; [vm_compute; discriminate|]. split; [|vm_compute; reflexivity].
  intros k chs vs l d thr nm HK. inversion HK as [X s k0 v l0 d0 thr0 nm0 HU| | |]; subst. destruct HU as (_ & U2 & U3 & _). revert U2 U3. unfold nthZ. destruct (k <? 0); [discriminate|].
  destruct (Z.to_nat k) as [|[|[|m]]]; cbn; intros Hl Hd; try discriminate; injection Hl as <-; injection Hd as <-; vm_compute; discriminate.
Qed.
