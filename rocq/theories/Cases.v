(** Concrete datasets and shapelets used as non-trivial cases beside the theorems. *)
From Coq Require Import ZArith List Bool Reals Lra Lia.
From Verif Require Import Prelude Num Kernel Spec KernelProofs Apply ApplyUni ApplyMulti TransformProofs TransformLaws.
Import ListNotations.
Open Scope Z_scope.

Lemma Forall2_nthZ {A B} (P : A -> B -> Prop) l l' : Forall2 P l l' ->
  forall k a b, nthZ l k = Some a -> nthZ l' k = Some b -> P a b.
Proof.
  induction 1 as [|x y l l' Hxy H IH]; intros k a b Ha Hb.
  - unfold nthZ in Ha. destruct (k <? 0); [discriminate|]. destruct (Z.to_nat k); discriminate.
  - rewrite nthZ_cons in Ha; rewrite nthZ_cons in Hb; destruct (k =? 0); [congruence|eauto].
Qed.
Lemma Forall_nthZ {A} (P : A -> Prop) l : Forall P l -> forall k a, nthZ l k = Some a -> P a.
Proof. intros H k a Ha. apply nthZ_In in Ha. rewrite Forall_forall in H. auto. Qed.

Lemma wf_ushp_intro {F} (s : ushp F) :
  zlen (us_values s) = zlen (us_len s) -> zlen (us_dil s) = zlen (us_len s) ->
  zlen (us_thr s) = zlen (us_len s) -> zlen (us_norm s) = zlen (us_len s) ->
  Forall2 (fun v l => 1 <= l <= zlen v) (us_values s) (us_len s) -> Forall (fun d => 1 <= d) (us_dil s) -> wf_ushp s.
Proof.
  intros H1 H2 H3 H4 H5 H6. split; [|split; [|split; [|split; [|split]]]]; auto.
  - exact (Forall2_nthZ _ _ _ H5).
  - exact (Forall_nthZ _ _ H6).
Qed.

Lemma packed_intro {F} (s : mshp F) L :
  ms_chan s = concat (map fst L) -> ms_values s = concat (map (fun p => concat (snd p)) L) ->
  ms_nch s = map (fun p => zlen (fst p)) L -> zlen (ms_dil s) = zlen L -> zlen (ms_thr s) = zlen L -> zlen (ms_norm s) = zlen L ->
  zlen (ms_len s) = zlen L ->
  Forall2 (fun p l => zlen (snd p) = zlen (fst p) /\ 1 <= zlen (fst p) /\ Forall (fun r => zlen r = l) (snd p) /\ 1 <= l) L (ms_len s) ->
  Forall (fun d => 1 <= d) (ms_dil s) -> packed s L.
Proof.
  intros H1 H2 H3 H4 H5 H6 H7 H8 H9. split; [|split; [|split; [|split; [|split; [|split; [|split; [|split]]]]]]]; auto.
  - intros k p l Hp Hl. destruct (Forall2_nthZ _ _ _ H8 k p l Hp Hl) as (A & B & C & D). repeat split; auto.
    intros r Hr. rewrite Forall_forall in C. auto.
  - exact (Forall_nthZ _ _ H9).
Qed.

Section C.
Context {F : Type} (N : NumOps F) (z : Z -> F).

(** Two univariate series of six points. *)
Definition caseX : dataset F := [[map z [0; 1; 3; 1; 0; 2]]; [map z [2; 2; 5; 2; 1; 0]]].

(** Three shapelets: two of length 2 (one z-normalised), one of length 3 with dilation 2. *)
Definition caseS : ushp F := mkUshp
  [map z [1; 3; 0]; map z [-1; 1; 0]; map z [0; 3; 0]] [2; 2; 3] [1; 2; 2] (map z [1; 2; 4]) [false; true; false].

Lemma caseX_ft : has_ft caseX.
Proof. intros x [<-|[<-|[]]]; discriminate. Qed.
Lemma caseS_wf : wf_ushp caseS.
Proof.
  apply wf_ushp_intro; try reflexivity; cbn [us_values us_len us_dil caseS].
  - repeat constructor; unfold zlen; cbn; lia.
  - repeat constructor; lia.
Qed.

(** The same data padded with a 9, of lengths 6 and 5. *)
Definition caseXV : dataset F := [[map z [0; 1; 3; 1; 0; 2]]; [map z [2; 2; 5; 2; 1; 9]]].
Definition caseLen : list Z := [6; 5].
Lemma caseXV_ft : has_ft caseXV.
Proof. intros x [<-|[<-|[]]]; discriminate. Qed.

(** Two samples of two channels. *)
Definition caseXM : dataset F :=
  [[map z [0; 1; 3; 1; 0; 2]; map z [1; 1; 0; 2; 2; 0]]; [map z [2; 2; 5; 2; 1; 0]; map z [0; 0; 1; 1; 3; 3]]].
(** Two shapelets: channels 1,0 with length 2, and channel 1 with length 3 and dilation 2, normalised. *)
Definition caseL : list (lshp F) := [([1; 0], [map z [0; 2]; map z [3; 1]]); ([1], [map z [-1; 0; 1]])].
Definition caseM : mshp F := mkMshp (map z [0; 2; 3; 1; -1; 0; 1]) [2; 3] [1; 2] (map z [2; 3]) [false; true] [2; 1] [1; 0; 1].
Lemma caseM_packed : packed caseM caseL.
Proof.
  apply packed_intro; try reflexivity; cbn [ms_len ms_dil caseM caseL].
  - repeat constructor; unfold zlen; cbn; lia.
  - repeat constructor; lia.
Qed.
Lemma caseL_chan : chan_ok caseL 2.
Proof. intros p c [<-|[<-|[]]] Hc; cbn in Hc; lia. Qed.
Lemma caseXM_data : mdata 2 6 caseXM.
Proof.
  split; [lia|]. split; [lia|]. intros x [<-|[<-|[]]]; (split; [reflexivity|]); intros r [<-|[<-|[]]]; reflexivity.
Qed.
Lemma caseXM_vl : vl_ok 6 caseXM caseLen.
Proof. split; [reflexivity|]. apply (Forall_nthZ (fun l => 0 <= l <= 6)). repeat constructor; lia. Qed.

Definition caseUS := CallUS caseX caseS.
Definition caseUV := CallUV caseXV caseLen caseS.
Definition caseMS := CallMS 2 6 caseXM caseM caseL.
Definition caseMV := CallMV 2 6 caseXM caseLen caseM caseL.

Lemma cases_wf c : In c [caseUS; caseUV; caseMS; caseMV] -> wf_call c.
Proof.
  intros [<-|[<-|[<-|[<-|[]]]]]; cbn [wf_call caseUS caseUV caseMS caseMV].
  - split; [apply caseX_ft|apply caseS_wf].
  - split; [apply caseXV_ft|]. split; [reflexivity|apply caseS_wf].
  - split; [apply caseXM_data|]. split; [apply caseM_packed|apply caseL_chan].
  - split; [apply caseXM_data|]. split; [apply caseXM_vl|]. split; [apply caseM_packed|apply caseL_chan].
Qed.

Lemma caseS_fits ph n : 5 <= n -> fits_all ph caseS n.
Proof.
  intros Hn. assert (H : Forall2 (fun l d => fits ph n l d) (us_len caseS) (us_dil caseS)).
  { cbn [us_len us_dil caseS]. repeat constructor; destruct ph; cbn; lia. }
  exact (Forall2_nthZ _ _ _ H).
Qed.
Lemma caseM_fits ph n : 5 <= n -> mfits_all ph caseM n.
Proof.
  intros Hn. assert (H : Forall2 (fun l d => fits ph n l d) (ms_len caseM) (ms_dil caseM)).
  { cbn [ms_len ms_dil caseM]. repeat constructor; destruct ph; cbn; lia. }
  exact (Forall2_nthZ _ _ _ H).
Qed.

Lemma cases_run c ph : In c [caseUS; caseUV; caseMS; caseMV] -> exists T, run N c ph = Ok T.
Proof.
  intros [<-|[<-|[<-|[<-|[]]]]]; cbn [run caseUS caseUV caseMS caseMV]; eexists.
  - apply U_SL_ok; [apply caseX_ft|apply caseS_wf|]. intros i Hi. apply caseS_fits.
    change (zlen caseX) with 2 in Hi. assert (i = 0 \/ i = 1) as [->| ->] by lia; [change (zlen (ser caseX 0)) with 6|change (zlen (ser caseX 1)) with 6]; lia.
  - apply U_VL_ok; [apply caseXV_ft|reflexivity|apply caseS_wf|]. intros i Hi. apply caseS_fits.
    change (zlen caseXV) with 2 in Hi. assert (i = 0 \/ i = 1) as [->| ->] by lia; [change (zlen (ser_vl caseXV caseLen 0)) with 6|change (zlen (ser_vl caseXV caseLen 1)) with 5]; lia.
  - apply (M_SL_ok N caseXM 2 6 caseM caseL); [apply caseXM_data|apply caseM_packed|apply caseL_chan|apply caseM_fits; lia].
  - apply (M_VL_ok N caseXM caseLen 2 6 caseM caseL); [apply caseXM_data|apply caseXM_vl|apply caseM_packed|apply caseL_chan|].
    intros i Hi. apply caseM_fits. change (zlen caseXM) with 2 in Hi. assert (i = 0 \/ i = 1) as [->| ->] by lia; [change (nthd 0 caseLen 0) with 6|change (nthd 0 caseLen 1) with 5]; lia.
Qed.

Lemma cases_sizes c : In c [caseUS; caseUV; caseMS; caseMV] -> n_samples c = 2 /\ 2 <= n_shapelets c.
Proof. intros [<-|[<-|[<-|[<-|[]]]]]; split; try reflexivity; cbn; unfold zlen; cbn; lia. Qed.
End C.
