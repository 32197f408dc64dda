(** Concrete multivariate training sets, for the examples on generation. *)
From Coq Require Import ZArith Znumtheory List Bool Reals Lra Lia Permutation.
From Verif Require Import Prelude Num Kernel Spec KernelProofs RealBase Apply ApplyUni ApplyMulti TransformProofs TransformLaws Gen GenSched GenBase GenUni
  GenULoop GenTrace GenURun GenDraw GenSpec GenUFinal GenUTop GenULaws GenUCase GenMulti GenMTop GenMLaws.
Import ListNotations.
Open Scope Z_scope.

(** Three series of two channels and five points in two classes; two channels at most, lengths 2 and 3. *)
Definition caseMr : mtrain R := TrMSL [[[1; 2; 4; 8; 3]; [9; 8; 7; 6; 5]]; [[3; 5; 1; 2; 2]; [0; 1; 2; 3; 4]]; [[0; 1; 0; 2; 7]; [1; 2; 3; 4; 5]]]%R [0; 1; 0].
(** Two series of two channels with four and three points (padded with 9). *)
Definition caseMv : mtrain R := TrMVL [[[1; 2; 4; 8]; [7; 6; 5; 4]]; [[3; 5; 1; 9]; [0; 1; 2; 9]]]%R [4; 3] [0; 0] 3.
Definition caseMP : gparams R := mkG 4 [2; 3] 7 (1/2)%R 5%R 10%R (1/2)%R true true.

Lemma caseMr_ok : mt_ok caseMr /\ lengths_ok caseMP (mt_points caseMr) /\ percentiles_ok caseMP /\ 1 <= 2 <= mt_nf caseMr.
Proof.
  split; [|split; [|split]].
  - split; [discriminate|]. split; [|split; [reflexivity|reflexivity]]. split; [vm_compute; discriminate|]. split; [vm_compute; discriminate|].
    intros x Hx. repeat (destruct Hx as [<-|Hx]; [split; [reflexivity|]; intros r Hr; repeat (destruct Hr as [<-|Hr]; [reflexivity|]); destruct Hr|]). destruct Hx.
  - intros l [<-|[<-|[]]]; cbn; lia.
  - split; cbn; lra.
  - cbn. lia.
Qed.

Lemma caseMv_ok : mt_ok caseMv /\ lengths_ok caseMP (mt_points caseMv) /\ percentiles_ok caseMP /\ 1 <= 2 <= mt_nf caseMv.
Proof.
  split; [|split; [|split]].
  - split; [discriminate|]. split; [|split; [reflexivity|]].
    + split; [vm_compute; discriminate|]. split; [vm_compute; discriminate|].
      intros x Hx. repeat (destruct Hx as [<-|Hx]; [split; [reflexivity|]; intros r Hr; repeat (destruct Hr as [<-|Hr]; [reflexivity|]); destruct Hr|]). destruct Hx.
    + split; [reflexivity|]. split; [reflexivity|]. intros n [<-|[<-|[]]]; vm_compute; split; discriminate.
  - intros l [<-|[<-|[]]]; cbn; lia.
  - split; cbn; lra.
  - cbn. lia.
Qed.
