(** Numbers used by the model.  The numeric code of convst runs on binary64; the
    model is parametric in the operations it uses. *)
From Coq Require Import ZArith List Bool Reals Lra Lia.
From Coq Require Import Floats.
From Verif Require Import Prelude.
Import ListNotations.

Record NumOps (F : Type) : Type := mkNum {
  n0 : F;
  n1 : F;
  nm1 : F;                  (** -1.   : sentinel of the running minimum *)
  neps : F;                 (** 1e-8  : regulariser of the z-normalisation *)
  nadd : F -> F -> F;
  nsub : F -> F -> F;
  nmul : F -> F -> F;
  ndiv : F -> F -> F;
  nabs : F -> F;
  nsqrt : F -> F;
  nlog2 : F -> F;           (** numpy.log2 *)
  nln : F -> F;             (** numpy.log *)
  npow2 : F -> F;           (** 2**x, numpy.power(2,x) *)
  nltb : F -> F -> bool;
  nleb : F -> F -> bool;
  neqb : F -> F -> bool;
  nofZ : Z -> F;            (** int -> float conversion *)
  nfloor : F -> Z;          (** int64(floor(x)) *)
  ntrunc : F -> Z           (** int64(x): truncation towards zero *)
}.
Arguments n0 {F}. Arguments n1 {F}. Arguments nm1 {F}. Arguments neps {F}.
Arguments nadd {F}. Arguments nsub {F}. Arguments nmul {F}. Arguments ndiv {F}.
Arguments nabs {F}. Arguments nsqrt {F}. Arguments nlog2 {F}. Arguments nln {F}.
Arguments npow2 {F}. Arguments nltb {F}. Arguments nleb {F}. Arguments neqb {F}.
Arguments nofZ {F}. Arguments nfloor {F}. Arguments ntrunc {F}.

(** * Exact reals *)

Definition Rltb (x y : R) : bool := if Rlt_dec x y then true else false.
Definition Rleb (x y : R) : bool := if Rle_dec x y then true else false.
Definition Reqb (x y : R) : bool := if Req_EM_T x y then true else false.
Definition Rfloor (x : R) : Z := Int_part x.
Definition Rtrunc (x : R) : Z := if Rlt_dec x 0 then (- Int_part (- x))%Z else Int_part x.
Definition Rpow2 (x : R) : R := exp (x * ln 2).
Definition Rlog2 (x : R) : R := (ln x / ln 2)%R.

Definition RN : NumOps R := {|
  n0 := 0%R; n1 := 1%R; nm1 := (-1)%R; neps := (/ 100000000)%R;
  nadd := Rplus; nsub := Rminus; nmul := Rmult; ndiv := Rdiv;
  nabs := Rabs; nsqrt := R_sqrt.sqrt; nlog2 := Rlog2; nln := ln; npow2 := Rpow2;
  nltb := Rltb; nleb := Rleb; neqb := Reqb;
  nofZ := IZR; nfloor := Rfloor; ntrunc := Rtrunc |}.

(** * binary64.  The transcendental functions are libm's; they are parameters. *)

Definition float_ofZ (z : Z) : float := SF2Prim (SpecFloat.binary_normalize 53 1024 z 0 false).

(** floor and truncation of a finite float; 0 otherwise (int64(nan) is undefined). *)
Definition float_floor (x : float) : Z :=
  match Prim2SF x with
  | S754_finite s m e =>
      let v := if s then Zneg m else Zpos m in
      if (0 <=? e)%Z then (v * 2 ^ e)%Z else (v / 2 ^ (- e))%Z
  | _ => 0%Z
  end.
Definition float_trunc (x : float) : Z :=
  match Prim2SF x with
  | S754_finite s m e =>
      let v := if (0 <=? e)%Z then (Zpos m * 2 ^ e)%Z else (Zpos m / 2 ^ (- e))%Z in
      if s then (- v)%Z else v
  | _ => 0%Z
  end.

Definition FN (log2 log pow2 : float -> float) : NumOps float := {|
  n0 := 0%float; n1 := 1%float; nm1 := (-1)%float; neps := 0x1.5798ee2308c3ap-27%float;
  nadd := PrimFloat.add; nsub := PrimFloat.sub; nmul := PrimFloat.mul; ndiv := PrimFloat.div;
  nabs := PrimFloat.abs; nsqrt := PrimFloat.sqrt; nlog2 := log2; nln := log; npow2 := pow2;
  nltb := PrimFloat.ltb; nleb := PrimFloat.leb; neqb := PrimFloat.eqb;
  nofZ := float_ofZ; nfloor := float_floor; ntrunc := float_trunc |}.

(** 1e-8 in binary64 is the literal above. *)
Example eps_literal :
  PrimFloat.div 1%float (float_ofZ 100000000) = neps (FN (fun x => x) (fun x => x) (fun x => x)).
Proof. vm_compute. reflexivity. Qed.

(** * Integers: a toy instance for small computed examples (division and square
    root are rounded down; only used on examples where this does not matter). *)
Definition ZN : NumOps Z := {|
  n0 := 0; n1 := 1; nm1 := -1; neps := 0;
  nadd := Z.add; nsub := Z.sub; nmul := Z.mul; ndiv := Z.div;
  nabs := Z.abs; nsqrt := Z.sqrt; nlog2 := Z.log2; nln := Z.log2; npow2 := fun x => 2 ^ x;
  nltb := Z.ltb; nleb := Z.leb; neqb := Z.eqb;
  nofZ := fun z => z; nfloor := fun z => z; ntrunc := fun z => z |}%Z.

(** * Order laws

    What the minimum/argmin code needs from comparisons, on the values [ok]
    (non-NaN). *)
Record OrdLaws {F} (N : NumOps F) (ok : F -> Prop) : Prop := {
  ol_leb_ltb : forall x y, ok x -> ok y -> nleb N x y = negb (nltb N y x);
  ol_lt_le : forall x y, ok x -> ok y -> nltb N x y = true -> nleb N x y = true;
  ol_le_trans : forall x y z, ok x -> ok y -> ok z ->
     nleb N x y = true -> nleb N y z = true -> nleb N x z = true;
  ol_m1 : forall x, ok x -> nleb N (n0 N) x = true -> neqb N x (nm1 N) = false;
  ol_m1_refl : neqb N (nm1 N) (nm1 N) = true
}.

Lemma Rltb_true x y : Rltb x y = true <-> (x < y)%R.
Proof. unfold Rltb. destruct (Rlt_dec x y); split; auto; discriminate. Qed.
Lemma Rleb_true x y : Rleb x y = true <-> (x <= y)%R.
Proof. unfold Rleb. destruct (Rle_dec x y); split; auto; discriminate. Qed.
Lemma Reqb_true x y : Reqb x y = true <-> x = y.
Proof. unfold Reqb. destruct (Req_EM_T x y); split; auto; discriminate. Qed.
Lemma Rltb_false x y : Rltb x y = false <-> (y <= x)%R.
Proof. unfold Rltb. destruct (Rlt_dec x y); split; intros; auto; try discriminate; lra. Qed.
Lemma Rleb_false x y : Rleb x y = false <-> (y < x)%R.
Proof. unfold Rleb. destruct (Rle_dec x y); split; intros; auto; try discriminate; lra. Qed.
Lemma Reqb_false x y : Reqb x y = false <-> x <> y.
Proof. unfold Reqb. destruct (Req_EM_T x y); split; intros; auto; try discriminate; contradiction. Qed.

Lemma R_ord_laws : OrdLaws RN (fun _ => True).
Proof.
  constructor; simpl; intros.
  - destruct (Rltb y x) eqn:E; simpl.
    + apply Rltb_true in E. apply Rleb_false. exact E.
    + apply Rltb_false in E. apply Rleb_true. exact E.
  - apply Rleb_true. apply Rltb_true in H1. lra.
  - apply Rleb_true. apply Rleb_true in H2, H3. lra.
  - apply Reqb_false. apply Rleb_true in H0. lra.
  - apply Reqb_true. reflexivity.
Qed.

Lemma Z_ord_laws : OrdLaws ZN (fun _ => True).
Proof.
  constructor; simpl; intros.
  - destruct (Z.leb_spec x y), (Z.ltb_spec y x); auto; lia.
  - apply Z.leb_le. apply Z.ltb_lt in H1. lia.
  - apply Z.leb_le. apply Z.leb_le in H2, H3. lia.
  - apply Z.leb_le in H0. apply Z.eqb_neq. lia.
  - reflexivity.
Qed.
