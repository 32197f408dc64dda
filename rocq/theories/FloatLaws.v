(** binary64: the comparisons order the values that are not NaN, differences of finite numbers are not NaN, absolute
    values and sums of non-negative numbers are non-negative.  From the axioms of Coq's primitive floats. *)
From Coq Require Import ZArith List Bool Lia.
From Coq Require Import Floats.
From Verif Require Import Prelude Num Spec KernelProofs NumbaUtilsProofs.
Import ListNotations.
Open Scope Z_scope.

(** ** Order *)

(** the place of a value: sign and kind, exponent, mantissa *)
Definition key (x : spec_float) : Z * Z * Z :=
  match x with
  | S754_nan => (3, 0, 0)
  | S754_infinity s => ((if s then -2 else 2), 0, 0)
  | S754_zero _ => (0, 0, 0)
  | S754_finite s m e => if s then (-1, - e, - Zpos m) else (1, e, Zpos m)
  end.
Definition klt (a b : Z * Z * Z) : Prop :=
  let '(a1, a2, a3) := a in let '(b1, b2, b3) := b in
  a1 < b1 \/ (a1 = b1 /\ (a2 < b2 \/ (a2 = b2 /\ a3 < b3))).

Definition knan (x : spec_float) : Prop := x = S754_nan.

Lemma compare_key x y : ~ knan x -> ~ knan y ->
  match SFcompare x y with
  | Some Lt => klt (key x) (key y)
  | Some Eq => key x = key y
  | Some Gt => klt (key y) (key x)
  | None => False
  end.
Proof.
  intros Hx Hy. destruct x as [sx|sx| |sx mx ex], y as [sy|sy| |sy my ey]; try (exfalso; (apply Hx; reflexivity) || (apply Hy; reflexivity));
    cbn [SFcompare]; try (destruct sx); try (destruct sy); cbn [key klt]; try reflexivity; try lia.
  - destruct (Z.compare_spec ex ey) as [->|H|H]; [|lia|lia].
    change (Pcompare mx my Eq) with (Pos.compare mx my). destruct (Pos.compare_spec mx my) as [->|H|H]; cbn [CompOpp]; [reflexivity|lia|lia].
  - destruct (Z.compare_spec ex ey) as [->|H|H]; [|lia|lia].
    change (Pcompare mx my Eq) with (Pos.compare mx my). destruct (Pos.compare_spec mx my) as [->|H|H]; [reflexivity|lia|lia].
Qed.

Lemma klt_irrefl a : ~ klt a a.
Proof. destruct a as [[a b] c]. cbn. lia. Qed.
Lemma klt_trans a b c : klt a b -> klt b c -> klt a c.
Proof. destruct a as [[? ?] ?], b as [[? ?] ?], c as [[? ?] ?]. cbn. lia. Qed.
Lemma klt_split a b c : klt a c -> klt a b \/ klt b c.
Proof. destruct a as [[? ?] ?], b as [[? ?] ?], c as [[? ?] ?]. cbn. lia. Qed.

(** the floats that are numbers *)
Definition is_number (x : float) : Prop := Prim2SF x <> S754_nan.
Definition is_finite (x : float) : Prop := match Prim2SF x with S754_zero _ => True | S754_finite _ _ _ => True | _ => False end.
Lemma finite_number x : is_finite x -> is_number x.
Proof. unfold is_finite, is_number. destruct (Prim2SF x); intros H E; (contradiction || discriminate). Qed.

Notation fkey x := (key (Prim2SF x)).

Lemma flt_key x y : is_number x -> is_number y -> (PrimFloat.ltb x y = true <-> klt (fkey x) (fkey y)).
Proof.
  intros Hx Hy. rewrite ltb_spec. unfold SFltb. pose proof (compare_key _ _ Hx Hy) as H. destruct (SFcompare (Prim2SF x) (Prim2SF y)) as [[| |]|]; [| | |contradiction].
  - rewrite H. split; [discriminate|]. intros Q. exfalso. exact (klt_irrefl _ Q).
  - tauto.
  - split; [discriminate|]. intros Q. exfalso. exact (klt_irrefl _ (klt_trans _ _ _ H Q)).
Qed.
Lemma fle_key x y : is_number x -> is_number y -> (PrimFloat.leb x y = true <-> ~ klt (fkey y) (fkey x)).
Proof.
  intros Hx Hy. rewrite leb_spec. unfold SFleb. pose proof (compare_key _ _ Hx Hy) as H. destruct (SFcompare (Prim2SF x) (Prim2SF y)) as [[| |]|]; [| | |contradiction].
  - rewrite H. split; [intros _; apply klt_irrefl|reflexivity].
  - split; [|reflexivity]. intros _ Q. exact (klt_irrefl _ (klt_trans _ _ _ H Q)).
  - split; [discriminate|]. tauto.
Qed.
Lemma feq_key x y : is_number x -> is_number y -> (PrimFloat.eqb x y = true <-> ~ klt (fkey x) (fkey y) /\ ~ klt (fkey y) (fkey x)).
Proof.
  intros Hx Hy. rewrite eqb_spec. unfold SFeqb. pose proof (compare_key _ _ Hx Hy) as H. destruct (SFcompare (Prim2SF x) (Prim2SF y)) as [[| |]|]; [| | |contradiction].
  - rewrite H. split; [intros _; split; apply klt_irrefl|reflexivity].
  - split; [discriminate|]. tauto.
  - split; [discriminate|]. tauto.
Qed.

Lemma bool_iff (a b : bool) (P Q : Prop) : (a = true <-> P) -> (b = true <-> Q) -> (P <-> Q) -> a = b.
Proof. destruct a, b; intuition congruence. Qed.

Section Laws.
Context (log2 log pow2 : float -> float).
Notation N := (FN log2 log pow2).

Lemma float_ord_laws : OrdLaws N is_number.
Proof.
  constructor; cbn [nleb nltb neqb n0 nm1 FN].
  - intros x y Hx Hy. destruct (PrimFloat.ltb y x) eqn:E.
    + apply flt_key in E; auto. destruct (PrimFloat.leb x y) eqn:E2; [|reflexivity]. apply fle_key in E2; auto. contradiction.
    + apply fle_key; auto. intros Q. apply flt_key in Q; auto. congruence.
  - intros x y Hx Hy H. apply flt_key in H; auto. apply fle_key; auto. intros Q. exact (klt_irrefl _ (klt_trans _ _ _ H Q)).
  - intros x y z Hx Hy Hz H1 H2. apply fle_key in H1, H2; auto. apply fle_key; auto. intros Q. destruct (klt_split _ (fkey y) _ Q); contradiction.
  - intros x Hx H. destruct (PrimFloat.eqb x (-1)) eqn:E; [|reflexivity]. exfalso.
    assert (H1 : is_number (-1)%float) by (intros Q; vm_compute in Q; discriminate). assert (H0 : is_number 0%float) by (intros Q; vm_compute in Q; discriminate).
    apply fle_key in H; auto. apply feq_key in E as [E1 E2]; auto. apply H.
    assert (K : klt (fkey (-1)%float) (fkey 0%float)) by (vm_compute; left; reflexivity).
    destruct (klt_split _ (fkey x) _ K); [contradiction|assumption].
  - vm_compute. reflexivity.
Qed.

Lemma float_order_laws : OrderLaws N is_number.
Proof.
  constructor; cbn [nleb nltb neqb n0 nm1 FN].
  - intros x Hx. destruct (PrimFloat.ltb x x) eqn:E; [|reflexivity]. apply flt_key in E; auto. exfalso. exact (klt_irrefl _ E).
  - intros x y z Hx Hy Hz H1 H2. apply flt_key in H1, H2; auto. apply flt_key; auto. eapply klt_trans; eauto.
  - intros x y z Hx Hy Hz H. apply flt_key in H; auto. destruct (klt_split _ (fkey y) _ H); [left|right]; apply flt_key; auto.
  - intros x y Hx Hy. eapply bool_iff; [apply feq_key; auto| |reflexivity]. rewrite andb_true_iff, !negb_true_iff.
    pose proof (flt_key x y Hx Hy) as A. pose proof (flt_key y x Hy Hx) as B.
    destruct (PrimFloat.ltb x y), (PrimFloat.ltb y x); intuition congruence.
Qed.
End Laws.

(** ** Arithmetic *)

(** zero, or positive, possibly infinite *)
Definition sf_nonneg (x : spec_float) : Prop :=
  match x with S754_zero _ => True | S754_infinity s => s = false | S754_finite s _ _ => s = false | S754_nan => False end.
Definition fnonneg (x : float) : Prop := sf_nonneg (Prim2SF x).

Lemma fnonneg_number x : fnonneg x -> is_number x.
Proof. unfold fnonneg, is_number. intros H E. rewrite E in H. exact H. Qed.
Lemma fnonneg_iff x : fnonneg x <-> PrimFloat.leb 0 x = true.
Proof.
  rewrite leb_spec. change (Prim2SF 0) with (S754_zero false). unfold fnonneg, sf_nonneg, SFleb. destruct (Prim2SF x) as [s|s| |s m e]; cbn [SFcompare];
    try destruct s; intuition congruence.
Qed.

Lemma shr_1_nonneg r : 0 <= shr_m r -> 0 <= shr_m (shr_1 r).
Proof. destruct r as [m a b]. cbn. destruct m as [|[p|p|]|p]; cbn; lia. Qed.
Lemma iter_shr_1_nonneg p r : 0 <= shr_m r -> 0 <= shr_m (iter_pos shr_1 p r).
Proof.
  revert r. induction p as [p IH|p IH|]; intros r H; cbn [iter_pos]; [|auto|apply shr_1_nonneg; exact H].
  apply IH. apply IH. apply shr_1_nonneg. exact H.
Qed.
Lemma shr_fexp_nonneg m e l : 0 <= m -> 0 <= shr_m (fst (shr_fexp 53 1024 m e l)).
Proof.
  intros H. unfold shr_fexp, shr. assert (H0 : 0 <= shr_m (shr_record_of_loc m l)) by (destruct l as [|[| |]]; exact H).
  destruct (fexp 53 1024 (Zdigits2 m + e) - e); cbn [fst]; [exact H0|apply iter_shr_1_nonneg; exact H0|exact H0].
Qed.
Lemma round_nonneg m l : 0 <= m -> 0 <= round_nearest_even m l.
Proof. intros H. destruct l as [|[| |]]; cbn [round_nearest_even]; try destruct (Z.even m); lia. Qed.

Definition sf_sign (s : bool) (x : spec_float) : Prop :=
  match x with S754_zero s' => s' = s | S754_infinity s' => s' = s | S754_finite s' _ _ => s' = s | S754_nan => False end.

Lemma round_aux_sign s m e l : 0 <= m -> sf_sign s (binary_round_aux 53 1024 s m e l).
Proof.
  intros H. unfold binary_round_aux. pose proof (shr_fexp_nonneg m e l H) as H1. destruct (shr_fexp 53 1024 m e l) as [r1 e1]. cbn [fst] in H1.
  pose proof (shr_fexp_nonneg (round_nearest_even (shr_m r1) (loc_of_shr_record r1)) e1 loc_Exact (round_nonneg _ _ H1)) as H2.
  destruct (shr_fexp 53 1024 (round_nearest_even (shr_m r1) (loc_of_shr_record r1)) e1 loc_Exact) as [r2 e2]. cbn [fst] in H2.
  destruct (shr_m r2) as [|p|p]; [reflexivity| |lia]. destruct (e2 <=? 1024 - 53); reflexivity.
Qed.
Lemma normalize_sign m e : match binary_normalize 53 1024 m e false with S754_nan => False | _ => True end /\ (0 <= m -> sf_nonneg (binary_normalize 53 1024 m e false)).
Proof.
  unfold binary_normalize, binary_round. destruct m as [|p|p].
  - cbn. auto.
  - destruct (shl_align p e (fexp 53 1024 (Z.pos (digits2_pos p) + e))) as [mz ez]. pose proof (round_aux_sign false (Zpos mz) ez loc_Exact ltac:(lia)) as H.
    destruct (binary_round_aux 53 1024 false (Z.pos mz) ez loc_Exact); cbn in *; auto.
  - destruct (shl_align p e (fexp 53 1024 (Z.pos (digits2_pos p) + e))) as [mz ez]. pose proof (round_aux_sign true (Zpos mz) ez loc_Exact ltac:(lia)) as H.
    split; [|lia]. destruct (binary_round_aux 53 1024 true (Z.pos mz) ez loc_Exact); cbn in *; auto.
Qed.

Lemma fsub_finite x y : is_finite x -> is_finite y -> is_number (x - y)%float.
Proof.
  unfold is_finite, is_number. rewrite sub_spec. unfold SF64sub.
  destruct (Prim2SF x) as [sx|sx| |sx mx ex], (Prim2SF y) as [sy|sy| |sy my ey]; try contradiction; intros _ _; cbn [SFsub]; try discriminate.
  - destruct (Bool.eqb sx (negb sy)); discriminate.
  - match goal with |- context [binary_normalize ?a ?b ?m ?e false] => pose proof (proj1 (normalize_sign m e)) as H; change a with 53; change b with 1024; destruct (binary_normalize 53 1024 m e false) end;
      (discriminate || contradiction).
Qed.
Lemma fabs_nonneg x : is_number x -> fnonneg (abs x).
Proof. unfold is_number, fnonneg. rewrite abs_spec. destruct (Prim2SF x); cbn; auto. Qed.
Lemma fadd_nonneg x y : fnonneg x -> fnonneg y -> fnonneg (x + y)%float.
Proof.
  unfold fnonneg. rewrite add_spec. unfold SF64add.
  destruct (Prim2SF x) as [sx|sx| |sx mx ex], (Prim2SF y) as [sy|sy| |sy my ey]; cbn [sf_nonneg]; intros Hx Hy; try contradiction; subst; cbn [SFadd sf_nonneg Bool.eqb]; auto.
  - destruct (Bool.eqb sx sy); exact I.
  - match goal with |- sf_nonneg (binary_normalize ?a ?b ?m ?e false) => apply (proj2 (normalize_sign m e)) end. cbn [cond_Zopp]. lia.
Qed.

(** the same with the sign bit: +0 and not -0 *)
Definition fpos (x : float) : Prop := sf_sign false (Prim2SF x).
Lemma fpos_nonneg x : fpos x -> fnonneg x.
Proof. unfold fpos, fnonneg. destruct (Prim2SF x); cbn; auto. Qed.
Lemma fabs_pos x : is_number x -> fpos (abs x).
Proof. unfold is_number, fpos. rewrite abs_spec. destruct (Prim2SF x); cbn; auto. Qed.
Lemma fadd_pos x y : fpos x -> fpos y -> fpos (x + y)%float.
Proof.
  unfold fpos. rewrite add_spec. unfold SF64add.
  destruct (Prim2SF x) as [sx|sx| |sx mx ex], (Prim2SF y) as [sy|sy| |sy my ey]; cbn [sf_sign]; intros Hx Hy; try contradiction; subst; cbn [SFadd sf_sign Bool.eqb]; auto.
  cbn [cond_Zopp Z.add]. unfold binary_normalize, binary_round.
  match goal with |- context [shl_align ?p ?e ?f] => destruct (shl_align p e f) as [mz ez] end. apply (round_aux_sign false (Zpos mz)). lia.
Qed.
Lemma fadd_0_l y : fpos y -> (0 + y)%float = y.
Proof.
  intros H. apply Prim2SF_inj. rewrite add_spec. unfold SF64add. change (Prim2SF 0) with (S754_zero false). unfold fpos in H.
  destruct (Prim2SF y) as [sy|sy| |sy my ey]; cbn in H |- *; subst; auto; contradiction.
Qed.

(** ** Distances *)

Section Distances.
Context (log2 log pow2 : float -> float).
Notation N := (FN log2 log pow2).

Lemma sumF_pos l : (forall x, In x l -> fpos x) -> fpos (sumF N l).
Proof.
  intros H. unfold sumF. cbn [nadd n0 FN]. assert (H0 : fpos 0%float) by reflexivity. revert H H0. generalize 0%float. induction l as [|x t IH]; intros a Ha H0; cbn [fold_left]; [exact H0|].
  apply IH; [intros; apply Ha; right; assumption|]. apply fadd_pos; [exact H0|apply Ha; left; reflexivity].
Qed.

Lemma l1_pos x y : (forall j, 0 <= j < zlen x -> is_finite (pt N x j)) -> (forall j, 0 <= j < zlen x -> is_finite (pt N y j)) -> fpos (l1 N x y).
Proof.
  intros Hx Hy. unfold l1. apply sumF_pos. intros z Hz. apply in_map_iff in Hz as (j & <- & Hj). apply in_zrange in Hj. cbn [nabs nsub FN].
  apply fabs_pos. apply fsub_finite; [apply Hx|apply Hy]; lia.
Qed.

Lemma pt_finite x j : (forall a, In a x -> is_finite a) -> is_finite (pt N x j).
Proof.
  intros H. unfold pt, nthd. destruct (nthZ x j) as [a|] eqn:E; [apply H; eapply nthZ_In; eauto|exact I].
Qed.

Lemma distances_number ph X v l d y : (forall a, In a X -> is_finite a) -> (forall a, In a v -> is_finite a) -> In y (distances N ph false X v l d) -> fpos y.
Proof.
  intros HX Hv Hy. apply in_map_iff in Hy as (i & <- & _). cbn [seen]. apply l1_pos; intros j Hj; [|apply pt_finite; exact Hv].
  apply pt_finite. intros a Ha. apply in_map_iff in Ha as (q & <- & _). apply pt_finite. exact HX.
Qed.

Lemma mdistances_number ph n X chs vs l d y : (forall r a, In r X -> In a r -> is_finite a) -> (forall r a, In r vs -> In a r -> is_finite a) ->
  In y (mdistances N ph false n X chs vs l d) -> fpos y.
Proof.
  intros HX Hv Hy. apply in_map_iff in Hy as (i & <- & _). apply sumF_pos. intros z Hz. apply in_map_iff in Hz as ((ch & u) & <- & Hc). cbn [fst snd seen].
  apply in_combine_r in Hc. apply l1_pos; intros j Hj; [|apply pt_finite; intros b Hb; exact (Hv u b Hc Hb)].
  apply pt_finite. intros a Ha. apply in_map_iff in Ha as (q & <- & _). apply pt_finite. unfold nthd. destruct (nthZ X ch) as [r|] eqn:E; [|intros b []].
  intros b Hb. eapply HX; [eapply nthZ_In; exact E|exact Hb].
Qed.

(** a single channel *)
Lemma float_distances_mdistances ph (sr v : list float) l d : (forall a, In a sr -> is_finite a) -> (forall a, In a v -> is_finite a) ->
  distances N ph false sr v l d = mdistances N ph false (zlen sr) [sr] [0] [v] l d.
Proof.
  intros HX Hv. unfold distances, mdistances. apply map_ext_in. intros i Hi. cbn [combine map]. unfold sumF. cbn [fold_left fst snd].
  change (nthd [] [sr] 0) with sr. symmetry. apply fadd_0_l. apply (distances_number ph sr v l d); auto. apply in_map_iff. exists i. auto.
Qed.

(** a number minus itself *)
Lemma fsub_self x : is_finite x -> Prim2SF (x - x)%float = S754_zero false \/ Prim2SF (x - x)%float = S754_zero true.
Proof.
  unfold is_finite. rewrite sub_spec. unfold SF64sub. destruct (Prim2SF x) as [s|s| |s m e]; try contradiction; intros _; cbn [SFsub].
  - left. destruct s; reflexivity.
  - left. rewrite Z.sub_diag. reflexivity.
Qed.
Lemma fabs_self x : is_finite x -> PrimFloat.abs (x - x)%float = 0%float.
Proof.
  intros H. apply Prim2SF_inj. rewrite abs_spec. destruct (fsub_self x H) as [-> | ->]; reflexivity.
Qed.

Lemma l1_self x y : (forall j, 0 <= j < zlen x -> pt N x j = pt N y j /\ is_finite (pt N x j)) -> l1 N x y = 0%float.
Proof.
  intros H. unfold l1. assert (E : forall a, In a (map (fun j => nabs N (nsub N (pt N x j) (pt N y j))) (zrange 0 (zlen x))) -> a = 0%float).
  { intros a Ha. apply in_map_iff in Ha as (j & <- & Hj). apply in_zrange in Hj. destruct (H j) as [<- Hf]; [lia|]. cbn [nabs nsub FN]. apply fabs_self. exact Hf. }
  revert E. generalize (map (fun j => nabs N (nsub N (pt N x j) (pt N y j))) (zrange 0 (zlen x))). intros l. unfold sumF. cbn [nadd n0 FN].
  induction l as [|a t IH]; intros E; cbn [fold_left]; [reflexivity|]. rewrite (E a) by (left; reflexivity). change (0 + 0)%float with 0%float. apply IH. intros b Hb. apply E. right. exact Hb.
Qed.
End Distances.

(** the tests of Coq's library *)
Lemma is_number_nan x : is_number x <-> PrimFloat.is_nan x = false.
Proof.
  unfold is_number, is_nan. rewrite negb_false_iff, eqb_spec. unfold SFeqb. split; intros H.
  - pose proof (compare_key _ _ H H) as Q. destruct (SFcompare (Prim2SF x) (Prim2SF x)) as [[| |]|];
      [reflexivity|exfalso; exact (klt_irrefl _ Q)|exfalso; exact (klt_irrefl _ Q)|contradiction].
  - intros E. rewrite E in H. discriminate H.
Qed.
Lemma is_finite_prim x : is_finite x <-> PrimFloat.is_finite x = true.
Proof.
  unfold PrimFloat.is_finite. rewrite negb_true_iff, orb_false_iff, <- is_number_nan. unfold is_infinity. rewrite eqb_spec, abs_spec. change (Prim2SF infinity) with (S754_infinity false).
  unfold is_finite, is_number. destruct (Prim2SF x) as [s|s| |s m e]; cbn; intuition congruence.
Qed.
