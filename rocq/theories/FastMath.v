(** Fast-math: the kernels of _commons.py are compiled with fastmath=True (convst/__init__.py 8), which lets the compiler add the terms of a sum in any order and with any parentheses,
    starting from zero or not.  Model of the distances and features under this freedom, and their rounding errors (used by PropsFastMath.v). *)
From Flocq Require Import Core IEEE754.BinarySingleNaN IEEE754.PrimFloat Relative Plus_error.
From Coq Require Import ZArith List Bool Reals Lra Lia Floats Permutation.
From Verif Require Import Prelude Num Kernel Spec KernelProofs RealBase RealProofs Gen FloatLaws FloatReal FloatError.
Import ListNotations.
Open Scope Z_scope.

Section M.
Context {F : Type} (N : NumOps F).

(** [any_sum ts y]: [y] is obtained by adding the numbers [ts] in some order, with some parentheses and possibly some zeros. *)
Inductive any_sum : list F -> F -> Prop :=
| sum_none : any_sum [] (n0 N)
| sum_one t : any_sum [t] t
| sum_two a b x y : any_sum a x -> any_sum b y -> any_sum (a ++ b) (nadd N x y)
| sum_order a b y : Permutation a b -> any_sum a y -> any_sum b y.

(** the terms that _commons.py 40-44 (manhattan) and 564-566 add for the window [i]: one for each channel of the shapelet and each of its points *)
Definition terms (ph : bool) (X : list (list F)) (chs : list Z) (vs : list (list F)) (l d i : Z) : list F :=
  flat_map (fun cv : Z * list F => map (fun j => nabs N (nsub N (pt N (nthd [] X (fst cv)) (pos ph (zlen (nthd [] X (fst cv))) (i + j * d))) (pt N (snd cv) j))) (zrange 0 l)) (combine chs vs).

(** _commons.py 474-520 and 526-574 (without normalisation) under fast-math: every distance is some sum of its terms; the loop over the windows is the same *)
Definition fast_features (ph : bool) (n : Z) (X : list (list F)) (chs : list Z) (vs : list (list F)) (l d : Z) (thr : F) (f : F * F * F) : Prop :=
  exists ds, Forall2 (fun i y => any_sum (terms ph X chs vs l d i) y) (zrange 0 (nwin ph n l d)) ds /\ f = feats N ds thr.

Lemma any_sum_fold ts : forall a x, any_sum a x -> any_sum (a ++ ts) (fold_left (nadd N) ts x).
Proof.
  induction ts as [|t ts IH]; intros a x H; cbn [fold_left]; [rewrite app_nil_r; exact H|]. replace (a ++ t :: ts) with ((a ++ [t]) ++ ts) by (rewrite <- app_assoc; reflexivity).
  apply IH. apply sum_two; [exact H|apply sum_one].
Qed.
Lemma any_sum_sumF ts : any_sum ts (sumF N ts).
Proof. apply (any_sum_fold ts [] (n0 N)). apply sum_none. Qed.
Lemma any_sum_concat {A} (g : A -> list F) (h : A -> F) L : (forall c, In c L -> any_sum (g c) (h c)) -> forall a x, any_sum a x -> any_sum (a ++ flat_map g L) (fold_left (nadd N) (map h L) x).
Proof.
  induction L as [|c L IH]; intros H a x Ha; cbn [flat_map map fold_left]; [rewrite app_nil_r; exact Ha|]. rewrite app_assoc. apply IH; [intros e He; apply H; right; exact He|].
  apply sum_two; [exact Ha|apply H; left; reflexivity].
Qed.

Lemma pt_window ph (r : list F) l d i j : 0 <= j < l -> pt N (window N ph r l d i) j = pt N r (pos ph (zlen r) (i + j * d)).
Proof. intros H. unfold window. unfold pt at 1. unfold nthd. rewrite nthZ_map, nthZ_zrange by lia. reflexivity. Qed.
Lemma zlen_window ph (r : list F) l d i : 0 <= l -> zlen (window N ph r l d i) = l.
Proof. intros H. unfold window. rewrite zlen_map, zlen_zrange. lia. Qed.
Lemma l1_window ph (r v : list F) l d i : 0 <= l ->
  l1 N (window N ph r l d i) v = sumF N (map (fun j => nabs N (nsub N (pt N r (pos ph (zlen r) (i + j * d))) (pt N v j))) (zrange 0 l)).
Proof.
  intros H. unfold l1. rewrite zlen_window by exact H. f_equal. apply map_ext_in. intros j Hj. apply in_zrange in Hj. rewrite pt_window by lia. reflexivity.
Qed.

(** the order written in the code is one of them *)
Lemma mdistances_any ph n X chs vs l d : 0 <= l -> Forall2 (fun i y => any_sum (terms ph X chs vs l d i) y) (zrange 0 (nwin ph n l d)) (mdistances N ph false n X chs vs l d).
Proof.
  intros Hl. unfold mdistances. generalize (zrange 0 (nwin ph n l d)). intros is. induction is as [|i is IH]; [constructor|]. cbn [map]. constructor; [|exact IH].
  unfold terms, sumF. apply (any_sum_concat _ _ (combine chs vs)) with (a := []); [|apply sum_none]. intros (ch & v) _. cbn [fst snd seen]. rewrite l1_window by exact Hl. apply any_sum_sumF.
Qed.
End M.

(** ** Real sums *)

Lemma rsum_perm a b : Permutation a b -> rsum a = rsum b.
Proof. intros H. induction H; cbn [rsum]; lra. Qed.
Lemma rsum_concat {A} (g : A -> list R) L : rsum (flat_map g L) = rsum (map (fun c => rsum (g c)) L).
Proof. induction L as [|c L IH]; [reflexivity|]. cbn [flat_map map rsum]. rewrite rsum_app, IH. reflexivity. Qed.

Lemma mdistances_terms ph n X chs vs l d i r : 0 <= l -> nthZ (mdistances RN ph false n X chs vs l d) i = Some r -> r = rsum (terms RN ph X chs vs l d i).
Proof.
  intros Hl H. pose proof (nthZ_range _ _ _ H) as Q. unfold mdistances in *. rewrite zlen_map, zlen_zrange in Q. rewrite nthZ_map, nthZ_zrange in H by lia. cbn [option_map] in H. apply (f_equal (fun o => match o with Some v => v | None => 0%R end)) in H. cbn iota in H. rewrite <- H. clear H.
  rewrite sumF_rsum. unfold terms. rewrite rsum_concat. f_equal. apply map_ext. intros (ch & v). cbn [fst snd seen]. rewrite l1_window, sumF_rsum by exact Hl. rewrite Z.add_0_l. reflexivity.
Qed.

(** ** Rounding errors *)

Lemma any_sum_none log2 log pow2 ts y : any_sum (FN log2 log pow2) ts y -> ts = [] -> fin y /\ fr y = 0%R.
Proof.
  intros H. induction H as [|t|a b x y _ IH1 _ IH2|a b y HP _ IH]; intros E.
  - split; [exact fin_0|exact fr_0].
  - discriminate E.
  - apply app_eq_nil in E as (-> & ->). destruct (IH1 eq_refl) as (F1 & E1). destruct (IH2 eq_refl) as (F2 & E2). destruct (fr_add x y F1 F2) as (F3 & E3).
    { apply (small_Z _ 0); [lia|]. rewrite E1, E2, Rplus_0_r, Rabs_R0. lra. }
    split; [exact F3|]. cbn [nadd FN]. rewrite E3, E1, E2, Rplus_0_r. apply (rnd_Z 0). lia.
  - subst b. apply Permutation_sym, Permutation_nil in HP. apply IH, HP.
Qed.

(** terms near real numbers, each at most [b] units *)
Definition term_ok (t : float) (r : R) : Prop := near 1 t r /\ (fr t <= IZR 1 * scale)%R.

Lemma add_zero n x y r k : 0 <= k <= 2 ^ 53 -> fin x -> fr x = 0%R -> near n y r -> (fr y <= IZR k * scale)%R ->
  (fin (x + y)%float /\ fr (x + y)%float = fr y) /\ (fin (y + x)%float /\ fr (y + x)%float = fr y).
Proof.
  intros Hk Fx Ex Hy HB. pose proof (near_nonneg _ _ _ Hy) as P. destruct Hy as (Fy & _). split.
  - destruct (fr_add x y Fx Fy) as (F & E); [apply (small_mult _ k); [exact Hk|rewrite Ex, Rplus_0_l, Rabs_pos_eq; lra]|]. split; [exact F|]. rewrite E, Ex, Rplus_0_l. apply round_generic; [apply valid_rnd_N|apply format_fr].
  - destruct (fr_add y x Fy Fx) as (F & E); [apply (small_mult _ k); [exact Hk|rewrite Ex, Rplus_0_r, Rabs_pos_eq; lra]|]. split; [exact F|]. rewrite E, Ex, Rplus_0_r. apply round_generic; [apply valid_rnd_N|apply format_fr].
Qed.

Lemma any_sum_near log2 log pow2 ts y : any_sum (FN log2 log pow2) ts y -> forall rs, Forall2 term_ok ts rs -> zlen ts <= 2 ^ 53 ->
  near (Z.to_nat (Z.max 1 (zlen ts))) y (rsum rs) /\ (fr y <= IZR (zlen ts) * scale)%R.
Proof.
  intros H. induction H as [|t|a b x y H1 IH1 H2 IH2|a b y HP _ IH]; intros rs HR HM.
  - inversion HR. subst rs. change (zlen (@nil float)) with 0. cbn [rsum n0 FN]. split; [split; [exact fin_0|split; [lra|rewrite fr_0; lra]]|rewrite fr_0; lra].
  - inversion HR as [|? r ? rs' (A & B) HR' E1 E2]. subst. inversion HR'. subst. change (zlen [t]) with 1. cbn [rsum]. rewrite Rplus_0_r. split; [exact A|exact B].
  - apply Forall2_app_inv_l in HR as (ra & rb & Ha & Hb & ->). rewrite zlen_app in *. pose proof (zlen_nonneg a) as Pa. pose proof (zlen_nonneg b) as Pb.
    destruct (IH1 ra Ha ltac:(lia)) as (Na & Ba). destruct (IH2 rb Hb ltac:(lia)) as (Nb & Bb). rewrite rsum_app. cbn [nadd FN].
    destruct a as [|a0 a].
    + destruct (any_sum_none _ _ _ _ _ H1 eq_refl) as (Fx & Ex). inversion Ha. subst ra. cbn [rsum]. change (zlen (@nil float)) with 0 in *. rewrite Rplus_0_l, Z.add_0_l in *.
      destruct (add_zero _ x y _ (zlen b) ltac:(lia) Fx Ex Nb Bb) as ((Q1 & Q2) & _). destruct Nb as (_ & R1 & R2). split; [|rewrite Q2; exact Bb]. split; [exact Q1|]. split; [exact R1|]. rewrite Q2. exact R2.
    + destruct b as [|b0 b].
      * destruct (any_sum_none _ _ _ _ _ H2 eq_refl) as (Fx & Ex). inversion Hb. subst rb. cbn [rsum]. change (zlen (@nil float)) with 0 in *. rewrite Rplus_0_r, Z.add_0_r in *.
        destruct (add_zero _ y x _ (zlen (a0 :: a)) ltac:(lia) Fx Ex Na Ba) as (_ & (Q1 & Q2)). destruct Na as (_ & R1 & R2). split; [|rewrite Q2; exact Ba]. split; [exact Q1|]. split; [exact R1|]. rewrite Q2. exact R2.
      * assert (Z1 : 1 <= zlen (a0 :: a)) by (rewrite zlen_cons; pose proof (zlen_nonneg a); lia). assert (Z2 : 1 <= zlen (b0 :: b)) by (rewrite zlen_cons; pose proof (zlen_nonneg b); lia).
        set (p := zlen (a0 :: a)) in *. set (q := zlen (b0 :: b)) in *.
        destruct (add_near (Z.to_nat (p + q - 1)) x (rsum ra) y (rsum rb) (p + q) ltac:(lia)) as (A & B).
        -- apply near_mono with (2 := Na). lia.
        -- apply near_mono with (2 := Nb). lia.
        -- rewrite plus_IZR. lra.
        -- split; [|exact B]. replace (Z.to_nat (Z.max 1 (p + q))) with (S (Z.to_nat (p + q - 1))) by lia. exact A.
  - destruct (Permutation_Forall2 (Permutation_sym HP) HR) as (ra & HPr & Ha). assert (ZE : zlen a = zlen b) by (unfold zlen; rewrite (Permutation_length HP); reflexivity).
    rewrite <- ZE in *. rewrite (rsum_perm rs ra HPr). apply IH; assumption.
Qed.

(** the terms in binary64 and over the reals *)
Lemma flat_map_Forall2 {A B C} (P : B -> C -> Prop) (g : A -> list B) (h : A -> list C) L : (forall c, In c L -> Forall2 P (g c) (h c)) -> Forall2 P (flat_map g L) (flat_map h L).
Proof.
  induction L as [|c L IH]; intros H; [constructor|]. cbn [flat_map]. apply Forall2_app; [apply H; left; reflexivity|]. apply IH. intros e He. apply H. right. exact He.
Qed.
Lemma map_Forall2 {A B C} (P : B -> C -> Prop) (g : A -> B) (h : A -> C) L : (forall c, In c L -> P (g c) (h c)) -> Forall2 P (map g L) (map h L).
Proof. induction L as [|c L IH]; intros H; constructor; [apply H; left; reflexivity|]. apply IH. intros e He. apply H. right. exact He. Qed.
Lemma combine_fr (chs : list Z) (vs : list (list float)) : combine chs (map (map fr) vs) = map (fun cv => (fst cv, map fr (snd cv))) (combine chs vs).
Proof. revert vs. induction chs as [|c chs IH]; intros [|v vs]; try reflexivity. cbn [map combine fst snd]. rewrite IH. reflexivity. Qed.
Lemma flat_map_map {A B C} (g : A -> B) (h : B -> list C) L : flat_map h (map g L) = flat_map (fun a => h (g a)) L.
Proof. induction L as [|a L IH]; [reflexivity|]. cbn [map flat_map]. rewrite IH. reflexivity. Qed.
Lemma zlen_flat {A B} (g : A -> list B) L k : (forall c, In c L -> zlen (g c) = k) -> zlen (flat_map g L) = k * zlen L.
Proof. induction L as [|c L IH]; intros H; [change (zlen (@nil A)) with 0; cbn; rewrite Z.mul_0_r; reflexivity|]. cbn [flat_map]. rewrite zlen_app, zlen_cons, (H c (or_introl eq_refl)), IH by (intros e He; apply H; right; exact He). lia. Qed.

Section T.
Context (log2 log pow2 : float -> float).
Notation N := (FN log2 log pow2).

Lemma zlen_terms ph X chs vs l d i : 0 <= l -> zlen (terms N ph X chs vs l d i) = l * zlen (combine chs vs).
Proof. intros Hl. apply zlen_flat. intros c _. rewrite zlen_map, zlen_zrange. lia. Qed.

Lemma terms_Forall2 (ok : float -> Prop) (P : float -> R -> Prop) ph X chs vs l d i : ok 0%float -> (forall x y, ok x -> ok y -> P (PrimFloat.abs (x - y)) (Rabs (fr x - fr y))) ->
  (forall r a, In r X -> In a r -> ok a) -> (forall r a, In r vs -> In a r -> ok a) ->
  Forall2 P (terms N ph X chs vs l d i) (terms RN ph (map (map fr) X) chs (map (map fr) vs) l d i).
Proof.
  intros O0 HP HX Hv. unfold terms. rewrite combine_fr, flat_map_map. apply flat_map_Forall2. intros (ch & v) Hc. cbn [fst snd]. apply map_Forall2. intros j _.
  assert (EX : nthd [] (map (map fr) X) ch = map fr (nthd [] X ch)) by (unfold nthd; rewrite nthZ_map; destruct (nthZ X ch); reflexivity). rewrite EX, zlen_map, !(pt_fr log2 log pow2).
  assert (OK : forall r k, (forall a, In a r -> ok a) -> ok (pt N r k)) by (intros r k H; unfold pt, nthd; destruct (nthZ r k) as [x|] eqn:E; [apply H; apply (nthZ_In _ _ _ E)|exact O0]).
  apply HP; apply OK; intros a Ha.
  - unfold nthd in Ha. destruct (nthZ X ch) as [r|] eqn:Er; [apply (HX r); [apply (nthZ_In _ _ _ Er)|exact Ha]|destruct Ha].
  - apply (Hv v); [apply (in_combine_r chs vs ch v Hc)|exact Ha].
Qed.

Lemma bounded_0 : bounded 0%float.
Proof. split; [exact fin_0|]. rewrite fr_0, Rabs_R0. apply bpow_ge_0. Qed.

Lemma combine_zlen {A B} (a : list A) (b : list B) : zlen (combine a b) <= zlen a.
Proof. unfold zlen. rewrite combine_length. lia. Qed.

Lemma fast_near ph X chs vs l d i y : (forall r a, In r X -> In a r -> bounded a) -> (forall r a, In r vs -> In a r -> bounded a) -> 0 <= l -> l * zlen chs <= 2 ^ 53 ->
  any_sum N (terms N ph X chs vs l d i) y -> near (Z.to_nat (Z.max 1 (l * zlen chs))) y (rsum (terms RN ph (map (map fr) X) chs (map (map fr) vs) l d i)).
Proof.
  intros HX Hv Hl HM H. pose proof (combine_zlen chs vs) as ZC. pose proof (zlen_nonneg (combine chs vs)) as Z0.
  destruct (any_sum_near _ _ _ _ _ H (terms RN ph (map (map fr) X) chs (map (map fr) vs) l d i)) as (A & _).
  - apply (terms_Forall2 bounded); [exact bounded_0| |exact HX|exact Hv]. intros u v Hu Hv'. apply term_near; assumption.
  - rewrite zlen_terms by exact Hl. nia.
  - apply near_mono with (2 := A). rewrite zlen_terms by exact Hl. nia.
Qed.

(** integers are added exactly *)
Definition whole_term (b : Z) (t : float) (r : R) : Prop := fin t /\ fr t = r /\ exists z, r = IZR z /\ 0 <= z <= b.

Lemma any_sum_exact b ts y : 0 <= b -> any_sum N ts y -> forall rs, Forall2 (whole_term b) ts rs -> b * zlen ts <= 2 ^ 53 ->
  fin y /\ fr y = rsum rs /\ exists z, rsum rs = IZR z /\ 0 <= z <= b * zlen ts.
Proof.
  intros Hb H. induction H as [|t|a c x y H1 IH1 H2 IH2|a c y HP _ IH]; intros rs HR HM.
  - inversion HR. subst rs. split; [exact fin_0|]. split; [exact fr_0|]. exists 0. split; [reflexivity|change (zlen (@nil float)) with 0; lia].
  - inversion HR as [|? r ? rs' (A & B & z & C) HR' E1 E2]. subst. inversion HR'. subst. cbn [rsum]. rewrite Rplus_0_r. split; [exact A|]. split; [reflexivity|]. exists z. change (zlen [t]) with 1. rewrite Z.mul_1_r. exact C.
  - apply Forall2_app_inv_l in HR as (ra & rb & Ha & Hc & ->). rewrite zlen_app in *. pose proof (zlen_nonneg a) as Pa. pose proof (zlen_nonneg c) as Pb.
    destruct (IH1 ra Ha ltac:(nia)) as (Fx & Ex & zx & Zx & Bx). destruct (IH2 rb Hc ltac:(nia)) as (Fy & Ey & zy & Zy & By). rewrite rsum_app. cbn [nadd FN].
    assert (S1 : (fr x + fr y)%R = IZR (zx + zy)) by (rewrite Ex, Ey, Zx, Zy, plus_IZR; reflexivity). assert (B53 : zx + zy <= 2 ^ 53) by nia.
    destruct (fr_add x y Fx Fy) as [F E]; [apply (small_Z _ (zx + zy)); [exact B53|rewrite S1, <- abs_IZR, Z.abs_eq by lia; lra]|].
    split; [exact F|]. split; [rewrite E, S1, rnd_Z by lia; rewrite plus_IZR, Zx, Zy; reflexivity|]. exists (zx + zy). rewrite plus_IZR, Zx, Zy. split; [reflexivity|nia].
  - destruct (Permutation_Forall2 (Permutation_sym HP) HR) as (ra & HPr & Ha). assert (ZE : zlen a = zlen c) by (unfold zlen; rewrite (Permutation_length HP); reflexivity).
    rewrite <- ZE in *. rewrite (rsum_perm rs ra HPr). apply IH; assumption.
Qed.

Lemma fast_exact b ph X chs vs l d i y : 0 <= b -> (forall r a, In r X -> In a r -> integer b a) -> (forall r a, In r vs -> In a r -> integer b a) -> 1 <= l -> 1 <= zlen chs -> 2 * b * l * zlen chs <= 2 ^ 53 ->
  any_sum N (terms N ph X chs vs l d i) y -> fin y /\ fr y = rsum (terms RN ph (map (map fr) X) chs (map (map fr) vs) l d i).
Proof.
  intros Hb HX Hv Hl Hc HM H. pose proof (combine_zlen chs vs) as ZC. pose proof (zlen_nonneg (combine chs vs)) as Z0.
  assert (B1 : 2 * b <= 2 ^ 53). { apply Z.le_trans with (2 := HM). assert (1 <= l * zlen chs) by nia. replace (2 * b * l * zlen chs) with (2 * b * (l * zlen chs)) by ring. nia. }
  destruct (any_sum_exact (2 * b) _ _ ltac:(lia) H (terms RN ph (map (map fr) X) chs (map (map fr) vs) l d i)) as (A & B & _); [| |split; assumption].
  - apply (terms_Forall2 (integer b)); [exists 0; split; [exact fin_0|split; [exact fr_0|lia]]| |exact HX|exact Hv]. intros u v Hu Hv'. destruct (abs_sub_exact b u v B1 Hu Hv') as (P1 & P2 & P3). split; [exact P1|]. split; [exact P2|exact P3].
  - rewrite zlen_terms by lia. apply Z.le_trans with (2 := HM). replace (2 * b * l * zlen chs) with (2 * b * (l * zlen chs)) by ring. apply Z.mul_le_mono_nonneg_l; [lia|]. apply Z.mul_le_mono_nonneg_l; lia.
Qed.
End T.
