(** Chances of the windows when the integers drawn are uniform. *)
From Coq Require Import ZArith List Bool Reals Lra Lia.
From Verif Require Import Prelude Num Kernel Spec KernelProofs RealBase GenBase WindowLaw.
Import ListNotations.
Open Scope Z_scope.

(** ** Specification *)

Definition rsum (l : list R) : R := fold_right Rplus 0%R l.

(** the mean of [f] over the integers below [n], each as likely as the others *)
Definition mean (n : Z) (f : Z -> R) : R := (rsum (map f (zrange 0 n)) / IZR n)%R.

(** [f] of the element of [l] at the integer drawn below its length *)
Definition mean_at {A} (l : list A) (f : A -> R) : R := mean (zlen l) (fun j => match nthZ l j with Some x => f x | None => 0%R end).

(** the chance that a series drawn in [firsts], then one of its starts in [ws], is window (a, t) *)
Definition chance (firsts : list Z) (ws : list (Z * Z)) (a t : Z) : R :=
  mean_at firsts (fun a' => mean_at (starts_of ws a') (fun t' => if (a' =? a) && (t' =? t) then 1%R else 0%R)).

(** ** Proofs *)

Lemma mean_at_sum {A} (l : list A) f : mean_at l f = (rsum (map f l) / IZR (zlen l))%R.
Proof.
  unfold mean_at, mean. f_equal. f_equal. apply nthZ_ext.
  - rewrite !zlen_map, zlen_zrange. pose proof (zlen_nonneg l). lia.
  - intros i Hi. rewrite zlen_map, zlen_zrange in Hi. pose proof (zlen_nonneg l). rewrite !nthZ_map, nthZ_zrange by lia. cbn [option_map]. rewrite Z.add_0_l.
    destruct (nthZ_some l i) as (x & ->); [lia|]. reflexivity.
Qed.

Lemma rsum_ext {A} (f g : A -> R) l : (forall x, In x l -> f x = g x) -> rsum (map f l) = rsum (map g l).
Proof. intros H. f_equal. apply map_ext_in. exact H. Qed.

Lemma rsum_0 {A} (f : A -> R) l : (forall x, In x l -> f x = 0%R) -> rsum (map f l) = 0%R.
Proof. induction l as [|a t IH]; intros H; [reflexivity|]. cbn. rewrite (H a (or_introl eq_refl)). unfold rsum in IH. rewrite IH; [lra|]. intros x Hx. apply H. right. exact Hx. Qed.

Lemma rsum_one {A} (f : A -> R) l x : NoDup l -> In x l -> (forall z, In z l -> z <> x -> f z = 0%R) -> rsum (map f l) = f x.
Proof.
  induction 1 as [|a t Ha H IH]; intros Hi Hz; [destruct Hi|]. cbn. change (fold_right Rplus 0%R (map f t)) with (rsum (map f t)). destruct Hi as [->|Hi].
  - rewrite rsum_0; [lra|]. intros z Hi. apply Hz; [right; exact Hi|]. intros ->. contradiction.
  - rewrite (Hz a); [|left; reflexivity|intros ->; contradiction]. rewrite IH; [lra|exact Hi|]. intros z Hi' N. apply Hz; [right; exact Hi'|exact N].
Qed.

Lemma in_starts ws a t : In t (starts_of ws a) <-> In (a, t) ws.
Proof.
  unfold starts_of. rewrite in_map_iff. split.
  - intros ([b u] & E & H). cbn in E. subst u. apply filter_In in H as [H E]. cbn in E. apply Z.eqb_eq in E. subst b. exact H.
  - intros H. exists (a, t). split; [reflexivity|]. apply filter_In. split; [exact H|]. cbn. apply Z.eqb_refl.
Qed.

Lemma starts_NoDup ws a : NoDup ws -> NoDup (starts_of ws a).
Proof.
  induction 1 as [|[b u] t Hx H IH]; [constructor|]. unfold starts_of in *. cbn [filter fst]. destruct (Z.eqb_spec b a) as [->|N]; [|exact IH]. cbn [map snd]. constructor; [|exact IH].
  intros Q. apply Hx. apply (in_starts t a u). exact Q.
Qed.

(** the second draw *)
Lemma second ws a a' t : NoDup ws -> In (a, t) ws ->
  mean_at (starts_of ws a') (fun t' => if (a' =? a) && (t' =? t) then 1%R else 0%R) = if a' =? a then (1 / IZR (zlen (starts_of ws a)))%R else 0%R.
Proof.
  intros HN HI. rewrite mean_at_sum. destruct (Z.eqb_spec a' a) as [->|N].
  - rewrite (rsum_one _ _ t); [rewrite Z.eqb_refl; reflexivity|apply starts_NoDup; exact HN|apply in_starts; exact HI|]. intros z _ Nz. destruct (Z.eqb_spec z t); [contradiction|reflexivity].
  - rewrite rsum_0; [unfold Rdiv; lra|]. reflexivity.
Qed.

Lemma rsum_count ws a c : rsum (map (fun a' => if a' =? a then c else 0%R) (map fst ws)) = (IZR (zlen (starts_of ws a)) * c)%R.
Proof.
  induction ws as [|[b u] t IH]; [cbn; lra|]. cbn [map fst]. unfold rsum in *. cbn [fold_right]. rewrite IH. unfold starts_of. cbn [filter fst]. destruct (Z.eqb_spec b a) as [->|N]; [|lra].
  cbn [map]. rewrite zlen_cons, plus_IZR. lra.
Qed.

Lemma chance_weighted ws a t : NoDup ws -> In (a, t) ws -> chance (map fst ws) ws a t = (1 / IZR (zlen ws))%R.
Proof.
  intros HN HI. unfold chance. rewrite mean_at_sum. rewrite (rsum_ext _ (fun a' => if a' =? a then (1 / IZR (zlen (starts_of ws a)))%R else 0%R)) by (intros; apply second; assumption).
  rewrite rsum_count, zlen_map. assert (0 < zlen (starts_of ws a)) by (apply in_starts in HI; apply zlen_pos in HI; exact HI). assert (0 < zlen ws) by (apply zlen_pos in HI; exact HI).
  field. split; apply IZR_neq; lia.
Qed.

Lemma chance_series ws sl a t : NoDup ws -> NoDup sl -> In a sl -> In (a, t) ws -> chance sl ws a t = (1 / (IZR (zlen sl) * IZR (zlen (starts_of ws a))))%R.
Proof.
  intros HN HS Ha HI. unfold chance. rewrite mean_at_sum. rewrite (rsum_ext _ (fun a' => if a' =? a then (1 / IZR (zlen (starts_of ws a)))%R else 0%R)) by (intros; apply second; assumption).
  rewrite (rsum_one _ _ a); [|exact HS|exact Ha|intros z _ N; destruct (Z.eqb_spec z a); [contradiction|reflexivity]]. rewrite Z.eqb_refl.
  assert (0 < zlen (starts_of ws a)) by (apply in_starts in HI; apply zlen_pos in HI; exact HI). assert (0 < zlen sl) by (apply zlen_pos in Ha; exact Ha).
  field. split; apply IZR_neq; lia.
Qed.

Lemma chance_test (os : list Z) b : NoDup os -> In b os -> mean_at os (fun b' => if b' =? b then 1%R else 0%R) = (1 / IZR (zlen os))%R.
Proof. intros HN HI. rewrite mean_at_sum, (rsum_one _ _ b); [rewrite Z.eqb_refl; reflexivity|exact HN|exact HI|]. intros z _ N. destruct (Z.eqb_spec z b); [contradiction|reflexivity]. Qed.
