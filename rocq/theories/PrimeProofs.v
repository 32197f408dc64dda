(** Proofs about is_prime / prime_up_to. *)
From Coq Require Import ZArith Znumtheory List Bool Reals Lra Lia.
From Verif Require Import Prelude Num Kernel Spec KernelProofs RealBase.
Import ListNotations.
Open Scope Z_scope.

(** the float expression int64(sqrt(n)) is the integer square root *)
Definition SqrtLaw {F} (N : NumOps F) : Prop :=
  forall n, 0 <= n -> ntrunc N (nsqrt N (nofZ N n)) = Z.sqrt n.

Lemma R_sqrt_law : SqrtLaw RN.
Proof. intros n Hn. simpl. apply Rtrunc_sqrt. exact Hn. Qed.

Lemma in_zrange_step a b s x : 0 < s ->
  In x (zrange_step a b s) <-> exists k, 0 <= k /\ x = a + s * k /\ x < b.
Proof.
  intros Hs. unfold zrange_step. rewrite in_map_iff. split.
  - intros (k & <- & Hk). apply in_zrange in Hk. exists k. repeat split; try lia.
    assert (s * (k + 1) <= b - a + s - 1); [|lia].
    assert (k + 1 <= (b - a + s - 1) / s) by lia.
    pose proof (Z.mul_div_le (b - a + s - 1) s Hs). nia.
  - intros (k & Hk & -> & Hlt). exists k. split; [reflexivity|]. apply in_zrange. split; [lia|].
    assert (k + 1 <= (b - a + s - 1) / s); [|lia]. apply Z.div_le_lower_bound; nia.
Qed.

Section P.
Context {F : Type} (N : NumOps F) (SL : SqrtLaw N).

Lemma is_prime_spec n : 0 <= n -> is_prime N n = true <-> n = 1 \/ prime n.
Proof.
  intros Hn. unfold is_prime. rewrite SL by exact Hn.
  destruct ((n mod 2 =? 0) && (2 <? n) || (n =? 0)) eqn:E.
  - split; [discriminate|]. apply orb_true_iff in E as [E|E].
    + apply andb_true_iff in E as [E1 E2]. apply Z.eqb_eq in E1. apply Z.ltb_lt in E2.
      intros [->|Hp]; [lia|]. exfalso.
      destruct (prime_divisors n Hp 2) as [C|[C|[C|C]]]; try lia.
      apply Zmod_divide; lia.
    + apply Z.eqb_eq in E. subst. intros [C|C]; [lia|]. apply prime_ge_2 in C. lia.
  - apply orb_false_iff in E as [E1 E2]. apply Z.eqb_neq in E2.
    assert (Hodd : n <= 2 \/ n mod 2 = 1).
    { apply andb_false_iff in E1 as [E1|E1]; [apply Z.eqb_neq in E1; lia | apply Z.ltb_ge in E1; lia]. }
    rewrite forallb_forall. split.
    + intros H. destruct (Z.eq_dec n 1) as [->|H1]; [auto|right].
      destruct (Z.eq_dec n 2) as [->|H2]; [exact prime_2|].
      destruct Hodd as [C|Hodd]; [lia|].
      destruct (prime_dec n) as [Hp|Hp]; [exact Hp|exfalso].
      destruct (not_prime_divide n ltac:(lia) Hp) as (a & Ha & (b & Hb)).
      assert (Hsmall : exists i, 3 <= i /\ i mod 2 = 1 /\ i <= Z.sqrt n /\ (i | n)).
      { assert (a mod 2 = 1).
        { destruct (Z.eq_dec (a mod 2) 0) as [C|C]; [|lia]. exfalso.
          apply Zmod_divide in C; [|lia]. destruct C as (c & ->). rewrite Hb in Hodd.
          rewrite Z.mul_assoc, Z_mod_mult in Hodd. lia. }
        assert (b mod 2 = 1).
        { destruct (Z.eq_dec (b mod 2) 0) as [C|C]; [|lia]. exfalso.
          apply Zmod_divide in C; [|lia]. destruct C as (c & ->). rewrite Hb in Hodd.
          replace (c * 2 * a) with (c * a * 2) in Hodd by lia. rewrite Z_mod_mult in Hodd. lia. }
        assert (Hb1 : 1 < b) by nia.
        destruct (Z.le_ge_cases a b).
        - exists a. repeat split; try lia.
          + apply Z.sqrt_le_square; nia.
          + exists b. lia.
        - exists b. repeat split; try lia.
          + apply Z.sqrt_le_square; nia.
          + exists a. lia. }
      destruct Hsmall as (i & Hi3 & Hiodd & His & Hid).
      assert (Hin : In i (zrange_step 3 (Z.sqrt n + 1) 2)).
      { apply in_zrange_step; [lia|]. exists ((i - 3) / 2). lia. }
      specialize (H i Hin). apply negb_true_iff, Z.eqb_neq in H. apply H.
      apply Zdivide_mod. exact Hid.
    + intros [->|Hp] i Hi; apply in_zrange_step in Hi as (k & Hk & -> & Hlt); try lia.
      * change (Z.sqrt 1) with 1 in Hlt. lia.
      * apply negb_true_iff, Z.eqb_neq. intros C. apply Zmod_divide in C; [|lia].
        pose proof (prime_ge_2 n Hp).
        destruct (prime_divisors n Hp _ C) as [G|[G|[G|G]]]; try lia.
        pose proof (Z.sqrt_lt_lin n). destruct (Z.eq_dec n 1); [lia|].
        specialize (H0 ltac:(lia)). lia.
Qed.

Lemma incr_zrange a b : incr (zrange a b).
Proof.
  assert (L : forall n a b, b - a <= Z.of_nat n -> incr (zrange a b)).
  { induction n as [|n IH]; intros a' b' H.
    - rewrite zrange_empty by lia. exact I.
    - destruct (Z.lt_ge_cases a' b').
      + rewrite zrange_cons by assumption. simpl. split; [|apply IH; lia].
        intros y Hy. apply in_zrange in Hy. lia.
      + rewrite zrange_empty by lia. exact I. }
  apply (L (Z.to_nat (b - a))). lia.
Qed.

Lemma prime_up_to_spec n : -1 <= n -> exists l, prime_up_to N n = Ok l /\ incr l /\
  forall p, In p l <-> 1 <= p <= n /\ (p = 1 \/ prime p).
Proof.
  intros Hn. unfold prime_up_to. destruct (Z.leb_spec 0 (n + 1)); [|lia]. simpl.
  eexists. split; [reflexivity|].
  split.
  - rewrite (where_sorted_filter 0). apply incr_filter. apply incr_zrange.
  - intros p. rewrite in_where, nthZ_map. split.
    + intros Hp. destruct (nthZ (zrange 0 (n + 1)) p) as [q|] eqn:E; simpl in Hp; [|discriminate].
      pose proof (nthZ_range _ _ _ E) as Hr. rewrite zlen_zrange in Hr.
      rewrite nthZ_zrange in E by lia. injection E as <-. injection Hp as Hp.
      apply is_prime_spec in Hp; [|lia]. simpl in Hp. split; [|exact Hp].
      destruct Hp as [->|Hp]; [lia|]. apply prime_ge_2 in Hp. lia.
    + intros [Hr Hp]. rewrite nthZ_zrange by lia. simpl. f_equal. apply is_prime_spec; [lia|exact Hp].
Qed.
End P.
