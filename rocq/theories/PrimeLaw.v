(** The dilations drawn in the prime scheme, as functions of the random numbers consumed. *)
From Coq Require Import ZArith Znumtheory String List Bool Reals Lra Lia.
From Verif Require Import Prelude Num Kernel Spec RealBase PrimeProofs ChoiceProofs Gen GenSched GenBase GenUni GenDraw DrawLaws.
Import ListNotations.
Open Scope Z_scope.

(** the dilations among which one is drawn: 1 and the primes, up to [k], in increasing order *)
Definition candidates (k : Z) (cs : list Z) : Prop := incr cs /\ forall p, In p cs <-> 1 <= p <= k /\ (p = 1 \/ prime p).

Section P.
Context {S : Type} (rng : Rng R S) (L : RngLaws RN rng).

(** one dilation for a shapelet of length [l]: with a single candidate no number is consumed *)
Definition prime_drawn (m l : Z) (s : S) (d : Z) (s' : S) : Prop :=
  exists cs, candidates (dmax m l) cs /\
    if zlen cs =? 1 then nthZ cs 0 = Some d /\ s' = s
    else exists j, s' = snd (r_unif rng s) /\ nthZ cs j = Some d /\ in_slot (zlen cs) (fst (r_unif rng s)) j.

(** one dilation after the other *)
Fixpoint primes_drawn (m : Z) (ls : list Z) (s : S) (ds : list Z) (s' : S) : Prop :=
  match ls, ds with
  | [], [] => s' = s
  | l :: ls, d :: ds => exists s1, prime_drawn m l s d s1 /\ primes_drawn m ls s1 ds s'
  | _, _ => False
  end.

Lemma incr_candidates n ps k : incr ps -> (forall p, In p ps <-> 1 <= p <= n /\ (p = 1 \/ prime p)) -> k <= n -> candidates k (filter (fun p => p <=? k) ps).
Proof.
  intros HI HP Hk. split; [apply incr_filter; exact HI|]. intros p. rewrite filter_In, HP, Z.leb_le. split; intros; intuition lia.
Qed.

Lemma draw_primes n n_ts lengths s dils s' : (forall l, In l lengths -> 2 <= l <= n_ts) -> draw_dilations RN rng n n_ts lengths true s = Ok (dils, s') ->
  primes_drawn n_ts lengths s dils s'.
Proof.
  intros HL H. unfold draw_dilations in H. destruct (fmax_list RN (map (upper_bound RN n_ts) lengths)) as [mx|] eqn:Em; [|discriminate].
  destruct (fmax_spec _ _ Em) as [M1 M2]. apply in_map_iff in M1 as (l0 & El0 & Hl0). rewrite (liftG_ok _ _ _ mx eq_refl) in H.
  assert (Et : ntrunc RN (npow2 RN mx) = dmax n_ts l0) by (rewrite <- El0; apply trunc_ub; apply HL; exact Hl0).
  rewrite Et in H. pose proof (dmax_pos n_ts l0 (HL l0 Hl0)) as Hd0.
  destruct (prime_up_to_spec RN R_sqrt_law (dmax n_ts l0) ltac:(lia)) as (ps & Ep & HI & Hps). rewrite (liftG_ok _ _ _ ps Ep) in H.
  assert (HM : forall l, In l lengths -> dmax n_ts l <= dmax n_ts l0).
  { intros l Hl. pose proof (M2 (upper_bound RN n_ts l) (in_map _ _ _ Hl)) as Q. rewrite <- El0 in Q. pose proof (dmax_pos n_ts l (HL l Hl)) as Hd. unfold upper_bound in Q. fold (dmax n_ts l) in Q. fold (dmax n_ts l0) in Q.
    cbn in Q. unfold Rlog2 in Q. destruct (Z.le_gt_cases (dmax n_ts l) (dmax n_ts l0)) as [G|G]; [exact G|exfalso]. apply IZR_lt in G.
    assert (0 < ln 2)%R by (rewrite <- ln_1; apply ln_increasing; lra). assert (0 < IZR (dmax n_ts l0))%R by (apply IZR_lt; lia). pose proof (ln_increasing _ _ H1 G) as G2.
    apply Rmult_lt_compat_r with (r := (/ ln 2)%R) in G2; [|apply Rinv_0_lt_compat; assumption]. unfold Rdiv in Q. lra. }
  clear M2 Em Et El0 Hl0 Ep mx. revert s dils H. induction lengths as [|l ls IH]; intros s dils H.
  - cbn in H. unfold retG in H. inversion H; subst. reflexivity.
  - cbn [map mapG] in H. apply bindG_inv in H as (d & s1 & H1 & H). apply bindG_inv in H as (ds & s2 & H2 & H). unfold retG in H. assert (E : dils = d :: ds /\ s' = s2) by (split; congruence). destruct E as [-> ->].
    cbn [primes_drawn]. exists s1. assert (Hl : 2 <= l <= n_ts) by (apply HL; left; reflexivity). split; [|apply IH; [intros; apply HL; right; assumption|intros; apply HM; right; assumption|exact H2]].
    rewrite trunc_ub in H1 by exact Hl. set (sp := filter (fun p => p <=? dmax n_ts l) ps) in *.
    assert (HC : candidates (dmax n_ts l) sp) by (apply (incr_candidates (dmax n_ts l0)); [exact HI|exact Hps|apply HM; left; reflexivity]).
    assert (P1 : 1 <= zlen sp). { assert (In 1 sp) as Q by (apply HC; split; [pose proof (dmax_pos n_ts l Hl); lia|auto]). apply zlen_pos in Q. lia. }
    exists sp. split; [exact HC|]. destruct (choice_log_R rng (zlen sp) 1 s ltac:(lia) (RngLaws_R rng L)) as [C1 C2].
    destruct (Z.eqb_spec (zlen sp) 1) as [E1|E1].
    + unfold bindG at 1 in H1. rewrite C1 in H1 by lia. cbn [bind fst snd] in H1. rewrite (liftG_ok (get _ 0) _ _ 0) in H1 by reflexivity. unfold liftG in H1.
      destruct (get_ok sp 0 ltac:(lia)) as (d' & G1 & G2). rewrite G1 in H1. inversion H1; subst. auto.
    + destruct (C2 ltac:(lia)) as (ks & E2 & F2). change (Z.to_nat 1) with 1%nat in *. cbn [draws] in E2, F2. destruct (r_unif rng s) as [u s3]. cbn [fst snd] in *.
      inversion F2 as [|? k ? ks' [Hk Hs] F3]; subst. inversion F3; subst. unfold bindG at 1 in H1. rewrite E2 in H1. cbn [bind fst snd] in H1. rewrite (liftG_ok (get [k] 0) _ _ k eq_refl) in H1. unfold liftG in H1.
      destruct (get_ok sp k Hk) as (d' & G1 & G2). rewrite G1 in H1. inversion H1; subst. exists k. split; [reflexivity|]. split; [exact G2|split; [exact Hk|exact Hs]].
Qed.
End P.
