(** Properties C81, C82 and C83: what a fit makes of the random numbers it consumes.  [ints rng b m s] are the first [m]
    integers below [b] drawn from state [s], [draws rng m s] the first [m] numbers of [0, 1), each with the state after. *)
From Coq Require Import ZArith Znumtheory String List Bool Reals Lra Lia Permutation.
From Verif Require Import Prelude Num Kernel Spec KernelProofs RealBase PrimeProofs ChoiceProofs Apply ApplyProofs ApplyUni ApplyMulti TransformProofs TransformLaws
  Gen GenSched GenBase GenUni GenDraw GenSpec GenUFinal GenUTop GenULaws GenUCase GenMulti GenMSpec GenMFinal GenMTop GenMLaws GenMCase Checks ChecksProofs Estimator EstimatorNum EstimatorLaws EstimatorCases
  EndToEnd DrawLaws DrawFit PrimeLaw PermLaws OrderLaws WindowLaw MWindowLaw ChanceLaws.
Import ListNotations.
Open Scope Z_scope.

(** ** C81.  The parameters of the shapelets *)

(** the dilation that draw [u] gives to a shapelet of length [l] on series of [m] points: with k = (m-1)/(l-1), dilation
    [e] takes the interval [log_k e, log_k (e+1)) *)
Definition dilation_drawn (m l : Z) (u : R) (d : Z) : Prop :=
  let k := (m - 1) / (l - 1) in
  if k =? 1 then d = 1 else forall e, 1 <= e -> (d = e <-> (ln (IZR e) / ln (IZR k) <= u < ln (IZR (e + 1)) / ln (IZR k))%R).

Lemma dil_of_drawn m l u : 2 <= l <= m -> (0 <= u < 1)%R -> dilation_drawn m l u (dil_of m l u).
Proof.
  intros H Hu. unfold dilation_drawn. fold (dmax m l). destruct (Z.eqb_spec (dmax m l) 1) as [E|E].
  - destruct (dil_below m l u H Hu) as [Q|Q]; [exact Q|]. pose proof (uniform_dilation m l u H Hu) as [Q1 _]. fold (dil_of m l u) in Q1. lia.
  - intros e He. pose proof (dmax_pos m l H). apply dil_law; [exact H|lia|exact He].
Qed.

Theorem C81_univariate : forall S (rng : Rng R S) P c T,
  RngLaws RN rng -> tr_ok c -> lengths_ok P (tr_points c) -> g_prime P = false -> GenULaws.fitted RN rng P c T ->
  exists js s1 us s2 ws s3 hs W,
    (* the numbers the seeded generator produces, in this order *)
    ints rng (zlen (g_sizes P)) (Z.to_nat (g_n P)) (r_seed rng (g_seed P)) = (js, s1) /\
    draws rng (Z.to_nat (g_n P)) s1 = (us, s2) /\ draws rng (Z.to_nat (g_n P)) s2 = (ws, s3) /\
    (* the requests of the fit, of which [T] is the result *)
    account (g_phase P) (g_alpha P) (g_pmin P) (g_pmax P) (g_prime P) (g_sizes P) (tr_points c) (g_n P) (tr_samples c) (tr_series c) (tr_labels c) hs /\
    returned (tr_series c) P W hs T /\
    forall i q, nthZ hs i = Some q -> exists j u w, nthZ js i = Some j /\ nthZ us i = Some u /\ nthZ ws i = Some w /\
      nthZ (g_sizes P) j = Some (q_len q) /\ dilation_drawn (tr_points c) (q_len q) u (q_dil q) /\ (q_norm q = true <-> (w < g_pnorm P)%R).
Proof.
  intros S rng P c T L HO HL Hpr HF. destruct (fitted_sound rng L P c T HO HL HF) as (values & dr & th & s' & hs & W & Hi & HA & M1 & M2 & M3 & _ & HR).
  rewrite Hpr in Hi. apply U_init_parts in Hi as (s1 & s2 & C1 & C2 & C3).
  destruct (params_draws rng L _ _ _ _ _ _ _ _ _ _ _ _ C1 C2 C3) as (E1 & E2 & E3 & Z1 & Z2 & Z3 & Hn & Hz & HD).
  destruct (ints rng (zlen (g_sizes P)) (Z.to_nat (g_n P)) (r_seed rng (g_seed P))) as [js sa] eqn:Ej. cbn [fst snd] in *. subst sa.
  destruct (draws rng (Z.to_nat (g_n P)) s1) as [us sb] eqn:Eu. cbn [fst snd] in *. subst sb.
  destruct (draws rng (Z.to_nat (g_n P)) s2) as [ws sc] eqn:Ew. cbn [fst snd] in *.
  exists js, s1, us, s2, ws, sc, hs, W. split; [reflexivity|]. split; [exact Eu|]. split; [exact Ew|]. split; [exact HA|]. split; [exact HR|].
  intros i q Hq. pose proof (nthZ_range _ _ _ Hq) as Ri. rewrite (ac_n _ _ _ _ _ _ _ _ _ _ _ _ HA) in Ri.
  assert (ZJ : zlen js = g_n P). { pose proof (ints_length rng (zlen (g_sizes P)) (Z.to_nat (g_n P)) (r_seed rng (g_seed P))) as Q. rewrite Ej in Q. cbn [fst] in Q. unfold zlen. lia. }
  assert (ZU : zlen us = g_n P). { pose proof (draws_length rng (Z.to_nat (g_n P)) s1) as Q. rewrite Eu in Q. cbn [fst] in Q. unfold zlen. lia. }
  assert (ZW : zlen ws = g_n P). { pose proof (draws_length rng (Z.to_nat (g_n P)) s2) as Q. rewrite Ew in Q. cbn [fst] in Q. unfold zlen. lia. }
  destruct (nthZ_some js i ltac:(lia)) as (j & Hj). destruct (nthZ_some us i ltac:(lia)) as (u & Hu). destruct (nthZ_some ws i ltac:(lia)) as (w & Hw).
  exists j, u, w. split; [exact Hj|]. split; [exact Hu|]. split; [exact Hw|].
  destruct (HD i j u w (q_len q) (q_dil q) (q_norm q) Hj Hu Hw) as ((D1 & D2 & D3) & _ & RU & _).
  - rewrite <- M1, nthZ_map, Hq. reflexivity.
  - rewrite <- M2, nthZ_map, Hq. reflexivity.
  - rewrite <- M3, nthZ_map, Hq. reflexivity.
  - split; [exact D1|]. split; [rewrite D2; apply dil_of_drawn; [apply HL; eapply nthZ_In; eauto|exact RU]|]. rewrite D3. apply Rltb_true.
Qed.
Print Assumptions C81_univariate.

Theorem C81_multivariate : forall S (rng : Rng R S) P mc c T,
  RngLaws RN rng -> mt_ok c -> lengths_ok P (mt_points c) -> g_prime P = false -> mfitted RN rng P mc c T ->
  exists js s1 us s2 cs s3 ws s4 hs,
    ints rng (zlen (g_sizes P)) (Z.to_nat (g_n P)) (r_seed rng (g_seed P)) = (js, s1) /\
    draws rng (Z.to_nat (g_n P)) s1 = (us, s2) /\ ints rng mc (Z.to_nat (g_n P)) s2 = (cs, s3) /\ draws rng (Z.to_nat (g_n P)) s3 = (ws, s4) /\
    maccount (g_phase P) (g_alpha P) (g_pmin P) (g_pmax P) (g_prime P) (g_sizes P) (mt_points c) (g_n P) mc (mt_nf c) (mt_samples c) (mt_series c) (mt_len c) (mt_labels c) hs /\
    mreturned (mt_series c) P hs T /\
    forall i q, nthZ hs i = Some q -> exists j u c1 w, nthZ js i = Some j /\ nthZ us i = Some u /\ nthZ cs i = Some c1 /\ nthZ ws i = Some w /\
      nthZ (g_sizes P) j = Some (mq_len q) /\ dilation_drawn (mt_points c) (mq_len q) u (mq_dil q) /\ zlen (mq_chs q) = 1 + c1 /\
      (mq_norm q = true <-> (w < g_pnorm P)%R).
Proof.
  intros S rng P mc c T L HO HL Hpr HF. destruct (mfitted_sound rng L P mc c T HO HL HF) as (values & dr & th & nch & chan & s' & hs & Hi & HA & M1 & M2 & M3 & M4 & HR).
  rewrite Hpr in Hi. apply M_init_parts in Hi as (s1 & s2 & s3 & ch & C1 & C2 & C4 & Ech & C3).
  destruct (params_draws rng L _ _ _ _ _ _ _ _ _ _ _ _ C1 C2 C3) as (E1 & E2 & E3 & Z1 & Z2 & Z3 & Hn & Hz & HD).
  apply (choice_n_ints rng RN L) in C4 as (_ & Hmc & E4 & F4). rewrite zlen_zrange in Hmc, E4, F4. replace (Z.max 0 (mc - 0)) with mc in * by lia.
  destruct (ints rng (zlen (g_sizes P)) (Z.to_nat (g_n P)) (r_seed rng (g_seed P))) as [js sa] eqn:Ej. cbn [fst snd] in *. subst sa.
  destruct (draws rng (Z.to_nat (g_n P)) s1) as [us sb] eqn:Eu. cbn [fst snd] in *. subst sb.
  destruct (ints rng mc (Z.to_nat (g_n P)) s2) as [cs sd] eqn:Ec. cbn [fst snd] in *. subst sd.
  destruct (draws rng (Z.to_nat (g_n P)) s3) as [ws sc] eqn:Ew. cbn [fst snd] in *.
  exists js, s1, us, s2, cs, s3, ws, sc, hs. split; [reflexivity|]. split; [exact Eu|]. split; [exact Ec|]. split; [exact Ew|]. split; [exact HA|]. split; [exact HR|].
  intros i q Hq. pose proof (nthZ_range _ _ _ Hq) as Ri. rewrite (mac_n _ _ _ _ _ _ _ _ _ _ _ _ _ _ _ HA) in Ri.
  assert (ZJ : zlen js = g_n P). { pose proof (ints_length rng (zlen (g_sizes P)) (Z.to_nat (g_n P)) (r_seed rng (g_seed P))) as Q. rewrite Ej in Q. cbn [fst] in Q. unfold zlen. lia. }
  assert (ZU : zlen us = g_n P). { pose proof (draws_length rng (Z.to_nat (g_n P)) s1) as Q. rewrite Eu in Q. cbn [fst] in Q. unfold zlen. lia. }
  assert (ZC : zlen cs = g_n P). { pose proof (ints_length rng mc (Z.to_nat (g_n P)) s2) as Q. rewrite Ec in Q. cbn [fst] in Q. unfold zlen. lia. }
  assert (ZW : zlen ws = g_n P). { pose proof (draws_length rng (Z.to_nat (g_n P)) s3) as Q. rewrite Ew in Q. cbn [fst] in Q. unfold zlen. lia. }
  destruct (nthZ_some js i ltac:(lia)) as (j & Hj). destruct (nthZ_some us i ltac:(lia)) as (u & Hu). destruct (nthZ_some ws i ltac:(lia)) as (w & Hw).
  destruct (nthZ_some cs i ltac:(lia)) as (c1 & Hc1).
  exists j, u, c1, w. split; [exact Hj|]. split; [exact Hu|]. split; [exact Hc1|]. split; [exact Hw|].
  destruct (HD i j u w (mq_len q) (mq_dil q) (mq_norm q) Hj Hu Hw) as ((D1 & D2 & D3) & _ & RU & _).
  - rewrite <- M1, nthZ_map, Hq. reflexivity.
  - rewrite <- M2, nthZ_map, Hq. reflexivity.
  - rewrite <- M3, nthZ_map, Hq. reflexivity.
  - split; [exact D1|]. split; [rewrite D2; apply dil_of_drawn; [apply HL; eapply nthZ_In; eauto|exact RU]|]. split; [|rewrite D3; apply Rltb_true].
    assert (Q : nthZ nch i = Some (zlen (mq_chs q))) by (rewrite <- M4, nthZ_map, Hq; reflexivity). rewrite Ech, nthZ_map in Q. destruct (nthZ ch i) as [z|] eqn:Ez; [|discriminate].
    pose proof (Forall2_nth _ _ _ _ _ _ F4 Hc1 Ez) as Q2. cbn beta in Q2.
    assert (Rc : 0 <= c1 < mc). { pose proof (nthZ_range _ _ _ Q2) as Q3. rewrite zlen_zrange in Q3. lia. }
    rewrite nthZ_zrange in Q2 by lia. cbn [option_map] in Q. assert (z = c1) by (assert (0 + c1 = z) by congruence; lia). assert (z + 1 = zlen (mq_chs q)) by congruence. lia.
Qed.
Print Assumptions C81_multivariate.

(** the prime scheme: the candidates are 1 and the primes up to (m-1)/(l-1) in increasing order ([candidates]); with one
    candidate nothing is drawn, otherwise one number [u] is, and the candidate of rank [j] takes the interval
    ]W j / W n, W (j+1) / W n] where W j is the sum of 2^(-ln i) for i from 1 to j ([in_slot], [prime_drawn]) *)
Theorem C81_primes_univariate : forall S (rng : Rng R S) P c T,
  RngLaws RN rng -> tr_ok c -> lengths_ok P (tr_points c) -> g_prime P = true -> GenULaws.fitted RN rng P c T ->
  exists js s1 s2 ws s3 hs W,
    ints rng (zlen (g_sizes P)) (Z.to_nat (g_n P)) (r_seed rng (g_seed P)) = (js, s1) /\
    primes_drawn rng (tr_points c) (map q_len hs) s1 (map q_dil hs) s2 /\ draws rng (Z.to_nat (g_n P)) s2 = (ws, s3) /\
    account (g_phase P) (g_alpha P) (g_pmin P) (g_pmax P) (g_prime P) (g_sizes P) (tr_points c) (g_n P) (tr_samples c) (tr_series c) (tr_labels c) hs /\
    returned (tr_series c) P W hs T /\
    forall i q, nthZ hs i = Some q -> exists j w, nthZ js i = Some j /\ nthZ ws i = Some w /\
      nthZ (g_sizes P) j = Some (q_len q) /\ (q_norm q = true <-> (w < g_pnorm P)%R).
Proof.
  intros S rng P c T L HO HL Hpr HF. destruct (fitted_sound rng L P c T HO HL HF) as (values & dr & th & s' & hs & W & Hi & HA & M1 & M2 & M3 & _ & HR).
  rewrite Hpr in Hi. apply U_init_parts in Hi as (s1 & s2 & C1 & C2 & C3).
  assert (HI : forall l, In l (dr_len dr) -> 2 <= l <= tr_points c). { intros l Hl. apply choice_n_inv in C1 as (_ & _ & CF). rewrite Forall_forall in CF. apply HL, CF, Hl. }
  apply (draw_primes rng L) in C2; [|exact HI]. apply (choice_n_ints rng RN L) in C1 as (Hn & Hz & E1 & F1). apply draw_norm_draws in C3 as [E3 F3].
  destruct (ints rng (zlen (g_sizes P)) (Z.to_nat (g_n P)) (r_seed rng (g_seed P))) as [js sa] eqn:Ej. cbn [fst snd] in *. subst sa.
  destruct (draws rng (Z.to_nat (g_n P)) s2) as [ws sc] eqn:Ew. cbn [fst snd] in *.
  exists js, s1, s2, ws, sc, hs, W. rewrite M1, M2. split; [reflexivity|]. split; [exact C2|]. split; [exact Ew|]. split; [exact HA|]. split; [exact HR|].
  intros i q Hq. pose proof (nthZ_range _ _ _ Hq) as Ri. rewrite (ac_n _ _ _ _ _ _ _ _ _ _ _ _ HA) in Ri.
  assert (ZJ : zlen js = g_n P). { pose proof (ints_length rng (zlen (g_sizes P)) (Z.to_nat (g_n P)) (r_seed rng (g_seed P))) as Q. rewrite Ej in Q. cbn [fst] in Q. unfold zlen. lia. }
  assert (ZW : zlen ws = g_n P). { pose proof (draws_length rng (Z.to_nat (g_n P)) s2) as Q. rewrite Ew in Q. cbn [fst] in Q. unfold zlen. lia. }
  destruct (nthZ_some js i ltac:(lia)) as (j & Hj). destruct (nthZ_some ws i ltac:(lia)) as (w & Hw).
  exists j, w. split; [exact Hj|]. split; [exact Hw|]. split.
  - refine (Forall2_nth _ _ _ _ _ _ F1 Hj _). rewrite <- M1, nthZ_map, Hq. reflexivity.
  - assert (Q : nthZ (dr_norm dr) i = Some (q_norm q)) by (rewrite <- M3, nthZ_map, Hq; reflexivity). rewrite (Forall2_nth _ _ _ _ _ _ F3 Hw Q). apply Rltb_true.
Qed.
Print Assumptions C81_primes_univariate.

Theorem C81_primes_multivariate : forall S (rng : Rng R S) P mc c T,
  RngLaws RN rng -> mt_ok c -> lengths_ok P (mt_points c) -> g_prime P = true -> mfitted RN rng P mc c T ->
  exists js s1 s2 cs s3 ws s4 hs,
    ints rng (zlen (g_sizes P)) (Z.to_nat (g_n P)) (r_seed rng (g_seed P)) = (js, s1) /\
    primes_drawn rng (mt_points c) (map mq_len hs) s1 (map mq_dil hs) s2 /\ ints rng mc (Z.to_nat (g_n P)) s2 = (cs, s3) /\ draws rng (Z.to_nat (g_n P)) s3 = (ws, s4) /\
    maccount (g_phase P) (g_alpha P) (g_pmin P) (g_pmax P) (g_prime P) (g_sizes P) (mt_points c) (g_n P) mc (mt_nf c) (mt_samples c) (mt_series c) (mt_len c) (mt_labels c) hs /\
    mreturned (mt_series c) P hs T /\
    forall i q, nthZ hs i = Some q -> exists j c1 w, nthZ js i = Some j /\ nthZ cs i = Some c1 /\ nthZ ws i = Some w /\
      nthZ (g_sizes P) j = Some (mq_len q) /\ zlen (mq_chs q) = 1 + c1 /\ (mq_norm q = true <-> (w < g_pnorm P)%R).
Proof.
  intros S rng P mc c T L HO HL Hpr HF. destruct (mfitted_sound rng L P mc c T HO HL HF) as (values & dr & th & nch & chan & s' & hs & Hi & HA & M1 & M2 & M3 & M4 & HR).
  rewrite Hpr in Hi. apply M_init_parts in Hi as (s1 & s2 & s3 & ch & C1 & C2 & C4 & Ech & C3).
  assert (HI : forall l, In l (dr_len dr) -> 2 <= l <= mt_points c). { intros l Hl. apply choice_n_inv in C1 as (_ & _ & CF). rewrite Forall_forall in CF. apply HL, CF, Hl. }
  apply (draw_primes rng L) in C2; [|exact HI]. apply (choice_n_ints rng RN L) in C1 as (Hn & Hz & E1 & F1). apply draw_norm_draws in C3 as [E3 F3].
  apply (choice_n_ints rng RN L) in C4 as (_ & Hmc & E4 & F4). rewrite zlen_zrange in Hmc, E4, F4. replace (Z.max 0 (mc - 0)) with mc in * by lia.
  destruct (ints rng (zlen (g_sizes P)) (Z.to_nat (g_n P)) (r_seed rng (g_seed P))) as [js sa] eqn:Ej. cbn [fst snd] in *. subst sa.
  destruct (ints rng mc (Z.to_nat (g_n P)) s2) as [cs sd] eqn:Ec. cbn [fst snd] in *. subst sd.
  destruct (draws rng (Z.to_nat (g_n P)) s3) as [ws sc] eqn:Ew. cbn [fst snd] in *.
  exists js, s1, s2, cs, s3, ws, sc, hs. rewrite M1, M2. split; [reflexivity|]. split; [exact C2|]. split; [exact Ec|]. split; [exact Ew|]. split; [exact HA|]. split; [exact HR|].
  intros i q Hq. pose proof (nthZ_range _ _ _ Hq) as Ri. rewrite (mac_n _ _ _ _ _ _ _ _ _ _ _ _ _ _ _ HA) in Ri.
  assert (ZJ : zlen js = g_n P). { pose proof (ints_length rng (zlen (g_sizes P)) (Z.to_nat (g_n P)) (r_seed rng (g_seed P))) as Q. rewrite Ej in Q. cbn [fst] in Q. unfold zlen. lia. }
  assert (ZC : zlen cs = g_n P). { pose proof (ints_length rng mc (Z.to_nat (g_n P)) s2) as Q. rewrite Ec in Q. cbn [fst] in Q. unfold zlen. lia. }
  assert (ZW : zlen ws = g_n P). { pose proof (draws_length rng (Z.to_nat (g_n P)) s3) as Q. rewrite Ew in Q. cbn [fst] in Q. unfold zlen. lia. }
  destruct (nthZ_some js i ltac:(lia)) as (j & Hj). destruct (nthZ_some ws i ltac:(lia)) as (w & Hw). destruct (nthZ_some cs i ltac:(lia)) as (c1 & Hc1).
  exists j, c1, w. split; [exact Hj|]. split; [exact Hc1|]. split; [exact Hw|]. split; [|split].
  - refine (Forall2_nth _ _ _ _ _ _ F1 Hj _). rewrite <- M1, nthZ_map, Hq. reflexivity.
  - assert (Q : nthZ nch i = Some (zlen (mq_chs q))) by (rewrite <- M4, nthZ_map, Hq; reflexivity). rewrite Ech, nthZ_map in Q. destruct (nthZ ch i) as [z|] eqn:Ez; [|discriminate].
    pose proof (Forall2_nth _ _ _ _ _ _ F4 Hc1 Ez) as Q2. cbn beta in Q2.
    assert (Rc : 0 <= c1 < mc). { pose proof (nthZ_range _ _ _ Q2) as Q3. rewrite zlen_zrange in Q3. lia. }
    rewrite nthZ_zrange in Q2 by lia. cbn [option_map] in Q. assert (z = c1) by (assert (0 + c1 = z) by congruence; lia). assert (z + 1 = zlen (mq_chs q)) by congruence. lia.
  - assert (Q : nthZ (dr_norm dr) i = Some (mq_norm q)) by (rewrite <- M3, nthZ_map, Hq; reflexivity). rewrite (Forall2_nth _ _ _ _ _ _ F3 Hw Q). apply Rltb_true.
Qed.
Print Assumptions C81_primes_multivariate.

(** length 2 on 5 points: 1, 2 and 3 are drawn from; [crng] in state 0 gives the number 0, in state 9 the number 9/10.
    The fits of C82_fitted and C82_mfitted below are in the prime scheme. *)
Example C81_primes_case : candidates (dmax 5 2) [1; 2; 3] /\ prime_drawn crng 5 2 0 1 1 /\ prime_drawn crng 5 2 9 3 10 /\ prime_drawn crng 5 4 9 1 9 /\
  g_prime casePv = true /\ g_prime caseMP = true.
Proof.
  assert (CA : candidates (dmax 5 2) [1; 2; 3]).
  { split; [cbn; intuition lia|]. intros p. change (dmax 5 2) with 4. split.
    - intros [<-|[<-|[<-|[]]]]; (split; [lia|]); auto using prime_2, prime_3.
    - intros [H Hp]. assert (C : p = 1 \/ p = 2 \/ p = 3 \/ p = 4) by lia. destruct C as [->|[->|[->| ->]]]; cbn; auto. exfalso. destruct Hp as [Hp|Hp]; [discriminate|].
      apply prime_alt in Hp as [_ Hp]. apply (Hp 2); [lia|]. exists 2. reflexivity. }
  assert (W : forall i, (0 < weight i)%R) by apply weight_pos.
  assert (C3 : cumw 3 = (weight 1 + (weight 2 + (weight 3 + 0)))%R) by reflexivity. assert (C2 : cumw 2 = (weight 1 + (weight 2 + 0))%R) by reflexivity.
  assert (C1 : cumw 1 = (weight 1 + 0)%R) by reflexivity. pose proof (W 1) as W1. pose proof (W 2) as W2. pose proof (W 3) as W3.
  split; [exact CA|]. split; [|split; [|split]].
  - exists [1; 2; 3]. split; [exact CA|]. cbn [zlen length Z.eqb]. exists 0. split; [reflexivity|]. split; [reflexivity|]. cbn. split; [lia|]. split; [|left; reflexivity].
    change (0 + 1) with 1. unfold zlen. cbn [length Z.of_nat Pos.of_succ_nat Pos.succ]. rewrite C1, C3. change (0 mod 10) with 0. unfold Rdiv at 1. rewrite Rmult_0_l. left. apply Rmult_lt_0_compat; [lra|]. apply Rinv_0_lt_compat. lra.
  - exists [1; 2; 3]. split; [exact CA|]. cbn [zlen length Z.eqb]. exists 2. split; [reflexivity|]. split; [reflexivity|]. cbn [crng r_unif fst snd]. unfold in_slot. change (2 + 1) with 3. split; [cbn; lia|].
    change (zlen [1; 2; 3]) with 3. change (9 mod 10) with 9. split; [rewrite C3; unfold Rdiv; rewrite Rinv_r by lra; lra|right].
    assert (P2 : (0 < ln 2)%R) by (rewrite <- ln_1; apply ln_increasing; lra).
    assert (E1 : weight 1 = 1%R) by (unfold weight; rewrite ln_1, Rmult_0_l, exp_0; lra).
    assert (E2 : (weight 2 < 1)%R). { unfold weight. rewrite <- Rinv_1. apply Rinv_lt_contravar; [rewrite Rmult_1_l; apply exp_pos|]. rewrite <- exp_0. apply exp_increasing. apply Rmult_lt_0_compat; assumption. }
    assert (L3 : (ln 3 < 2)%R). { rewrite <- (ln_exp 2). apply ln_increasing; [lra|]. pose proof (exp_ineq1 2 ltac:(lra)). lra. }
    assert (E3 : (1/4 < weight 3)%R). { unfold weight. replace (1/4)%R with (/ 4)%R by lra. assert (E4 : exp (2 * ln 2) = 4%R) by (replace (2 * ln 2)%R with (ln 2 + ln 2)%R by lra; rewrite exp_plus, exp_ln by lra; lra).
      apply Rinv_lt_contravar; [apply Rmult_lt_0_compat; [apply exp_pos|lra]|]. rewrite <- E4. apply exp_increasing. apply Rmult_lt_compat_r; assumption. }
    rewrite C2, C3, E1. apply (Rmult_lt_reg_r (1 + (weight 2 + (weight 3 + 0)))); [lra|]. unfold Rdiv. rewrite Rmult_assoc, Rinv_l by lra. lra.
  - exists [1]. split; [|split; reflexivity]. split; [cbn; intuition lia|]. intros p. change (dmax 5 4) with 1. split; [intros [<-|[]]; split; [lia|auto]|intros [H _]; left; lia].
  - split; reflexivity.
Qed.

(** the largest dilation that fits, (m-1)/(l-1), is never the one of a shapelet unless it is 1: the next one fits too *)
Theorem C81_largest_dilation_never_drawn : forall S (rng : Rng R S) RS (V : pyenv RS) ex X y s h s' h' n nf cols v vl,
  RngLaws RN rng -> real_executor ex -> passes X n nf cols v vl ->
  1 <= n -> 1 <= nf -> zlen y = n -> e_n_samples s = VNone -> (forall k, e_type s = TKind k -> kind_vl k = vl) ->
  (forall i, 0 <= i < n -> 4 <= cols i) -> (vl = true -> forall m, e_min_len s = Some m -> 4 <= m /\ forall i, 0 <= i < n -> m <= cols i) ->
  e_prime s = false -> fit RN rng V ex X y s h = (Ok tt, s', h') ->
  exists f m, e_shapelets s' = Some f /\ e_min_len s' = Some m /\
    forall j chs vs l d thr nm, shapelet_of f j chs vs l d thr nm -> d = 1 \/ (l - 1) * (d + 1) <= m - 1.
Proof.
  intros S rng RS V ex X y s h s' h' n nf cols v vl L HE HX Hn Hf Hy Hns Hty H4 Hml Hpr H.
  destruct (fit_below rng L V ex X y s h s' h' n nf cols v vl HE HX Hn Hf Hy Hns Hty H4 Hml Hpr H) as (f & m & A & B & HD).
  exists f, m. split; [exact A|]. split; [exact B|]. intros j chs vs l d thr nm Hj. destruct (HD _ _ _ _ _ _ _ Hj) as [Q|Q]; [left; exact Q|right].
  destruct (fit_sound rng V ex X y s h s' h' n nf cols v vl L HE HX Hn Hf Hy Hns Hty H4 Hml H) as (k & f' & m' & [F1 F2 F3 F4 F5 F6 F7 F8 F9 F10 F11 F12 (pmin & pmax & F13 & F14)]).
  assert (f' = f) by congruence. subst f'. destruct (F14 _ _ _ _ _ _ _ Hj) as [(F15 & _) _].
  unfold dmax in Q. assert (d + 1 <= (m - 1) / (l - 1)) by lia. assert (0 < l - 1) by lia. pose proof (Z.mul_div_le (m - 1) (l - 1) ltac:(lia)). nia.
Qed.
Print Assumptions C81_largest_dilation_never_drawn.

(** length 2 on 5 points, k = 4: dilation 1 has half of the draws, dilation 4 fits but has none *)
Example C81_case : dilation_drawn 5 2 (1/2) 2 /\ (forall u d, (0 <= u < 1/2)%R -> dilation_drawn 5 2 u d -> d = 1) /\
  (forall u d, (0 <= u < 1)%R -> dilation_drawn 5 2 u d -> d <> 4) /\ (2 - 1) * 4 <= 5 - 1.
Proof.
  assert (E4 : ln 4 = (2 * ln 2)%R). { replace 4%R with (2 * 2)%R by lra. rewrite ln_mult by lra. lra. }
  assert (P2 : (0 < ln 2)%R) by (rewrite <- ln_1; apply ln_increasing; lra).
  assert (P3 : (ln 2 < ln 3)%R) by (apply ln_increasing; lra).
  split; [|split; [|split; [|lia]]].
  - assert (E : dil_of 5 2 (1/2) = 2); [|pose proof (dil_of_drawn 5 2 (1/2) ltac:(lia) ltac:(lra)) as Q; rewrite E in Q; exact Q]. apply dil_law; [lia|vm_compute; discriminate|lia|]. change (IZR (dmax 5 2)) with 4%R. change (IZR (2 + 1)) with 3%R. rewrite E4.
    split; [right; field; lra|]. apply (Rmult_lt_reg_r (2 * ln 2)); [lra|]. unfold Rdiv. rewrite (Rmult_assoc (ln 3)), Rinv_l by lra. lra.
  - intros u d Hu H. unfold dilation_drawn in H. cbn [Z.eqb] in H. apply (H 1 ltac:(lia)). change ((5 - 1) / (2 - 1)) with 4. change (1 + 1) with 2. rewrite E4, ln_1. split; [unfold Rdiv; lra|].
    replace (ln 2 / (2 * ln 2))%R with (1/2)%R by (field; lra). lra.
  - intros u d Hu H E. unfold dilation_drawn in H. cbn [Z.eqb] in H. apply (H 4 ltac:(lia)) in E. change ((5 - 1) / (2 - 1)) with 4 in E. unfold Rdiv in E. rewrite Rinv_r in E by lra. lra.
Qed.

(** the hypotheses are met by the training set of [caseTr] *)
Example C81_fitted : exists T, GenULaws.fitted RN crng caseP caseTr T /\ RngLaws RN crng /\ tr_ok caseTr /\ lengths_ok caseP (tr_points caseTr) /\ g_prime caseP = false.
Proof.
  destruct caseTr_ok as (A & B & (D1 & D2)).
  destruct (SL_total crng crng_laws [[[1; 2]]; [[3; 5]]]%R [0; 0] 2 caseP A B D1 D2 (fun _ => 0) seq_sched seq_sched_scheduler ltac:(discriminate) ltac:(cbn; lia)) as (T & HT).
  exists T. split; [|split; [exact crng_laws|split; [exact A|split; [exact B|reflexivity]]]]. exact (fitted_SL_par RN crng caseP (fun _ => 0) seq_sched _ _ T seq_sched_scheduler HT).
Qed.

(** ** C82.  Where a shapelet is taken *)

(** [drawn_at rng l s x s']: [x] is the element of [l] at the integer drawn below its length; [drawn_window], [drawn_test],
    [drawn_thr] and [origin_law]: WindowLaw.v *)
Theorem C82_univariate : forall S (rng : Rng R S) P c T,
  RngLaws RN rng -> tr_ok c -> lengths_ok P (tr_points c) -> GenULaws.fitted RN rng P c T ->
  exists hs W,
    account (g_phase P) (g_alpha P) (g_pmin P) (g_pmax P) (g_prime P) (g_sizes P) (tr_points c) (g_n P) (tr_samples c) (tr_series c) (tr_labels c) hs /\
    returned (tr_series c) P W hs T /\
    (* each request that is sampled, from the state [s0] its thread has when it comes to it *)
    forall i q o, nthZ hs i = Some q -> q_origin q = Some o -> exists s0 ws s1 s2,
      (* the windows that are free *)
      NoDup ws /\ (forall a t, In (a, t) ws <-> free_start (g_phase P) (g_alpha P) (tr_samples c) (tr_series c) hs i a t) /\
      (* the series is drawn with one chance per window, or per series with variable lengths; then one of its windows *)
      drawn_window rng (match c with TrSL _ _ => true | TrVL _ _ _ _ => false end) ws s0 (o_series o) (o_start o) s1 /\
      (* another series of the class *)
      drawn_test rng (tr_samples c) (tr_labels c) (o_series o) s1 (o_test o) s2 /\
      (* the threshold *)
      forall v, q_values (g_phase P) (tr_series c) q = Some v ->
        drawn_thr rng (g_pmin P) (g_pmax P) (distances RN (g_phase P) (q_norm q) (tr_series c (o_test o)) v (q_len q) (q_dil q)) s2 (o_thr o).
Proof.
  intros S rng P c T L HO HL HF. destruct HF as [X y T H|rs sched X y T HS H|X X_len y ml T H|rs sched X X_len y ml T HS H]; cbn [tr_points tr_samples tr_series tr_labels tr_ok] in *.
  - apply U_SL_seq_par in H as (rs & H). destruct (SL_windows rng L X y (n_timestamps X) P HO HL rs seq_sched T seq_sched_scheduler H) as (hs & W & A & _ & B & D). exists hs, W. split; [exact A|]. split; [exact B|].
    intros i q o Hq Ho. exists (rs i). exact (D i q o Hq Ho).
  - destruct (SL_windows rng L X y (n_timestamps X) P HO HL rs sched T HS H) as (hs & W & A & _ & B & D). exists hs, W. split; [exact A|]. split; [exact B|].
    intros i q o Hq Ho. exists (rs i). exact (D i q o Hq Ho).
  - apply U_VL_seq_par in H as (rs & H). destruct (VL_windows rng L X X_len y ml P HO HL rs seq_sched T seq_sched_scheduler H) as (hs & W & A & _ & B & D). exists hs, W. split; [exact A|]. split; [exact B|].
    intros i q o Hq Ho. exists (rs i). exact (D i q o Hq Ho).
  - destruct (VL_windows rng L X X_len y ml P HO HL rs sched T HS H) as (hs & W & A & _ & B & D). exists hs, W. split; [exact A|]. split; [exact B|].
    intros i q o Hq Ho. exists (rs i). exact (D i q o Hq Ho).
Qed.
Print Assumptions C82_univariate.

(** Several channels: the channels of the request, then a window that is free for them.  [mdrawn]: MWindowLaw.v *)
Theorem C82_multivariate : forall S (rng : Rng R S) P mc c T,
  RngLaws RN rng -> mt_ok c -> lengths_ok P (mt_points c) -> mfitted RN rng P mc c T ->
  exists hs,
    maccount (g_phase P) (g_alpha P) (g_pmin P) (g_pmax P) (g_prime P) (g_sizes P) (mt_points c) (g_n P) mc (mt_nf c) (mt_samples c) (mt_series c) (mt_len c) (mt_labels c) hs /\
    mreturned (mt_series c) P hs T /\
    forall i q o, nthZ hs i = Some q -> mq_origin q = Some o -> exists s0 s1 ws s2,
      drawn_channels rng (mt_nf c) (zlen (mq_chs q)) s0 (mq_chs q) s1 /\
      NoDup ws /\ (forall a t, In (a, t) ws <-> mfree_start (g_phase P) (g_alpha P) (mt_samples c) (mt_len c) hs i a t) /\
      mdrawn rng (match c with TrMSL _ _ => true | TrMVL _ _ _ _ => false end) (mt_samples c) (mt_labels c) ws s1 (o_series o) (o_start o) (o_test o) s2 /\
      forall vs, mq_values (g_phase P) (mt_series c) q = Some vs ->
        drawn_thr rng (g_pmin P) (g_pmax P) (mdistances RN (g_phase P) (mq_norm q) (mt_len c (o_test o)) (mt_series c (o_test o)) (mq_chs q) vs (mq_len q) (mq_dil q)) s2 (o_thr o).
Proof.
  intros S rng P mc c T L HO HL HF. destruct HF as [X y T H|rs sched X y T HS H|X X_len y ml T H|rs sched X X_len y ml T HS H];
    unfold mt_samples, mt_nf, mt_series, mt_len; cbn [mt_points mt_ok mt_data mt_labels] in *.
  - apply M_SL_seq_par in H as (rs & H). destruct (MSL_windows rng L X y _ (n_timestamps X) mc P HO HL rs seq_sched T seq_sched_scheduler H) as (hs & A & B & D). exists hs. split; [exact A|]. split; [exact B|].
    intros i q o Hq Ho. exists (rs i). exact (D i q o Hq Ho).
  - destruct (MSL_windows rng L X y _ (n_timestamps X) mc P HO HL rs sched T HS H) as (hs & A & B & D). exists hs. split; [exact A|]. split; [exact B|].
    intros i q o Hq Ho. exists (rs i). exact (D i q o Hq Ho).
  - apply M_VL_seq_par in H as (rs & H). destruct (MVL_windows rng L X X_len y _ ml mc P HO HL rs seq_sched T seq_sched_scheduler H) as (hs & A & B & D). exists hs. split; [exact A|]. split; [exact B|].
    intros i q o Hq Ho. exists (rs i). exact (D i q o Hq Ho).
  - destruct (MVL_windows rng L X X_len y _ ml mc P HO HL rs sched T HS H) as (hs & A & B & D). exists hs. split; [exact A|]. split; [exact B|].
    intros i q o Hq Ho. exists (rs i). exact (D i q o Hq Ho).
Qed.
Print Assumptions C82_multivariate.

(** Series of one length: all free windows of all series have the same chance. *)
Theorem C82_same_length_uniform : forall ws a t, NoDup ws -> In (a, t) ws -> chance (map fst ws) ws a t = (1 / IZR (zlen ws))%R.
Proof. exact chance_weighted. Qed.
Print Assumptions C82_same_length_uniform.

(** Variable lengths: all series with a free window have the same chance, however few windows they have. *)
Theorem C82_variable_length_chance : forall ws sl a t, NoDup ws -> NoDup sl -> (forall x, In x sl <-> exists u, In (x, u) ws) -> In (a, t) ws ->
  chance sl ws a t = (1 / (IZR (zlen sl) * IZR (zlen (starts_of ws a))))%R.
Proof. intros ws sl a t H1 H2 H3 H4. apply chance_series; try assumption. apply H3. exists t. exact H4. Qed.
Print Assumptions C82_variable_length_chance.

(** so that the windows do not have the same chance as soon as two series differ in their numbers of free windows *)
Theorem C82_variable_length_uniform_refuted : forall ws sl a t a' t', NoDup ws -> NoDup sl -> (forall x, In x sl <-> exists u, In (x, u) ws) ->
  In (a, t) ws -> In (a', t') ws -> zlen (starts_of ws a) < zlen (starts_of ws a') -> (chance sl ws a' t' < chance sl ws a t)%R.
Proof.
  intros ws sl a t a' t' H1 H2 H3 H4 H5 H6. rewrite !(C82_variable_length_chance ws sl) by assumption.
  assert (P1 : 0 < zlen (starts_of ws a)) by (apply in_starts in H4; apply zlen_pos in H4; exact H4).
  assert (P2 : 0 < zlen sl) by (assert (Q : In a sl) by (apply H3; eauto); apply zlen_pos in Q; exact Q).
  apply IZR_lt in P1, P2, H6. apply Rmult_lt_compat_l; [lra|]. apply Rinv_lt_contravar; [|apply Rmult_lt_compat_l; lra].
  apply Rmult_lt_0_compat; apply Rmult_lt_0_compat; lra.
Qed.
Print Assumptions C82_variable_length_uniform_refuted.

(** The series the threshold is computed on: all other series of the class have the same chance. *)
Theorem C82_test_uniform : forall os b, NoDup os -> In b os -> mean_at os (fun b' => if b' =? b then 1%R else 0%R) = (1 / IZR (zlen os))%R.
Proof. exact chance_test. Qed.
Print Assumptions C82_test_uniform.

(** Two series with 3 and 1 free windows: a chance of 1/4 for each window with one length; 1/6 and 1/2 with variable lengths. *)
Example C82_case : let ws := [(0, 0); (0, 1); (0, 2); (1, 0)] in
  chance (map fst ws) ws 0 1 = (1/4)%R /\ chance (map fst ws) ws 1 0 = (1/4)%R /\ chance [0; 1] ws 0 1 = (1/6)%R /\ chance [0; 1] ws 1 0 = (1/2)%R.
Proof.
  cbv zeta. assert (D : NoDup [(0, 0); (0, 1); (0, 2); (1, 0)]) by (repeat constructor; cbn; intuition discriminate).
  assert (D2 : NoDup [0; 1]) by (repeat constructor; cbn; intuition discriminate).
  rewrite !chance_weighted by (assumption || (cbn; tauto)). rewrite !chance_series by (assumption || (cbn; tauto)). cbn. repeat split; lra.
Qed.

Example C82_fitted : exists T, GenULaws.fitted RN crng casePv caseTv T /\ RngLaws RN crng /\ tr_ok caseTv /\ lengths_ok casePv (tr_points caseTv).
Proof.
  destruct caseTv_ok as (A & B & (D1 & D2)).
  destruct (VL_total crng crng_laws [[[1; 2; 4; 1; 9]]; [[3; 5; 1; 9; 9]]; [[0; 1; 0; 2; 6]]]%R [4; 3; 5] [0; 1; 0] 3 casePv A B D1 D2 (fun _ => 0) seq_sched seq_sched_scheduler ltac:(discriminate) ltac:(cbn; lia)) as (T & HT).
  exists T. split; [|split; [exact crng_laws|split; [exact A|exact B]]]. exact (fitted_VL_par RN crng casePv (fun _ => 0) seq_sched _ _ _ _ T seq_sched_scheduler HT).
Qed.

Example C82_mfitted : exists T, mfitted RN crng caseMP 2 caseMr T /\ RngLaws RN crng /\ mt_ok caseMr /\ lengths_ok caseMP (mt_points caseMr).
Proof.
  destruct caseMr_ok as (A & B & (D1 & D2) & E).
  destruct (MSL_total crng crng_laws _ _ _ _ 2 caseMP A B D1 D2 (proj2 E) (fun _ => 0) seq_sched seq_sched_scheduler ltac:(discriminate) ltac:(cbn; lia) (proj1 E)) as (T & HT).
  exists T. split; [|split; [exact crng_laws|split; [exact A|exact B]]]. exact (mfitted_SL_par RN crng caseMP 2 (fun _ => 0) seq_sched _ _ T seq_sched_scheduler HT).
Qed.

(** ** C83.  The channels of a multivariate shapelet *)

(** [sequences m]: all lists of m integers, below m + 1, then below m, ... then below 2; [counted rng m s]: those drawn
    from [s].  [drawn_channels rng nf k s chs s']: [chs] are the first [k] channels of [ordering nf js] for the integers
    [js] drawn from [s].  [ways nf chs]: the number of sequences for which the first channels are [chs]. *)
Theorem C83_channels : forall S (rng : Rng R S) P mc c T,
  RngLaws RN rng -> mt_ok c -> lengths_ok P (mt_points c) -> mfitted RN rng P mc c T ->
  exists hs, mreturned (mt_series c) P hs T /\
    forall i q o, nthZ hs i = Some q -> mq_origin q = Some o -> exists s0 js s1,
      counted rng (Z.to_nat (mt_nf c - 1)) s0 = (js, s1) /\ In js (sequences (Z.to_nat (mt_nf c - 1))) /\
      Permutation (zrange 0 (mt_nf c)) (ordering (mt_nf c) js) /\ mq_chs q = slice (ordering (mt_nf c) js) 0 (zlen (mq_chs q)).
Proof.
  intros S rng P mc c T L HO HL HF. destruct (C82_multivariate S rng P mc c T L HO HL HF) as (hs & _ & B & D). exists hs. split; [exact B|]. intros i q o Hq Ho.
  destruct (D i q o Hq Ho) as (s0 & s1 & ws & s2 & (js & p & C1 & C2 & C3 & C4 & C5 & _) & _). exists s0, js, s1. split; [exact C1|]. split; [apply in_sequences; exact C2|].
  rewrite (ordering_run _ _ _ C3). auto.
Qed.
Print Assumptions C83_channels.

(** Every ordering comes from exactly one sequence. *)
Theorem C83_orderings : forall nf p, 1 <= nf -> Permutation (zrange 0 nf) p ->
  exists js, In js (sequences (Z.to_nat (nf - 1))) /\ ordering nf js = p /\ forall js', In js' (sequences (Z.to_nat (nf - 1))) -> ordering nf js' = p -> js' = js.
Proof.
  intros nf p Hf HP. assert (LZ : length (zrange 0 nf) = Z.to_nat nf) by (pose proof (zlen_zrange 0 nf); unfold zlen in *; lia).
  destruct (orderings_ex (zrange 0 nf) p) as (js & [A B] & U); [intros Q; rewrite Q in LZ; cbn in LZ; lia|apply zrange_NoDup|exact HP|].
  replace (length (zrange 0 nf) - 1)%nat with (Z.to_nat (nf - 1)) in * by lia. exists js. split; [apply in_sequences; exact A|]. split; [apply ordering_run; exact B|].
  intros js' H1 H2. apply in_sequences in H1. apply U; [exact H1|]. destruct (perm_runs nf js' Hf H1) as (p' & Q & _). rewrite (ordering_run _ _ _ Q) in H2. congruence.
Qed.
Print Assumptions C83_orderings.

(** All choices of the same number of channels come from the same number of sequences. *)
Theorem C83_uniform : forall nf chs chs', 1 <= nf -> NoDup chs -> (forall c, In c chs -> 0 <= c < nf) -> NoDup chs' -> (forall c, In c chs' -> 0 <= c < nf) ->
  zlen chs = zlen chs' -> ways nf chs = ways nf chs'.
Proof. exact ways_eq. Qed.
Print Assumptions C83_uniform.

(** three channels, integers 0 (below 3) then 1 (below 2): ordering 2, 1, 0; the six choices of two channels *)
Example C83_case : sequences 2 = [[0; 0]; [0; 1]; [1; 0]; [1; 1]; [2; 0]; [2; 1]] /\ ordering 3 [0; 1] = [2; 1; 0] /\ ordering 3 [0; 0] = [1; 2; 0] /\
  choice_norep crng (zrange 0 3) 2 4 = Ok ([0; 2], 6) /\ map (ways 3) [[0; 1]; [0; 2]; [1; 0]; [1; 2]; [2; 0]; [2; 1]; [0]; [1]; [2]] = [1; 1; 1; 1; 1; 1; 2; 2; 2].
Proof. repeat split; reflexivity. Qed.
