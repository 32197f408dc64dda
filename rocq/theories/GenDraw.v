(** Random draws of the parameters and percentiles, over the exact reals. *)
From Coq Require Import ZArith Znumtheory List Bool Reals Lra Lia Permutation Sorted.
From Verif Require Import Prelude Num Kernel Spec KernelProofs RealBase PrimeProofs ChoiceProofs Gen GenSched GenBase GenUni.
Import ListNotations.
Open Scope Z_scope.

Lemma RngLaws_R {S} (rng : Rng R S) : RngLaws RN rng -> forall s, (0 <= fst (r_unif rng s) < 1)%R.
Proof.
  intros L s. destruct (rl_unif L s) as [H1 H2]. cbn [nleb nltb n0 n1 RN] in *. apply Rleb_true in H1. apply Rltb_true in H2. lra.
Qed.

(** ** Dilations *)

Lemma ln2_pos : (0 < ln 2)%R.
Proof. rewrite <- ln_1. apply ln_increasing; lra. Qed.

Lemma pow2_log2 q : (0 < q)%R -> Rpow2 (Rlog2 q) = q.
Proof.
  intros H. unfold Rpow2, Rlog2. pose proof ln2_pos. replace (ln q / ln 2 * ln 2)%R with (ln q) by (field; lra). apply exp_ln. exact H.
Qed.

Lemma log2_nonneg q : (1 <= q)%R -> (0 <= Rlog2 q)%R.
Proof.
  intros H. unfold Rlog2. pose proof ln2_pos. apply Rmult_le_pos; [|left; apply Rinv_0_lt_compat; assumption].
  destruct (Rle_lt_or_eq_dec _ _ H) as [H1|<-]; [|rewrite ln_1; lra]. left. rewrite <- ln_1. apply ln_increasing; lra.
Qed.

Lemma pow2_le x y : (x <= y)%R -> (Rpow2 x <= Rpow2 y)%R.
Proof.
  intros H. unfold Rpow2. pose proof ln2_pos. destruct (Rle_lt_or_eq_dec _ _ H) as [H1| ->]; [|lra]. left. apply exp_increasing. nra.
Qed.

Lemma pow2_0 : Rpow2 0 = 1%R.
Proof. unfold Rpow2. rewrite Rmult_0_l. apply exp_0. Qed.

Lemma log2_le a b : (0 < a)%R -> (a <= b)%R -> (Rlog2 a <= Rlog2 b)%R.
Proof.
  intros Ha H. unfold Rlog2. pose proof ln2_pos. apply Rmult_le_compat_r; [left; apply Rinv_0_lt_compat; assumption|].
  destruct (Rle_lt_or_eq_dec _ _ H) as [H1| ->]; [|lra]. left. apply ln_increasing; lra.
Qed.

(** largest dilation allowed for a length *)
Definition dmax (n_ts l : Z) : Z := (n_ts - 1) / (l - 1).

Lemma dmax_pos n_ts l : 2 <= l <= n_ts -> 1 <= dmax n_ts l.
Proof. intros H. unfold dmax. apply Z.div_le_lower_bound; lia. Qed.

Lemma dmax_fits n_ts l d : 2 <= l -> d <= dmax n_ts l -> (l - 1) * d <= n_ts - 1.
Proof. intros H Hd. unfold dmax in Hd. pose proof (Z.mul_div_le (n_ts - 1) (l - 1) ltac:(lia)). nia. Qed.

Lemma ub_pow n_ts l : 2 <= l <= n_ts -> Rpow2 (upper_bound RN n_ts l) = IZR (dmax n_ts l).
Proof. intros H. unfold upper_bound. cbn [nlog2 nofZ RN]. apply pow2_log2. apply IZR_lt. pose proof (dmax_pos n_ts l H). unfold dmax in *. lia. Qed.

Lemma ub_nonneg n_ts l : 2 <= l <= n_ts -> (0 <= upper_bound RN n_ts l)%R.
Proof. intros H. apply log2_nonneg. apply IZR_le. apply (dmax_pos n_ts l H). Qed.

Lemma trunc_ub n_ts l : 2 <= l <= n_ts -> ntrunc RN (npow2 RN (upper_bound RN n_ts l)) = dmax n_ts l.
Proof.
  intros H. cbn [ntrunc npow2 RN]. rewrite ub_pow by exact H. rewrite Rtrunc_nonneg; [apply Rfloor_IZR|].
  apply IZR_le. pose proof (dmax_pos n_ts l H). lia.
Qed.

Lemma uniform_dilation n_ts l u : 2 <= l <= n_ts -> (0 <= u < 1)%R ->
  1 <= Rfloor (Rpow2 (0 + (upper_bound RN n_ts l - 0) * u)) <= dmax n_ts l.
Proof.
  intros H Hu. pose proof (ub_nonneg n_ts l H) as Hub. set (ub := upper_bound RN n_ts l) in *.
  replace (0 + (ub - 0) * u)%R with (ub * u)%R by ring. split.
  - rewrite <- (Rfloor_IZR 1). apply Rfloor_le. rewrite <- pow2_0. apply pow2_le. nra.
  - rewrite <- (Rfloor_IZR (dmax n_ts l)). apply Rfloor_le. rewrite <- ub_pow by exact H. apply pow2_le. fold ub. nra.
Qed.

Lemma fmax_spec (l : list R) m : fmax_list RN l = Ok m -> In m l /\ forall x, In x l -> (x <= m)%R.
Proof.
  destruct l as [|x t]; [discriminate|]. cbn [fmax_list]. intros H. assert (E : fold_left (fun a b => if nltb RN a b then b else a) t x = m) by congruence.
  clear H. revert x E. cbn [nltb RN]. induction t as [|y t IH]; intros x E; cbn [fold_left] in E.
  - subst. split; [left; reflexivity|]. intros z [->|[]]. lra.
  - destruct (Rltb x y) eqn:C; [apply Rltb_true in C|apply Rltb_false in C]; destruct (IH _ E) as [H1 H2].
    + split; [right; exact H1|]. intros z [->|Hz]; [|apply H2; exact Hz]. specialize (H2 y (or_introl eq_refl)). lra.
    + split; [destruct H1 as [H1|H1]; [left|right; right]; assumption|]. intros z [->|[->|Hz]].
      * apply H2. left. reflexivity.
      * specialize (H2 x (or_introl eq_refl)). lra.
      * apply H2. right. exact Hz.
Qed.

(** What a drawn dilation satisfies. *)
Definition dil_ok (prime_scheme : bool) (n_ts l d : Z) : Prop :=
  1 <= d /\ (l - 1) * d <= n_ts - 1 /\ (prime_scheme = true -> d = 1 \/ prime d).

Lemma mapG_total_Q {S A B} (f : A -> G S B) (Q : A -> B -> Prop) l : (forall x s, In x l -> exists y s', f x s = Ok (y, s') /\ Q x y) ->
  forall s, exists ys s', mapG f l s = Ok (ys, s') /\ Forall2 Q l ys.
Proof.
  induction l as [|x t IH]; intros H s; cbn [mapG].
  - exists [], s. split; [reflexivity|constructor].
  - destruct (H x s (or_introl eq_refl)) as (y & s1 & E1 & Q1). unfold bindG at 1. rewrite E1. cbn [bind fst snd].
    destruct (IH (fun x s Hx => H x s (or_intror Hx)) s1) as (ys & s2 & E2 & Q2). unfold bindG. rewrite E2. cbn [bind fst snd]. unfold retG.
    exists (y :: ys), s2. split; [reflexivity|]. constructor; assumption.
Qed.

Lemma Forall2_map_l {A B C} (f : A -> B) (Q : B -> C -> Prop) l ys : Forall2 Q (map f l) ys -> Forall2 (fun x y => Q (f x) y) l ys.
Proof.
  revert ys. induction l as [|x t IH]; intros ys H; cbn [map] in H; inversion H; subst; constructor; auto.
Qed.

Section D.
Context {S : Type} (rng : Rng R S) (L : RngLaws RN rng).

Lemma draw_dilations_ok n n_ts lengths prime_scheme s : (forall l, In l lengths -> 2 <= l <= n_ts) -> (prime_scheme = true -> lengths <> []) ->
  exists dils s', draw_dilations RN rng n n_ts lengths prime_scheme s = Ok (dils, s') /\ Forall2 (dil_ok prime_scheme n_ts) lengths dils.
Proof.
  intros HL Hne. unfold draw_dilations. destruct prime_scheme.
  - specialize (Hne eq_refl). destruct (fmax_list RN (map (upper_bound RN n_ts) lengths)) as [mx|] eqn:Em; [|destruct lengths; [congruence|discriminate]].
    destruct (fmax_spec _ _ Em) as [M1 M2]. apply in_map_iff in M1 as (l0 & El0 & Hl0). rewrite (liftG_ok _ _ _ mx eq_refl).
    assert (Et : ntrunc RN (npow2 RN mx) = dmax n_ts l0) by (rewrite <- El0; apply trunc_ub; apply HL; exact Hl0).
    rewrite Et. pose proof (dmax_pos n_ts l0 (HL l0 Hl0)) as Hd0.
    destruct (prime_up_to_spec RN R_sqrt_law (dmax n_ts l0) ltac:(lia)) as (ps & Ep & _ & Hps). rewrite (liftG_ok _ _ _ ps Ep).
    destruct (mapG_total_Q (fun ub => let! c := choice_log RN rng (zlen (filter (fun p => p <=? ntrunc RN (npow2 RN ub)) ps)) 1 in
        let! k := liftG (get c 0) in liftG (get (filter (fun p => p <=? ntrunc RN (npow2 RN ub)) ps) k))
        (fun ub d => In d ps /\ d <= ntrunc RN (npow2 RN ub)) (map (upper_bound RN n_ts) lengths)) with (s := s) as (dils & s' & E & Q).
    + intros ub s0 Hub. apply in_map_iff in Hub as (l & <- & Hl). rewrite trunc_ub by (apply HL; exact Hl).
      pose proof (dmax_pos n_ts l (HL l Hl)) as Hd.
      set (sp := filter (fun p => p <=? dmax n_ts l) ps).
      assert (H1 : In 1 sp). { apply filter_In. split; [apply Hps; split; [lia|left; reflexivity]|apply Z.leb_le; lia]. }
      destruct (choice_log_R rng (zlen sp) 1 s0 ltac:(lia) (RngLaws_R rng L)) as [C1 C2].
      assert (HC : exists k s1, choice_log RN rng (zlen sp) 1 s0 = Ok ([k], s1) /\ 0 <= k < zlen sp).
      { destruct (Z_le_gt_dec (zlen sp) 1).
        - exists 0, s0. split; [apply C1; assumption|]. apply zlen_pos in H1. lia.
        - destruct (C2 ltac:(lia)) as (ks & E2 & F2). change (Z.to_nat 1) with 1%nat in *. cbn [draws] in F2. destruct (r_unif rng s0) as [u s1]. cbn [fst] in F2.
          inversion F2 as [|? k ? ks' [Hk _] F3]; subst. inversion F3; subst. eexists k, _. split; [exact E2|exact Hk]. }
      destruct HC as (k & s1 & E1 & Hk). unfold bindG at 1. rewrite E1. cbn [bind fst snd].
      rewrite (liftG_ok (get [k] 0) _ _ k eq_refl). destruct (get_ok sp k Hk) as (d & Hd1 & Hd2). exists d, s1. unfold liftG. rewrite Hd1. split; [reflexivity|].
      apply nthZ_In in Hd2. apply filter_In in Hd2 as [Hd2 Hd3]. apply Z.leb_le in Hd3. auto.
    + exists dils, s'. split; [exact E|]. apply Forall2_map_l in Q. clear E. revert HL Q. clear - Hps. intros HL Q. induction Q as [|l d ls ds [Q1 Q2] Q IH]; constructor.
      * assert (Hl : 2 <= l <= n_ts) by (apply HL; left; reflexivity). rewrite trunc_ub in Q2 by exact Hl. apply Hps in Q1.
        split; [lia|]. split; [apply dmax_fits; lia|]. intros _. tauto.
      * apply IH. intros l' Hl'. apply HL. right. exact Hl'.
  - destruct (mapG_total_Q (fun ub => let! p := uniform RN rng (n0 RN) ub in retG (nfloor RN (npow2 RN p)))
      (fun ub d => exists u, (0 <= u < 1)%R /\ d = Rfloor (Rpow2 (0 + (ub - 0) * u))) (map (upper_bound RN n_ts) lengths)) with (s := s) as (dils & s' & E & Q).
    + intros ub s0 _. unfold uniform, bindG, draw_unif, retG. cbn [bind fst snd]. eexists _, _. split; [reflexivity|].
      exists (fst (r_unif rng s0)). split; [apply RngLaws_R; exact L|reflexivity].
    + exists dils, s'. split; [exact E|]. apply Forall2_map_l in Q. clear E Hne. revert HL Q. intros HL Q. induction Q as [|l d ls ds (u & Hu & ->) Q IH]; constructor.
      * assert (Hl : 2 <= l <= n_ts) by (apply HL; left; reflexivity). pose proof (uniform_dilation n_ts l u Hl Hu) as HD.
        split; [lia|]. split; [apply dmax_fits; lia|discriminate].
      * apply IH. intros l' Hl'. apply HL. right. exact Hl'.
Qed.

Lemma draw_dilations_inv n n_ts lengths prime_scheme s dils s' : (forall l, In l lengths -> 2 <= l <= n_ts) ->
  draw_dilations RN rng n n_ts lengths prime_scheme s = Ok (dils, s') -> Forall2 (dil_ok prime_scheme n_ts) lengths dils.
Proof.
  intros HL H. destruct (draw_dilations_ok n n_ts lengths prime_scheme s HL) as (d2 & s2 & E & Q).
  - intros -> ->. unfold draw_dilations in H. cbn in H. discriminate.
  - rewrite E in H. assert (d2 = dils) by congruence. subst. exact Q.
Qed.

Lemma draw_norm_ok n p s : 0 <= n -> exists nm s', draw_norm RN rng n p s = Ok (nm, s') /\ zlen nm = n.
Proof.
  intros Hn. unfold draw_norm. destruct (mapG_total (fun _ : Z => let! u := draw_unif rng in retG (nltb RN u p)) (zrange 0 n)) with (s := s) as (nm & s' & E).
  - intros x s0 _. unfold bindG, draw_unif, retG. cbn [bind fst snd]. eauto.
  - exists nm, s'. split; [exact E|]. apply mapG_inv in E. apply Forall2_length in E. rewrite zrange_length in E. unfold zlen. lia.
Qed.

(** What the draws satisfy. *)
Record drawn_ok (n : Z) (sizes : list Z) (n_ts : Z) (prime_scheme : bool) (dr : drawn) : Prop := {
  do_len : zlen (dr_len dr) = n;
  do_dil : zlen (dr_dil dr) = n;
  do_norm : zlen (dr_norm dr) = n;
  do_size : forall i, 0 <= i < n -> In (dlen dr i) sizes;
  do_fit : forall i, 0 <= i < n -> dil_ok prime_scheme n_ts (dlen dr i) (ddil dr i)
}.

Lemma drawn_ok_intro n sizes n_ts prime_scheme lens dils nm : zlen lens = n -> zlen nm = n -> Forall (fun l => In l sizes) lens ->
  Forall2 (dil_ok prime_scheme n_ts) lens dils -> drawn_ok n sizes n_ts prime_scheme (mkDrawn lens dils nm).
Proof.
  intros H1 H2 H3 H4. assert (H5 : zlen dils = n) by (apply Forall2_length in H4; unfold zlen in *; lia). split; cbn [dr_len dr_dil dr_norm]; auto.
  - intros i Hi. unfold dlen. cbn [dr_len]. rewrite Forall_forall in H3. apply H3. eapply nthZ_In. apply nthZ_nthd. lia.
  - intros i Hi. unfold dlen, ddil. cbn [dr_len dr_dil]. clear H2 H3. rewrite <- H1 in Hi, H5. clear H1. revert i Hi H5. induction H4 as [|l d ls ds Q1 Q2 IH]; intros i Hi H5.
    + change (zlen (@nil Z)) with 0 in Hi. lia.
    + rewrite !zlen_cons in *. unfold nthd. rewrite !nthZ_cons. destruct (Z.eqb_spec i 0); [exact Q1|]. apply (IH (i - 1)); lia.
Qed.

Lemma U_init_inv n sizes n_ts p prime_scheme s values dr thr s' : (forall l, In l sizes -> 2 <= l <= n_ts) ->
  U_init RN rng n sizes n_ts p prime_scheme s = Ok (values, dr, thr, s') ->
  0 <= n /\ drawn_ok n sizes n_ts prime_scheme dr /\ exists W, (forall l, In l sizes -> l <= W) /\ In W sizes /\
    thr = repeat 0%R (Z.to_nat n) /\ values = repeat (repeat 0%R (Z.to_nat W)) (Z.to_nat n).
Proof.
  intros HS H. unfold U_init in H. apply bindG_inv in H as (lens & s1 & H1 & H). apply choice_n_inv in H1 as (Hn & Hz & HF).
  apply bindG_inv in H as (dils & s2 & H2 & H). rewrite Forall_forall in HF.
  apply draw_dilations_inv in H2; [|intros l Hl; apply HS; apply HF; exact Hl].
  apply bind_liftG in H as (th & H3 & H). apply bind_liftG in H as (w & H4 & H). apply bind_liftG in H as (row & H5 & H). apply bind_liftG in H as (vs & H6 & H).
  apply bindG_inv in H as (nm & s3 & H7 & H). destruct (draw_norm_ok n p s2 Hn) as (nm' & s3' & E7 & Z7). rewrite E7 in H7. assert (nm' = nm) by congruence. subst nm'.
  unfold retG in H. assert (E : values = vs /\ dr = mkDrawn lens dils nm /\ thr = th) by (split; [|split]; congruence). destruct E as (-> & -> & ->). clear H.
  split; [exact Hn|]. split.
  - apply drawn_ok_intro; auto. apply Forall_forall. exact HF.
  - apply max_list_spec in H4 as [M1 M2]. exists w. split; [exact M2|]. split; [exact M1|]. unfold full in *.
    destruct (n <? 0) eqn:En; [apply Z.ltb_lt in En; lia|]. destruct (w <? 0) eqn:Ew; [discriminate|]. cbn [n0 RN] in *. split; congruence.
Qed.

Lemma U_init_total n sizes n_ts p prime_scheme s : sizes <> [] -> (forall l, In l sizes -> 2 <= l <= n_ts) -> 1 <= n ->
  exists r, U_init RN rng n sizes n_ts p prime_scheme s = Ok r.
Proof.
  intros Hne HS Hn. unfold U_init. destruct (choice_n_total RN rng L sizes n s Hne ltac:(lia)) as (lens & s1 & E1). unfold bindG at 1. rewrite E1. cbn [bind fst snd].
  apply choice_n_inv in E1 as (_ & Hz & HF). rewrite Forall_forall in HF.
  destruct (draw_dilations_ok n n_ts lens prime_scheme s1) as (dils & s2 & E2 & _).
  { intros l Hl. apply HS, HF, Hl. } { intros _ ->. change (zlen (@nil Z)) with 0 in Hz. lia. }
  unfold bindG at 1. rewrite E2. cbn [bind fst snd]. destruct (max_list_ok sizes Hne) as (w & Ew). pose proof (max_list_spec _ _ Ew) as [M1 _]. pose proof (HS w M1).
  assert (Hf : forall A (x : A) k, 0 <= k -> full k x = Ok (repeat x (Z.to_nat k))).
  { intros A x k Hk. unfold full. destruct (Z.ltb_spec k 0); [lia|reflexivity]. }
  rewrite (liftG_ok _ _ _ _ (Hf _ _ n ltac:(lia))), (liftG_ok _ _ _ _ Ew), (liftG_ok _ _ _ _ (Hf _ _ w ltac:(lia))), (liftG_ok _ _ _ _ (Hf _ _ n ltac:(lia))).
  destruct (draw_norm_ok n p s2 ltac:(lia)) as (nm & s3 & E3 & _). unfold bindG. rewrite E3. cbn [bind fst snd]. unfold retG. eauto.
Qed.

Lemma M_init_inv n sizes n_ts p mc prime_scheme s values dr thr nch chan s' : (forall l, In l sizes -> 2 <= l <= n_ts) ->
  M_init RN rng n sizes n_ts p mc prime_scheme s = Ok (values, dr, thr, nch, chan, s') ->
  0 <= n /\ drawn_ok n sizes n_ts prime_scheme dr /\ zlen nch = n /\ (forall c, In c nch -> 1 <= c <= mc) /\
    thr = repeat 0%R (Z.to_nat n) /\ chan = repeat 0 (Z.to_nat (zsum nch)) /\
    values = repeat 0%R (Z.to_nat (zsum (Apply.zmul_list (dr_len dr) nch))).
Proof.
  intros HS H. unfold M_init in H. apply bindG_inv in H as (lens & s1 & H1 & H). apply choice_n_inv in H1 as (Hn & Hz & HF).
  apply bindG_inv in H as (dils & s2 & H2 & H). rewrite Forall_forall in HF.
  apply draw_dilations_inv in H2; [|intros l Hl; apply HS; apply HF; exact Hl].
  apply bind_liftG in H as (th & H3 & H). apply bindG_inv in H as (ch & s3 & H4 & H). apply choice_n_inv in H4 as (_ & Hzc & HFc). rewrite Forall_forall in HFc.
  apply bind_liftG in H as (ci & H5 & H). apply bind_liftG in H as (vs & H6 & H).
  apply bindG_inv in H as (nm & s4 & H7 & H). destruct (draw_norm_ok n p s3 Hn) as (nm' & s3' & E7 & Z7). rewrite E7 in H7. assert (nm' = nm) by congruence. subst nm'.
  unfold retG in H. assert (E : values = vs /\ dr = mkDrawn lens dils nm /\ thr = th /\ nch = map (fun c => c + 1) ch /\ chan = ci) by (repeat split; congruence).
  destruct E as (-> & -> & -> & -> & ->). clear H.
  split; [exact Hn|]. split; [apply drawn_ok_intro; auto; apply Forall_forall; exact HF|]. split; [rewrite zlen_map; exact Hzc|]. split.
  { intros c Hc. apply in_map_iff in Hc as (c' & <- & Hc). apply HFc in Hc. apply in_zrange in Hc. lia. }
  cbn [dr_len]. unfold full in *. destruct (n <? 0) eqn:En; [apply Z.ltb_lt in En; lia|].
  destruct (zsum (map (fun c : Z => c + 1) ch) <? 0); [discriminate|].
  destruct (zsum (Apply.zmul_list lens (map (fun c : Z => c + 1) ch)) <? 0); [discriminate|]. cbn [n0 RN] in *. split; [|split]; congruence.
Qed.

Lemma in_zmul a b x : In x (Apply.zmul_list a b) -> exists u v, In u a /\ In v b /\ x = u * v.
Proof.
  revert b. induction a as [|u a IH]; intros [|v b] H; cbn in H; try contradiction.
  destruct H as [<-|H]; [exists u, v; cbn; auto|]. apply IH in H as (u' & v' & H1 & H2 & H3). exists u', v'. cbn. auto.
Qed.

Lemma M_init_total n sizes n_ts p mc prime_scheme s : sizes <> [] -> (forall l, In l sizes -> 2 <= l <= n_ts) -> 1 <= n -> 1 <= mc ->
  exists r, M_init RN rng n sizes n_ts p mc prime_scheme s = Ok r.
Proof.
  intros Hne HS Hn Hmc. unfold M_init. destruct (choice_n_total RN rng L sizes n s Hne ltac:(lia)) as (lens & s1 & E1). unfold bindG at 1. rewrite E1. cbn [bind fst snd].
  apply choice_n_inv in E1 as (_ & Hz & HF). rewrite Forall_forall in HF.
  destruct (draw_dilations_ok n n_ts lens prime_scheme s1) as (dils & s2 & E2 & _).
  { intros l Hl. apply HS, HF, Hl. } { intros _ ->. change (zlen (@nil Z)) with 0 in Hz. lia. }
  unfold bindG at 1. rewrite E2. cbn [bind fst snd].
  assert (Hf : forall A (x : A) k, 0 <= k -> full k x = Ok (repeat x (Z.to_nat k))).
  { intros A x k Hk. unfold full. destruct (Z.ltb_spec k 0); [lia|reflexivity]. }
  rewrite (liftG_ok _ _ _ _ (Hf _ _ n ltac:(lia))).
  destruct (choice_n_total RN rng L (zrange 0 mc) n s2) as (ch & s3 & E3); [|lia|].
  { intros E. assert (Hin : In 0 (zrange 0 mc)) by (apply in_zrange; lia). rewrite E in Hin. destruct Hin. }
  unfold bindG at 1. rewrite E3. cbn [bind fst snd]. apply choice_n_inv in E3 as (_ & Hzc & HFc). rewrite Forall_forall in HFc.
  assert (HC : forall c, In c (map (fun c => c + 1) ch) -> 1 <= c).
  { intros c Hc. apply in_map_iff in Hc as (c' & <- & Hc). apply HFc in Hc. apply in_zrange in Hc. lia. }
  assert (N1 : 0 <= zsum (map (fun c => c + 1) ch)) by (apply zsum_nonneg; intros c Hc; specialize (HC c Hc); lia).
  assert (N2 : 0 <= zsum (Apply.zmul_list lens (map (fun c => c + 1) ch))).
  { apply zsum_nonneg. intros x Hx. apply in_zmul in Hx as (u & v & Hu & Hv & ->). specialize (HC v Hv). specialize (HS u (HF u Hu)). nia. }
  rewrite (liftG_ok _ _ _ _ (Hf _ _ _ N1)), (liftG_ok _ _ _ _ (Hf _ _ _ N2)).
  destruct (draw_norm_ok n p s3 ltac:(lia)) as (nm & s4 & E4 & _). unfold bindG. rewrite E4. cbn [bind fst snd]. unfold retG. eauto.
Qed.
End D.

(** ** Percentiles *)
Open Scope R_scope.

(** sorted in increasing order *)
Definition ascending (s : list R) : Prop := forall i j, (0 <= i <= j)%Z -> (j < zlen s)%Z -> nthd 0 s i <= nthd 0 s j.

(** [p] is the [q]-th percentile of [l] with linear interpolation between the two closest ranks. *)
Definition is_percentile (l : list R) (q p : R) : Prop :=
  exists s, Permutation l s /\ ascending s /\
    forall k, IZR k <= IZR (zlen l - 1) * (q / 100) < IZR k + 1 ->
      p = nthd 0 s k + (IZR (zlen l - 1) * (q / 100) - IZR k) * (nthd 0 s (Z.min (k + 1) (zlen l - 1)) - nthd 0 s k).

Lemma finsert_perm x l : Permutation (x :: l) (finsert RN x l).
Proof.
  induction l as [|y t IH]; cbn [finsert]; [apply Permutation_refl|]. destruct (nleb RN x y); [apply Permutation_refl|].
  eapply perm_trans; [apply perm_swap|]. apply perm_skip. exact IH.
Qed.
Lemma fsort_perm l : Permutation l (fsort RN l).
Proof.
  induction l as [|x t IH]; cbn [fsort fold_right]; [constructor|]. eapply perm_trans; [apply perm_skip; exact IH|]. apply finsert_perm.
Qed.
Lemma zlen_perm {A} (l s : list A) : Permutation l s -> zlen l = zlen s.
Proof. intros H. unfold zlen. rewrite (Permutation_length H). reflexivity. Qed.

Lemma finsert_sorted x l : StronglySorted Rle l -> StronglySorted Rle (finsert RN x l).
Proof.
  induction l as [|y t IH]; intros H; cbn [finsert nleb RN].
  - constructor; constructor.
  - inversion H as [|? ? H1 H2]; subst. destruct (Rleb x y) eqn:E.
    + apply Rleb_true in E. constructor; [exact H|]. constructor; [exact E|]. rewrite Forall_forall in *. intros z Hz. specialize (H2 z Hz). lra.
    + apply Rleb_false in E. constructor; [apply IH; exact H1|]. rewrite Forall_forall in *. intros z Hz.
      apply (Permutation_in z (Permutation_sym (finsert_perm x t))) in Hz. destruct Hz as [<-|Hz]; [lra|apply H2; exact Hz].
Qed.
Lemma fsort_ascending l : ascending (fsort RN l).
Proof.
  assert (H : StronglySorted Rle (fsort RN l)) by (induction l; cbn [fsort fold_right]; [constructor|apply finsert_sorted; assumption]).
  revert H. generalize (fsort RN l) as s. intros s H. induction H as [|x t Ht IH Hx]; intros i j Hij Hj.
  - change (zlen (@nil R)) with 0%Z in Hj. lia.
  - rewrite zlen_cons in Hj. unfold nthd. rewrite !nthZ_cons. destruct (Z.eqb_spec i 0), (Z.eqb_spec j 0); try lia; try lra.
    + rewrite Forall_forall in Hx. destruct (nthZ_some t (j - 1) ltac:(lia)) as (z & Hz). rewrite Hz. apply Hx. eapply nthZ_In; eauto.
    + apply (IH (i - 1)%Z (j - 1)%Z); lia.
Qed.

Lemma percentile1_spec a q : a <> [] -> 0 <= q <= 100 -> exists p, percentile1 RN a q = Ok p /\ is_percentile a q p.
Proof.
  intros Ha Hq. pose proof (zlen_perm _ _ (fsort_perm a)) as HZ.
  assert (Hn : (0 < zlen a)%Z). { destruct a as [|x t]; [congruence|]. rewrite zlen_cons. pose proof (zlen_nonneg t). lia. }
  unfold percentile1. cbn [n0 n1 nofZ neqb nadd nmul nsub ndiv nfloor RN].
  destruct (Z.eqb_spec (zlen a) 1) as [E1|N1].
  { destruct a as [|x [|? ?]]; [congruence| |rewrite !zlen_cons in E1; match type of E1 with context [zlen ?l] => pose proof (zlen_nonneg l) end; lia].
    exists x. split; [reflexivity|]. exists [x]. split; [apply Permutation_refl|]. split.
    - intros i j Hij Hj. change (zlen [x]) with 1%Z in Hj. assert (i = 0%Z) by lia. assert (j = 0%Z) by lia. subst. lra.
    - change (zlen [x] - 1)%Z with 0%Z. intros k Hk. assert (k = 0%Z). { replace (0 * (q / 100)) with 0 in Hk by ring. assert (IZR k < IZR 1) by lra. assert (IZR (-1) < IZR k) by lra. apply lt_IZR in H, H0. lia. }
      subst k. cbn. lra. }
  assert (Hn1 : (1 < zlen a)%Z) by lia. assert (Hn1R : 1 <= IZR (zlen a - 1)) by (apply IZR_le; lia).
  destruct (Reqb q 100) eqn:E100.
  { apply Reqb_true in E100. subst q. rewrite (get_nthd 0) by lia. eexists. split; [reflexivity|]. exists (fsort RN a).
    split; [apply fsort_perm|]. split; [apply fsort_ascending|]. intros k. replace (100 / 100) with 1 by field. rewrite Rmult_1_r. intros Hk.
    assert (k = zlen a - 1)%Z. { assert (A1 : IZR (zlen a - 1) < IZR (k + 1)) by (rewrite plus_IZR; lra). destruct Hk as [Hk _]. apply le_IZR in Hk. apply lt_IZR in A1. lia. }
    subst k. rewrite Z.min_r by lia. lra. }
  apply Reqb_false in E100. destruct (Reqb q 0) eqn:E0.
  { apply Reqb_true in E0. subst q. rewrite (get_nthd 0) by lia. eexists. split; [reflexivity|]. exists (fsort RN a).
    split; [apply fsort_perm|]. split; [apply fsort_ascending|]. intros k. replace (IZR (zlen a - 1) * (0 / 100)) with 0 by field. intros Hk.
    assert (k = 0%Z). { assert (A1 : IZR k < IZR 1) by lra. assert (A2 : IZR (-1) < IZR k) by lra. apply lt_IZR in A1, A2. lia. }
    subst k. lra. }
  set (h := IZR (zlen a - 1) * (q / 100)). assert (Hh : 0 <= h < IZR (zlen a - 1)).
  { unfold h. split; [apply Rmult_le_pos; [lra|]; unfold Rdiv; lra|]. assert (0 < (1 - q / 100)) by (unfold Rdiv; lra). unfold Rdiv in *. nra. }
  set (k0 := Rfloor h). pose proof (Rfloor_spec h) as Hk0. fold k0 in Hk0.
  assert (Ef : Rfloor (1 + h) = (k0 + 1)%Z) by (apply Rfloor_unique; rewrite plus_IZR; lra). rewrite Ef.
  assert (Rk : (0 <= k0 < zlen a - 1)%Z).
  { split; [assert (A : IZR (-1) < IZR k0) by lra; apply lt_IZR in A; lia|]. assert (A : IZR k0 < IZR (zlen a - 1)) by lra. apply lt_IZR in A. lia. }
  replace (k0 + 1 - 1)%Z with k0 by lia. rewrite (get_nthd 0 (fsort RN a) k0) by lia. cbn [bind]. rewrite (get_nthd 0 (fsort RN a) (k0 + 1)%Z) by lia. cbn [bind].
  eexists. split; [reflexivity|]. exists (fsort RN a). split; [apply fsort_perm|]. split; [apply fsort_ascending|]. fold h. intros k Hk.
  assert (k = k0) by (unfold k0; symmetry; apply Rfloor_unique; exact Hk). subst k. rewrite Z.min_l by lia. rewrite plus_IZR. ring.
Qed.

Lemma percentile_floor (a : list R) q : a <> [] -> 0 <= q <= 100 ->
  exists k, IZR k <= IZR (zlen a - 1) * (q / 100) < IZR k + 1 /\ (0 <= k <= zlen a - 1)%Z /\ (k = (zlen a - 1)%Z -> IZR (zlen a - 1) * (q / 100) = IZR k).
Proof.
  intros Ha Hq. assert (Hn : (0 < zlen a)%Z). { destruct a as [|x t]; [congruence|]. rewrite zlen_cons. pose proof (zlen_nonneg t). lia. }
  assert (Hn1R : 0 <= IZR (zlen a - 1)) by (apply IZR_le; lia).
  set (h := IZR (zlen a - 1) * (q / 100)). assert (Hh : 0 <= h <= IZR (zlen a - 1)). { unfold h. split; [apply Rmult_le_pos; [lra|]; unfold Rdiv; lra|]. unfold Rdiv. nra. }
  exists (Rfloor h). pose proof (Rfloor_spec h) as Hk. split; [exact Hk|]. split.
  - split; [assert (A : IZR (-1) < IZR (Rfloor h)) by lra; apply lt_IZR in A; lia|]. assert (A : IZR (Rfloor h) <= IZR (zlen a - 1)) by lra. apply le_IZR in A. lia.
  - intros E. rewrite E in *. lra.
Qed.

Lemma ascending_unique (s t : list R) : Permutation s t -> ascending s -> ascending t -> s = t.
Proof.
  revert t. induction s as [|x s IH]; intros t HP HS HT.
  - apply Permutation_nil in HP. congruence.
  - destruct t as [|y t]; [apply Permutation_sym, Permutation_nil in HP; discriminate|].
    assert (MIN : forall z u l, ascending (z :: l) -> In u (z :: l) -> z <= u).
    { intros z u l HA Hu. apply In_nthZ in Hu as (j & Hj). pose proof (nthZ_range _ _ _ Hj). specialize (HA 0%Z j ltac:(lia) ltac:(lia)).
      unfold nthd in HA. rewrite Hj in HA. cbn in HA. exact HA. }
    assert (x = y). { pose proof (MIN x y s HS (Permutation_in y (Permutation_sym HP) (or_introl eq_refl))).
      pose proof (MIN y x t HT (Permutation_in x HP (or_introl eq_refl))). lra. }
    subst y. apply Permutation_cons_inv in HP. f_equal. apply IH; [exact HP| |].
    + intros i j Hij Hj. specialize (HS (i + 1)%Z (j + 1)%Z ltac:(lia)). rewrite zlen_cons in HS. specialize (HS ltac:(lia)). unfold nthd in *. rewrite !nthZ_cons in HS.
      destruct (Z.eqb_spec (i + 1) 0), (Z.eqb_spec (j + 1) 0); try lia. replace (i + 1 - 1)%Z with i in HS by lia. replace (j + 1 - 1)%Z with j in HS by lia. exact HS.
    + intros i j Hij Hj. specialize (HT (i + 1)%Z (j + 1)%Z ltac:(lia)). rewrite zlen_cons in HT. specialize (HT ltac:(lia)). unfold nthd in *. rewrite !nthZ_cons in HT.
      destruct (Z.eqb_spec (i + 1) 0), (Z.eqb_spec (j + 1) 0); try lia. replace (i + 1 - 1)%Z with i in HT by lia. replace (j + 1 - 1)%Z with j in HT by lia. exact HT.
Qed.

Lemma percentile_unique a q p p' : a <> [] -> 0 <= q <= 100 -> is_percentile a q p -> is_percentile a q p' -> p = p'.
Proof.
  intros Ha Hq (s & P1 & A1 & H1) (t & P2 & A2 & H2). destruct (percentile_floor a q Ha Hq) as (k & Hk & _).
  assert (s = t) by (apply ascending_unique; auto; eapply perm_trans; [apply Permutation_sym; exact P1|exact P2]). subst t.
  rewrite (H1 k Hk), (H2 k Hk). reflexivity.
Qed.

Lemma percentile_mono a q q' p p' : a <> [] -> 0 <= q <= q' -> q' <= 100 -> is_percentile a q p -> is_percentile a q' p' -> p <= p'.
Proof.
  intros Ha Hq Hq' (s & P1 & A1 & H1) (t & P2 & A2 & H2).
  assert (s = t) by (apply ascending_unique; auto; eapply perm_trans; [apply Permutation_sym; exact P1|exact P2]). subst t.
  pose proof (zlen_perm _ _ P1) as HZ.
  destruct (percentile_floor a q Ha ltac:(lra)) as (k & Hk & Rk & Ek). destruct (percentile_floor a q' Ha ltac:(lra)) as (k' & Hk' & Rk' & Ek').
  rewrite (H1 k Hk), (H2 k' Hk'). clear H1 H2.
  assert (Hh : IZR (zlen a - 1) * (q / 100) <= IZR (zlen a - 1) * (q' / 100)).
  { apply Rmult_le_compat_l; [apply IZR_le; lia|]. unfold Rdiv. lra. }
  set (h := IZR (zlen a - 1) * (q / 100)) in *. set (h' := IZR (zlen a - 1) * (q' / 100)) in *.
  assert (Hkk : (k <= k')%Z). { assert (A : IZR k < IZR (k' + 1)) by (rewrite plus_IZR; lra). apply lt_IZR in A. lia. }
  pose proof (A1 k (Z.min (k + 1) (zlen a - 1)) ltac:(lia) ltac:(lia)) as M1.
  pose proof (A1 k' (Z.min (k' + 1) (zlen a - 1)) ltac:(lia) ltac:(lia)) as M2.
  destruct (Z.eq_dec k k') as [->|Hne].
  - set (u := nthd 0 s k') in *. set (v := nthd 0 s (Z.min (k' + 1) (zlen a - 1))) in *. nra.
  - pose proof (A1 (k + 1)%Z k' ltac:(lia) ltac:(lia)) as M3. rewrite (Z.min_l (k + 1) (zlen a - 1)) in * by lia.
    set (u := nthd 0 s k) in *. set (v := nthd 0 s (k + 1)%Z) in *. set (w := nthd 0 s k') in *. set (z := nthd 0 s (Z.min (k' + 1) (zlen a - 1))) in *.
    assert (u + (h - IZR k) * (v - u) <= v) by nra. assert (w <= w + (h' - IZR k') * (z - w)) by nra. lra.
Qed.

Lemma percentile_min a q p : a <> [] -> 0 <= q <= 100 -> is_percentile a q p -> (exists x, In x a /\ x <= p) /\ (exists x, In x a /\ p <= x).
Proof.
  intros Ha Hq (s & P1 & A1 & H1). pose proof (zlen_perm _ _ P1) as HZ. destruct (percentile_floor a q Ha Hq) as (k & Hk & Rk & Ek). rewrite (H1 k Hk).
  pose proof (A1 k (Z.min (k + 1) (zlen a - 1)) ltac:(lia) ltac:(lia)) as M1.
  assert (HI : forall i, (0 <= i < zlen a)%Z -> In (nthd 0 s i) a).
  { intros i Hi. apply (Permutation_in _ (Permutation_sym P1)). eapply nthZ_In. apply nthZ_nthd. lia. }
  set (h := IZR (zlen a - 1) * (q / 100)) in *. split.
  - exists (nthd 0 s k). split; [apply HI; lia|]. nra.
  - exists (nthd 0 s (Z.min (k + 1) (zlen a - 1))). split; [apply HI; lia|]. nra.
Qed.

Lemma percentiles_R a q1 q2 : 0 <= q1 <= 100 -> 0 <= q2 <= 100 -> exists p, percentiles RN a q1 q2 = Ok p /\
  (a <> [] -> is_percentile a q1 (fst p) /\ is_percentile a q2 (snd p)).
Proof.
  intros H1 H2. unfold percentiles. cbn [nleb n0 nofZ RN].
  assert (E : forall q, 0 <= q <= 100 -> Rleb 0 q && Rleb q 100 = true). { intros q Hq. apply andb_true_iff. split; apply Rleb_true; lra. }
  rewrite (E q1 H1), (E q2 H2). cbn [andb guard bind]. destruct (Z.eqb_spec (zlen a) 0) as [E0|N0].
  - eexists. split; [reflexivity|]. intros Ha. destruct a; [congruence|]. rewrite zlen_cons in E0. pose proof (zlen_nonneg a). lia.
  - assert (Ha : a <> []). { intros ->. apply N0. reflexivity. }
    destruct (percentile1_spec a q1 Ha H1) as (p1 & E1 & S1). destruct (percentile1_spec a q2 Ha H2) as (p2 & E2 & S2).
    rewrite E1. cbn [bind]. rewrite E2. cbn [bind]. eexists. split; [reflexivity|]. cbn [fst snd]. auto.
Qed.

(** percentiles outside [0,100] raise *)
Lemma percentiles_range a q1 q2 p : percentiles RN a q1 q2 = Ok p -> 0 <= q1 <= 100 /\ 0 <= q2 <= 100.
Proof.
  unfold percentiles. cbn [nleb n0 nofZ RN]. intros H. apply bind_inv in H as (u & H & _). destruct u. apply guard_ok in H.
  apply andb_true_iff in H as [HA HB]. apply andb_true_iff in HA as [A1 A2], HB as [B1 B2]. apply Rleb_true in A1, A2, B1, B2. lra.
Qed.
