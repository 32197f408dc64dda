(** C39, continued: how many series the fitter gets when n_samples is set. *)
From Coq Require Import String ZArith List Bool Lia Reals Lra Floats.
From Verif Require Import Prelude Num RealBase Kernel Parallel Apply Gen GenSched Checks ChecksProofs Estimator EstimatorProofs EstimatorLaws EstimatorCases FitAny.
Import ListNotations.
Open Scope Z_scope.

(** What sklearn.utils.resample promises: as many positions as asked, inside the array, and no position twice without replacement. *)
Definition resamples {RS} (V : pyenv RS) : Prop := forall g n b k y ids g', v_resample V g n b k y = (Ok ids, g') ->
  zlen ids = k /\ Forall (fun i => 0 <= i < n) ids /\ (b = false -> NoDup ids).

(** the series at these positions, with their labels *)
Definition picked {F} (D : dataset F) (y ids : list Z) (D' : dataset F) (y' : list Z) : Prop :=
  Forall2 (fun i x => nthZ D i = Some x) ids D' /\ Forall2 (fun i l => nthZ y i = Some l) ids y'.

Section S.
Context {F : Type} (N : NumOps F) {RS : Type} (V : pyenv RS).

Lemma get_pick {A} (src : list A) n ids ys : Forall (fun i => 0 <= i < n) ids -> mapM (get src) ids = Ok ys -> Forall2 (fun i x => nthZ src i = Some x) ids ys.
Proof.
  intros H M. apply mapM_Forall2 in M. induction M as [|i x ids ys E M IH]; [constructor|]. inversion H; subst. constructor; [apply get_nthZ in E; [exact E|lia]|]. apply IH. assumption.
Qed.

Lemma selection_size n v b (D : dataset F) y (s : @est F) (h : list RS) (D' : dataset F) y' s' h' : resamples V ->
  bindE (liftE (sample_count N n v)) (fun k => bindE (call_resample V n b k y) (fun ids =>
     bindE (liftE (mapM (get D) ids)) (fun X' => bindE (liftE (mapM (get y) ids)) (fun y' => retE (X', y'))))) s h = (Ok (D', y'), s', h') ->
  exists k ids, sample_count N n v = Ok k /\ zlen D' = k /\ zlen ids = k /\ picked D y ids D' y' /\ (b = false -> NoDup ids).
Proof.
  intros HV H. apply bindE_ok in H as (k & s1 & h1 & H1 & H). injection H1 as H1 <- <-. apply bindE_ok in H as (ids & s2 & h2 & H2 & H).
  apply bindE_ok in H as (X1 & s3 & h3 & H3 & H). injection H3 as H3 <- <-. apply bindE_ok in H as (y1 & s4 & h4 & H4 & H). injection H4 as H4 <- <-. injection H as <- <- _ _.
  unfold call_resample in H2. destruct h as [|g t]; [discriminate|]. destruct (v_resample V g n b k y) as [r g'] eqn:E. injection H2 as -> _ _. destruct (HV _ _ _ _ _ _ _ E) as (Z1 & R1 & D1).
  exists k, ids. split; [exact H1|]. split; [apply mapM_length in H3; unfold zlen in *; lia|]. split; [exact Z1|]. split; [|exact D1]. split; [exact (get_pick D n ids X1 R1 H3)|exact (get_pick y n ids y1 R1 H4)].
Qed.

Lemma read_X_zlen k X s (h : list RS) D sh lens s' h' : read_X N k X s h = (Ok (D, sh, lens), s', h') -> D <> [] -> nthd 0 sh 0 = zlen D.
Proof.
  unfold read_X. destruct (kind_vl k).
  - intros H _. apply bindE_ok in H as ([[D1 sh1] l1] & s1 & h1 & H1 & H). injection H1 as H1 <- <-.
    apply bindE_ok in H as ([] & s2 & h2 & H2 & H). apply bindE_ok in H as (s3 & s4 & h3 & H3 & H). apply bindE_ok in H as (u & s5 & h5 & H4 & H). injection H as <- <- _ _ _.
    unfold format_uneven in H1. apply bind_inv in H1 as (n & E1 & H1). apply bind_inv in H1 as (shs & E2 & H1). apply bind_inv in H1 as (f0 & E3 & H1). destruct (forallb _ _); [|discriminate].
    apply bind_inv in H1 as (w & E4 & H1). apply bind_inv in H1 as (Xn & E5 & H1). injection H1 as <- <- _. apply mapM_length in E5. apply mapM_length in E2. cbn.
    assert (Z1 : zlen Xn = zlen (zrange 0 n)) by (unfold zlen; lia). rewrite zlen_zrange in Z1.
    destruct (Z.ltb_spec n 1); [|lia]. exfalso. destruct shs as [|q shs]; [cbn in E3; discriminate E3|]. assert (zlen (q :: shs) = zlen (zrange 0 n)) by (unfold zlen; lia). rewrite zlen_zrange, zlen_cons in H0. pose proof (zlen_nonneg shs). lia.
  - intros H HD. apply bindE_ok in H as (A & s1 & h1 & H1 & H). apply bindE_ok in H as (D1 & s2 & h2 & H2 & H). injection H2 as H2 <- <-.
    apply bindE_ok in H as (u & s3 & h3 & H3 & H). injection H as <- <- _ _ _. unfold to_dataset in H2. destruct A as [| | | | | | |sh dt cs| | |]; try discriminate H2.
    destruct sh as [|n [|f [|t [|]]]]; try discriminate H2. apply bind_inv in H2 as (xs & E & H2). injection H2 as <-. cbn [shape nthd]. change (nthd 0 [n; f; t] 0) with n. rewrite zlen_map.
    destruct (Z.leb_spec 0 n); [rewrite rows2_zlen by assumption; reflexivity|]. exfalso. apply HD. unfold rows2. replace (Z.to_nat n) with 0%nat by lia. reflexivity.
Qed.

Lemma prepare_size X y s h q s' h' : resamples V -> prepare N V X y s h = (Ok q, s', h') ->
  exists D sh lens, read_as N (q_kind q) X (e_min_len s) D sh lens (q_min_len q) /\ (D <> [] ->
    (e_n_samples s = VNone /\ q_X q = D /\ q_y q = y) \/
    exists r, as_F N (e_n_samples s) = Ok r /\
      ((nltb N r (n1 N) = false /\ nltb N (n1 N) r = false /\ q_X q = D /\ q_y q = y) \/
       exists k ids, (nltb N r (n1 N) = true \/ nltb N (n1 N) r = true) /\ sample_count N (zlen D) (e_n_samples s) = Ok k /\ zlen (q_X q) = k /\ zlen ids = k /\ picked D y ids (q_X q) (q_y q) /\
         (nltb N r (n1 N) = true -> NoDup ids))).
Proof.
  intros HV H0. pose proof H0 as H. unfold prepare in H. apply bindE_ok in H as (u & s1 & h1 & H1 & H).
  assert (E1 : exists k, s1 = set_kind k (set_type (TKind k) s) /\ h1 = h).
  { revert H1. unfold set_fit_transform, bindE, self, put, liftE, retE. destruct (e_type s) as [|k|] eqn:ET.
    - destruct (auto_class N X) as [[|k|]|e]; intros H1; try discriminate. injection H1 as <- <- <-. exists k. auto.
    - intros H1. injection H1 as <- <- <-. exists k. split; [|auto]. destruct s; cbn in *; subst; reflexivity.
    - discriminate. }
  destruct E1 as (k & -> & ->). clear u H1. apply bindE_ok in H as (s1 & s2 & h1 & H1 & H). injection H1 as <- <- <-. cbn [e_type set_kind set_type] in H.
  apply bindE_ok in H as (k' & s2 & h1 & H1 & H). injection H1 as <- <- <-. apply bindE_ok in H as ([[D sh] lens] & s2 & h1 & H1 & H).
  destruct (read_X_ok _ _ _ _ _ _ _ _ _ _ H1) as (m & Hr & -> & ->). pose proof (read_X_zlen _ _ _ _ _ _ _ _ _ H1) as HZ. clear H1.
  apply bindE_ok in H as ([D' y'] & s2 & h1 & HS & H). destruct (subsample_ok _ _ _ _ _ _ _ _ _ _ _ HS) as (-> & _ & _).
  assert (EQ : q_X q = D' /\ q_y q = y' /\ q_kind q = k /\ q_min_len q = m).
  { apply bindE_ok in H as (s2 & s3 & h2 & H1 & H). injection H1 as <- <- <-. apply bindE_ok in H as (u & s2 & h2 & H1 & H).
    assert (EM : e_min_len s2 = Some m) by (destruct (e_max_channels _); injection H1 as <- <- <-; reflexivity). clear H1.
    apply bindE_ok in H as (s5 & s3 & h3 & H1 & H). injection H1 as <- <- <-. rewrite EM in H. apply bindE_ok in H as (ls & s3 & h4 & H1 & H). apply bindE_ok in H as (u2 & s4 & h5 & H2 & H).
    apply bindE_ok in H as (sizes & s5 & h6 & H3 & H). apply bindE_ok in H as (seed & s6 & h7 & H4 & H). apply bindE_ok in H as (s7 & s8 & h8 & H5 & H).
    apply bindE_ok in H as (pc & s9 & h9 & H6 & H). apply bindE_ok in H as (al & s10 & h10 & H7 & H). apply bindE_ok in H as (pn & s11 & h11 & H8 & H). injection H as <- _ _. auto. }
  destruct EQ as (-> & -> & -> & ->). exists D, sh, lens. split; [exact Hr|]. intros HD. specialize (HZ HD). rewrite HZ in HS. clear H H0 HZ.
  unfold subsample, bindE at 1, self in HS. cbn [e_n_samples set_min_len set_kind set_type] in HS.
  destruct (e_n_samples s) eqn:En;
    [injection HS as <- <- _; left; auto|..];
    right; apply bindE_ok in HS as (r & s3 & h3 & H1 & HS); match type of H1 with liftE ?u _ _ = _ => assert (HM : u = Ok r) by (unfold liftE in H1; congruence) end; exists r; (split; [exact HM|]); clear HM H1;
    destruct (nltb N r (n1 N)) eqn:E1;
    try (apply (selection_size _ _ _ _ _ _ _ _ _ _ _ HV) in HS as (kk & ids & A & B & C & G & I); right; exists kk, ids; split; [auto|]; split; [exact A|]; split; [exact B|]; split; [exact C|]; split; [exact G|]; intros _; apply I; reflexivity);
    destruct (nltb N (n1 N) r) eqn:E2;
    try (apply (selection_size _ _ _ _ _ _ _ _ _ _ _ HV) in HS as (kk & ids & A & B & C & G & I); right; exists kk, ids; split; [auto|]; split; [exact A|]; split; [exact B|]; split; [exact C|]; split; [exact G|]; discriminate);
    injection HS as <- <- _ _; left; auto.
Qed.
End S.

(** ** C39.  Number of series *)

(** n_samples is a proportion p: below 1, the fitter gets the integer part of [n p] of the n series, none of them twice; above 1, the integer part of [n p], possibly with repetitions; with 1, all series.
    With an integer z above 1 it gets [n z] series. *)
Theorem C39_sample_size : forall RS (V : pyenv RS) X y s h q s' h',
  resamples V -> prepare RN V X y s h = (Ok q, s', h') ->
  exists D sh lens, read_as RN (q_kind q) X (e_min_len s) D sh lens (q_min_len q) /\
  (D <> [] -> let n := zlen D in
    (forall p, e_n_samples s = VFloat p -> (0 <= p < 1)%R -> (IZR (zlen (q_X q)) <= IZR n * p < IZR (zlen (q_X q)) + 1)%R /\ zlen (q_X q) < n /\ exists ids, NoDup ids /\ picked D y ids (q_X q) (q_y q)) /\
    (e_n_samples s = VFloat 1%R \/ e_n_samples s = VInt 1 -> q_X q = D /\ q_y q = y) /\
    (forall p, e_n_samples s = VFloat p -> (1 < p)%R -> (IZR (zlen (q_X q)) <= IZR n * p < IZR (zlen (q_X q)) + 1)%R /\ n <= zlen (q_X q) /\ exists ids, picked D y ids (q_X q) (q_y q)) /\
    (forall z, e_n_samples s = VInt z -> 1 < z -> zlen (q_X q) = n * z /\ exists ids, picked D y ids (q_X q) (q_y q))).
Proof.
  intros RS V X y s h q s' h' HV H. destruct (prepare_size RN V X y s h q s' h' HV H) as (D & sh & lens & HR & HS). exists D, sh, lens. split; [exact HR|]. intros HD. specialize (HS HD). cbv zeta.
  assert (Zn : 1 <= zlen D) by (destruct D; [congruence|rewrite zlen_cons; pose proof (zlen_nonneg D); lia]). assert (Rn : (1 <= IZR (zlen D))%R) by (apply IZR_le; lia).
  assert (FL : forall p, (0 <= p)%R -> (IZR (ntrunc RN (nmul RN (nofZ RN (zlen D)) p)) <= IZR (zlen D) * p < IZR (ntrunc RN (nmul RN (nofZ RN (zlen D)) p)) + 1)%R).
  { intros p Hp. cbn [ntrunc nmul nofZ RN]. rewrite Rtrunc_nonneg by (apply Rmult_le_pos; lra). apply Rfloor_spec. }
  split; [|split; [|split]].
  - intros p E Hp. destruct HS as [(E' & _)|(r & Er & HS)]; [congruence|]. rewrite E in Er, HS. cbn [as_F] in Er. injection Er as <-. destruct HS as [(A & _)|(k & ids & _ & A & B & C & G & I)].
    + apply Rltb_false in A. cbn in A. lra.
    + cbn [sample_count as_F bind] in A. injection A as <-. rewrite B. specialize (FL p ltac:(lra)). split; [exact FL|]. split; [apply lt_IZR; apply Rle_lt_trans with (IZR (zlen D) * p)%R; [exact (proj1 FL)|rewrite <- (Rmult_1_r (IZR (zlen D))) at 2; apply Rmult_lt_compat_l; lra]|]. exists ids. split; [|exact G]. apply I. apply Rltb_true. cbn. lra.
  - intros HE. destruct HS as [(E' & _)|(r & Er & HS)]; [destruct HE; congruence|]. assert (r = 1%R) by (destruct HE as [E|E]; rewrite E in Er; cbn in Er; injection Er as <-; reflexivity). subst r.
    destruct HS as [(_ & _ & A)|(k & ids & A & _)]; [exact A|]. exfalso. destruct A as [A|A]; apply Rltb_true in A; cbn in A; lra.
  - intros p E Hp. destruct HS as [(E' & _)|(r & Er & HS)]; [congruence|]. rewrite E in Er, HS. cbn [as_F] in Er. injection Er as <-. destruct HS as [(_ & A & _)|(k & ids & _ & A & B & C & G & I)].
    + apply Rltb_false in A. cbn in A. lra.
    + cbn [sample_count as_F bind] in A. injection A as <-. rewrite B. specialize (FL p ltac:(lra)). split; [exact FL|]. split; [|exists ids; exact G].
      apply Z.lt_succ_r, lt_IZR. unfold Z.succ. rewrite plus_IZR. apply Rlt_trans with (IZR (zlen D) * p)%R; [rewrite <- (Rmult_1_r (IZR (zlen D))) at 1; apply Rmult_lt_compat_l; lra|exact (proj2 FL)].
  - intros z E Hz. destruct HS as [(E' & _)|(r & Er & HS)]; [congruence|]. rewrite E in Er, HS. cbn [as_F] in Er. injection Er as <-. assert (2 <= IZR z)%R by (apply IZR_le; lia). destruct HS as [(_ & A & _)|(k & ids & _ & A & B & C & G & I)].
    + apply Rltb_false in A. cbn in A. lra.
    + cbn [sample_count] in A. injection A as <-. split; [exact B|]. exists ids. exact G.
Qed.
Print Assumptions C39_sample_size.

(** In any arithmetic the number is the one written in the code: [int(n * p)].  In binary64 it can be one less than the exact product: 29 percent of 100 series are 28. *)
Theorem C39_sample_count : forall F (N : NumOps F) RS (V : pyenv RS) X y s h q s' h' p,
  resamples V -> prepare N V X y s h = (Ok q, s', h') -> e_n_samples s = VFloat p ->
  exists D sh lens, read_as N (q_kind q) X (e_min_len s) D sh lens (q_min_len q) /\
    (D <> [] -> nltb N p (n1 N) = true \/ nltb N (n1 N) p = true -> zlen (q_X q) = ntrunc N (nmul N (nofZ N (zlen D)) p)).
Proof.
  intros F N RS V X y s h q s' h' p HV H E. destruct (prepare_size N V X y s h q s' h' HV H) as (D & sh & lens & HR & HS). exists D, sh, lens. split; [exact HR|]. intros HD Hp. specialize (HS HD).
  rewrite E in HS. destruct HS as [(E' & _)|(r & Er & HS)]; [discriminate E'|]. cbn [as_F] in Er. injection Er as <-. destruct HS as [(A & B & _)|(k & ids & _ & A & B & C & G & I)]; [destruct Hp; congruence|].
  cbn [sample_count as_F bind] in A. injection A as <-. exact B.
Qed.
Print Assumptions C39_sample_count.

(** The first k positions, or the first one k times; [resamples] holds, and 3/4 of the four series of different lengths are three. *)
Definition firstV : pyenv Z := mkEnv Z (fun s => s) (fun g => (g, g + 1)) (fun g n b k y =>
  ((if (n <? 1) || (k <? 0) then Err ValueError else if b then Ok (map (fun _ => 0) (zrange 0 k)) else if k <=? n then Ok (zrange 0 k) else Err ValueError), g + 1)) 4 4.
Example C39_sample_size_case : resamples firstV /\
  exists q s' h', prepare RN firstV (VList [VArr [1; 4] DInt64 (intcells [1; 2; 3; 4]); VArr [1; 5] DInt64 (intcells [2; 1; 0; 5; 6]); VArr [1; 3] DInt64 (intcells [7; 8; 9]); VArr [1; 4] DInt64 (intcells [3; 3; 2; 2])])
    [0; 0; 1; 1] (caseE TAuto (VFloat (3 / 4)%R) (ints [3]) None None) [7] = (Ok q, s', h') /\ zlen (q_X q) = 3 /\ q_y q = [0; 0; 1].
Proof.
  split.
  - intros g n b k y ids g' H. cbn [firstV v_resample] in H. destruct (Z.ltb_spec n 1); [discriminate H|]. destruct (Z.ltb_spec k 0); [discriminate H|]. cbn [orb] in H. destruct b.
    + injection H as <- _. split; [rewrite zlen_map, zlen_zrange; lia|]. split; [|discriminate]. apply Forall_forall. intros i Hi. apply in_map_iff in Hi as (j & <- & _). lia.
    + destruct (Z.leb_spec k n); [|discriminate H]. injection H as <- _. split; [rewrite zlen_zrange; lia|]. split; [apply Forall_forall; intros i Hi; apply in_zrange in Hi; lia|]. intros _. apply zrange_NoDup.
  - assert (G : forall F (N : NumOps F) x, nltb N x (n1 N) = true -> ntrunc N (nmul N (nofZ N 4) x) = 3 ->
      exists q s' h', prepare N firstV (VList [VArr [1; 4] DInt64 (intcells [1; 2; 3; 4]); VArr [1; 5] DInt64 (intcells [2; 1; 0; 5; 6]); VArr [1; 3] DInt64 (intcells [7; 8; 9]); VArr [1; 4] DInt64 (intcells [3; 3; 2; 2])])
        [0; 0; 1; 1] (caseE TAuto (VFloat x) (ints [3]) None None) [7] = (Ok q, s', h') /\ zlen (q_X q) = 3 /\ q_y q = [0; 0; 1]).
    { intros F N x H1 H2. do 3 eexists. split.
      - cbv -[nltb nofZ n0 ntrunc nmul n1]. rewrite H1. cbv -[nltb nofZ n0 ntrunc nmul n1]. rewrite ?H2. reflexivity.
      - repeat split; reflexivity. }
    apply G; [apply Rltb_true; cbn; lra|]. change (Rtrunc (IZR 4 * (3 / 4)) = 3). rewrite Rtrunc_nonneg by lra. apply Rfloor_unique; lra.
Qed.

Example C39_sample_count_case : forall log2 log pow2, let N := FN log2 log pow2 in ntrunc N (nmul N (nofZ N 100) 0x1.28f5c28f5c28fp-2%float) = 28.
Proof. intros. vm_compute. reflexivity. Qed.
