(** Consequences of the account of a univariate fit, on the shapelets it returns. *)
From Coq Require Import ZArith Znumtheory List Bool Reals Lra Lia Permutation.
From Verif Require Import Prelude Num Kernel Spec KernelProofs RealBase Apply ApplyUni TransformProofs TransformLaws RealProofs SampleLaws Gen GenSched GenBase GenUni
  GenULoop GenTrace GenURun GenDraw GenSpec GenUFinal GenUTop.
Import ListNotations.
Open Scope Z_scope.

(** ** Univariate training sets, same length or variable length *)

Inductive utrain (F : Type) : Type :=
| TrSL (X : dataset F) (y : list Z)
| TrVL (X : dataset F) (X_len y : list Z) (min_len : Z).
Arguments TrSL {F}. Arguments TrVL {F}.

(** number of points every series is known to have *)
Definition tr_points {F} (c : utrain F) : Z := match c with TrSL X _ => n_timestamps X | TrVL _ _ _ min_len => min_len end.
Definition tr_samples {F} (c : utrain F) : Z := match c with TrSL X _ => zlen X | TrVL X _ _ _ => zlen X end.
Definition tr_labels {F} (c : utrain F) : list Z := match c with TrSL _ y => y | TrVL _ _ y _ => y end.
(** the points of series [s] *)
Definition tr_series {F} (c : utrain F) (s : Z) : list F := match c with TrSL X _ => ser X s | TrVL X X_len _ _ => ser_vl X X_len s end.
Definition tr_ok {F} (c : utrain F) : Prop :=
  match c with TrSL X y => train_u (n_timestamps X) X y | TrVL X X_len y min_len => train_uv min_len X X_len y end.
Definition tr_call {F} (c : utrain F) (T : ushp F) : call F := match c with TrSL X _ => CallUS X T | TrVL X X_len _ _ => CallUV X X_len T end.

(** [T] is a possible result of fit: all iterations on the seeded thread, or scheduled in any way with any random
    states in the other threads. *)
Inductive fitted {F S} (N : NumOps F) (rng : Rng F S) (P : gparams F) : utrain F -> ushp F -> Prop :=
| fitted_SL_seq X y T : U_SL_generate N rng X y P = Ok T -> fitted N rng P (TrSL X y) T
| fitted_SL_par rs sched X y T : scheduler sched -> U_SL_generate_par N rng rs sched X y P = Ok T -> fitted N rng P (TrSL X y) T
| fitted_VL_seq X X_len y ml T : U_VL_generate N rng X X_len y ml P = Ok T -> fitted N rng P (TrVL X X_len y ml) T
| fitted_VL_par rs sched X X_len y ml T : scheduler sched -> U_VL_generate_par N rng rs sched X X_len y ml P = Ok T -> fitted N rng P (TrVL X X_len y ml) T.

Definition lengths_ok {F} (P : gparams F) (n : Z) : Prop := forall l, In l (g_sizes P) -> 2 <= l <= n.

Lemma filter_two {A} (f : A -> bool) l k k' x x' : k < k' -> nthZ (filter f l) k = Some x -> nthZ (filter f l) k' = Some x' ->
  exists i i', i < i' /\ nthZ l i = Some x /\ nthZ l i' = Some x' /\ f x = true /\ f x' = true.
Proof.
  assert (ONE : forall (l : list A) k x, nthZ (filter f l) k = Some x -> exists i, 0 <= i /\ nthZ l i = Some x /\ f x = true).
  { clear. induction l as [|a t IH]; intros k x H; [apply nthZ_range in H; cbn in H; lia|]. cbn [filter] in H. destruct (f a) eqn:E.
    - rewrite nthZ_cons in H. destruct (k =? 0) eqn:Ek.
      + assert (a = x) by congruence. subst. exists 0. rewrite nthZ_cons. auto with zarith.
      + apply IH in H as (i & H1 & H2 & H3). exists (i + 1). rewrite nthZ_cons. replace (i + 1 =? 0) with false by (symmetry; apply Z.eqb_neq; lia).
        replace (i + 1 - 1) with i by lia. auto with zarith.
    - apply IH in H as (i & H1 & H2 & H3). exists (i + 1). rewrite nthZ_cons. replace (i + 1 =? 0) with false by (symmetry; apply Z.eqb_neq; lia).
      replace (i + 1 - 1) with i by lia. auto with zarith. }
  intros Hk. revert k k' Hk. induction l as [|a t IH]; intros k k' Hk H H'; [apply nthZ_range in H; cbn in H; lia|].
  assert (SH : forall i y, 0 <= i -> nthZ t i = Some y -> nthZ (a :: t) (i + 1) = Some y).
  { intros i y Hi Hy. rewrite nthZ_cons. replace (i + 1 =? 0) with false by (symmetry; apply Z.eqb_neq; lia). replace (i + 1 - 1) with i by lia. exact Hy. }
  cbn [filter] in H, H'. pose proof (nthZ_range _ _ _ H) as R1. pose proof (nthZ_range _ _ _ H') as R2. destruct (f a) eqn:E.
  - rewrite nthZ_cons in H, H'. replace (k' =? 0) with false in H' by (symmetry; apply Z.eqb_neq; lia). destruct (k =? 0) eqn:Ek.
    + apply ONE in H' as (i' & A1 & A2 & A3). assert (a = x) by congruence. subst x. exists 0, (i' + 1). rewrite nthZ_cons. auto with zarith.
    + destruct (IH (k - 1) (k' - 1) ltac:(lia) H H') as (i & i' & B1 & B2 & B3 & B4). pose proof (nthZ_range _ _ _ B2). pose proof (nthZ_range _ _ _ B3).
      exists (i + 1), (i' + 1). split; [lia|]. split; [apply SH; [lia|exact B2]|]. split; [apply SH; [lia|exact B3]|exact B4].
  - destruct (IH k k' Hk H H') as (i & i' & B1 & B2 & B3 & B4). pose proof (nthZ_range _ _ _ B2). pose proof (nthZ_range _ _ _ B3).
    exists (i + 1), (i' + 1). split; [lia|]. split; [apply SH; [lia|exact B2]|]. split; [apply SH; [lia|exact B3]|exact B4].
Qed.

Lemma filter_one {A} (f : A -> bool) l k x : nthZ (filter f l) k = Some x -> exists i, nthZ l i = Some x /\ f x = true.
Proof.
  intros H. assert (HI : In x (filter f l)) by (eapply nthZ_In; exact H). apply filter_In in HI as [HI E].
  apply In_nthZ in HI as (i & Hi). eauto.
Qed.

(** ** Laws *)

Section Laws.
Context {S : Type} (rng : Rng R S) (L : RngLaws RN rng) (P : gparams R).

Notation acc c := (account (g_phase P) (g_alpha P) (g_pmin P) (g_pmax P) (g_prime P) (g_sizes P) (tr_points c) (g_n P) (tr_samples c) (tr_series c) (tr_labels c)).
Notation init c := (U_init RN rng (g_n P) (g_sizes P) (tr_points c) (g_pnorm P) (g_prime P) (r_seed rng (g_seed P))).

Lemma fitted_sound c T : tr_ok c -> lengths_ok P (tr_points c) -> fitted RN rng P c T ->
  exists values dr thr s1 hs W, init c = Ok (values, dr, thr, s1) /\ acc c hs /\
    map q_len hs = dr_len dr /\ map q_dil hs = dr_dil dr /\ map q_norm hs = dr_norm dr /\
    (In W (g_sizes P) /\ forall l, In l (g_sizes P) -> l <= W) /\ returned (tr_series c) P W hs T.
Proof.
  intros HO HL HF. destruct HF as [X y T H|rs sched X y T HS H|X X_len y ml T H|rs sched X X_len y ml T HS H]; cbn [tr_points tr_samples tr_series tr_labels tr_ok] in *.
  - apply U_SL_seq_par in H as (rs & H). eapply (SL_sound rng L X y (n_timestamps X) P HO HL rs seq_sched T); [apply seq_sched_scheduler|exact H].
  - eapply (SL_sound rng L X y (n_timestamps X) P HO HL rs sched T HS H).
  - apply U_VL_seq_par in H as (rs & H). eapply (VL_sound rng L X X_len y ml P HO HL rs seq_sched T); [apply seq_sched_scheduler|exact H].
  - eapply (VL_sound rng L X X_len y ml P HO HL rs sched T HS H).
Qed.

Lemma tr_series_len {F} (c : utrain F) s : tr_ok c -> 0 <= s < tr_samples c -> tr_points c <= zlen (tr_series c s).
Proof.
  intros HO Hs. destruct c as [X y|X X_len y ml]; cbn [tr_points tr_series tr_ok tr_samples] in *.
  - erewrite train_u_ser; eauto; lia.
  - pose proof HO as (A & B & D & E & G & H & I). rewrite (zlen_ser_vl ml X X_len y HO) by exact Hs. apply H. apply (nthZ_In _ s). apply nthZ_nthd. lia.
Qed.

(** the request behind a returned shapelet *)
Lemma returned_at srs W hs T k v l d thr nm : (forall q, In q hs -> 0 <= q_len q) -> returned srs P W hs T -> ushp_at T k v l d thr nm ->
  exists q, nthZ (filter (kept (g_phase P) srs) hs) k = Some q /\ q_len q = l /\ q_dil q = d /\ q_norm q = nm /\ thr_of q = thr /\ q_values (g_phase P) srs q = Some v.
Proof.
  intros HN (H1 & H2 & H3 & H4 & H5) ((v0 & A1 & A2) & A3 & A4 & A5 & A6). rewrite H1, nthZ_map in A3. destruct (nthZ (filter _ hs) k) as [q|] eqn:Eq; [|discriminate].
  exists q. rewrite H2, nthZ_map, Eq in A4. rewrite H4, nthZ_map, Eq in A5. rewrite H3, nthZ_map, Eq in A6. rewrite H5, nthZ_map, Eq in A1. cbn [option_map] in *.
  split; [reflexivity|]. split; [congruence|]. split; [congruence|]. split; [congruence|]. split; [congruence|].
  assert (EL : q_len q = l) by congruence. assert (E0 : v0 = val_of (g_phase P) srs q ++ repeat 0%R (Z.to_nat (W - q_len q))) by congruence.
  assert (HI : In q (filter (kept (g_phase P) srs) hs)) by (eapply nthZ_In; exact Eq). apply filter_In in HI as [HI HK].
  unfold kept, val_of in *. destruct (q_values (g_phase P) srs q) as [w|] eqn:Ew; [|discriminate]. f_equal. rewrite A2, E0, <- EL.
  assert (HW : zlen w = q_len q).
  { unfold q_values in Ew. destruct (q_origin q) as [o|]; [|discriminate]. assert (w = seen RN (q_norm q) (window RN (g_phase P) (srs (o_series o)) (q_len q) (q_dil q) (o_start o))) by congruence.
    subst w. rewrite zlen_seen. apply zlen_window. apply HN. exact HI. }
  rewrite <- HW. symmetry. apply slice_app_l.
Qed.

Lemma account_len c hs q : lengths_ok P (tr_points c) -> acc c hs -> In q hs -> 2 <= q_len q <= tr_points c.
Proof. intros HL HA HI. apply In_nthZ in HI as (i & Hi). destruct (ac_params _ _ _ _ _ _ _ _ _ _ _ _ HA i q Hi) as [A _]. apply HL. exact A. Qed.

Lemma returned_zlen srs W hs T : returned srs P W hs T -> zlen (us_len T) = zlen (filter (kept (g_phase P) srs) hs).
Proof. intros (H1 & _). rewrite H1, zlen_map. reflexivity. Qed.

Lemma filter_zlen {A} (f : A -> bool) l : zlen (filter f l) <= zlen l.
Proof. induction l as [|a t IH]; cbn [filter]; [reflexivity|]. destruct (f a); rewrite !zlen_cons; lia. Qed.

Lemma fitted_wf c T : tr_ok c -> lengths_ok P (tr_points c) -> fitted RN rng P c T -> wf_ushp T /\ zlen (us_len T) <= g_n P.
Proof.
  intros HO HL HF. destruct (fitted_sound c T HO HL HF) as (values & dr & thr & s1 & hs & W & Hi & HA & _ & _ & _ & (HW1 & HW2) & HR).
  pose proof HR as (H1 & H2 & H3 & H4 & H5). split.
  - unfold wf_ushp. rewrite H1, H2, H3, H4, H5, !zlen_map. split; [reflexivity|]. split; [reflexivity|]. split; [reflexivity|]. split; [reflexivity|]. split.
    + intros k v l. rewrite !nthZ_map. destruct (nthZ (filter _ hs) k) as [q|] eqn:Eq; cbn [option_map]; [|discriminate]. intros Hv Hl.
      assert (v = val_of (g_phase P) (tr_series c) q ++ repeat 0%R (Z.to_nat (W - q_len q))) by congruence. subst v. assert (q_len q = l) by congruence. subst l.
      assert (HI : In q (filter (kept (g_phase P) (tr_series c)) hs)) by (eapply nthZ_In; exact Eq). apply filter_In in HI as [HI HK].
      pose proof (account_len c hs q HL HA HI) as HQ. split; [lia|]. unfold kept, val_of in *. destruct (q_values (g_phase P) (tr_series c) q) as [w|] eqn:Ew; [|discriminate].
      unfold q_values in Ew. destruct (q_origin q) as [o|]; [|discriminate]. assert (w = seen RN (q_norm q) (window RN (g_phase P) (tr_series c (o_series o)) (q_len q) (q_dil q) (o_start o))) by congruence.
      subst w. rewrite zlen_app, zlen_seen, zlen_window by lia. pose proof (zlen_nonneg (repeat 0%R (Z.to_nat (W - q_len q)))). lia.
    + intros k d. rewrite nthZ_map. destruct (nthZ (filter _ hs) k) as [q|] eqn:Eq; cbn [option_map]; [|discriminate]. intros Hd. assert (q_dil q = d) by congruence. subst d.
      apply filter_one in Eq as (i & Eq & _). destruct (ac_params _ _ _ _ _ _ _ _ _ _ _ _ HA i q Eq) as [_ (A & _)]. exact A.
  - rewrite (returned_zlen _ _ _ _ HR). rewrite <- (ac_n _ _ _ _ _ _ _ _ _ _ _ _ HA). apply filter_zlen.
Qed.

(** Shapelet [k] of the result with the origin it was sampled from. *)
Definition comes_from (c : utrain R) (v : list R) (l d : Z) (nm : bool) (s t : Z) : Prop :=
  0 <= s < tr_samples c /\ 0 <= t < nwin (g_phase P) (zlen (tr_series c s)) l d /\
  v = seen RN nm (window RN (g_phase P) (tr_series c s) l d t).

Lemma fitted_origin c T k v l d thr nm : tr_ok c -> lengths_ok P (tr_points c) -> fitted RN rng P c T -> ushp_at T k v l d thr nm ->
  In l (g_sizes P) /\ dil_ok (g_prime P) (tr_points c) l d /\
  exists s t s', comes_from c v l d nm s t /\ same_class (tr_samples c) (tr_labels c) s s' /\
    threshold_between (g_pmin P) (g_pmax P) (distances RN (g_phase P) nm (tr_series c s') v l d) thr.
Proof.
  intros HO HL HF HK. destruct (fitted_sound c T HO HL HF) as (values & dr & th & s1 & hs & W & Hi & HA & _ & _ & _ & (HW1 & HW2) & HR).
  assert (HN : forall q, In q hs -> 0 <= q_len q) by (intros q Hq; pose proof (account_len c hs q HL HA Hq); lia).
  destruct (returned_at _ _ _ _ _ _ _ _ _ _ HN HR HK) as (q & Hq & El & Ed & En & Et & Ev). apply filter_one in Hq as (i & Hq & _).
  destruct (ac_params _ _ _ _ _ _ _ _ _ _ _ _ HA i q Hq) as [Q1 Q2]. rewrite El in *. rewrite Ed in *. split; [exact Q1|]. split; [exact Q2|].
  pose proof Ev as Ev'. unfold q_values in Ev'. destruct (q_origin q) as [o|] eqn:Eo; [|discriminate].
  destruct (ac_some _ _ _ _ _ _ _ _ _ _ _ _ HA i q o Hq Eo) as (B1 & B2 & (w & B3 & B4)).
  exists (o_series o), (o_start o), (o_test o). split.
  - destruct B1 as (q' & Hq' & C1 & C2 & _). assert (q' = q) by congruence. subst q'. rewrite El, Ed, En in *. split; [exact C1|]. split; [exact C2|congruence].
  - split; [exact B2|]. assert (w = v) by congruence. subst w. rewrite El, Ed, En in *. unfold thr_of in Et. rewrite Eo in Et. rewrite <- Et. exact B4.
Qed.

(** ** Transforming the training data with the fitted shapelets *)

Lemma tr_wf_call (c : utrain R) T : tr_ok c -> wf_ushp T -> wf_call (tr_call c T).
Proof.
  intros HO HT. destruct c as [X y|X X_len y ml]; cbn [tr_call wf_call tr_ok] in *.
  - destruct HO as (_ & A & _). auto.
  - destruct HO as (_ & A & _ & B & _). auto.
Qed.

Lemma dil_fits ph prime n m l d : 2 <= l -> dil_ok prime n l d -> n <= m -> fits ph m l d.
Proof. intros Hl (A & B & _) Hm. unfold fits. destruct ph; [|split]; nia. Qed.

Lemma fitted_transform c T : tr_ok c -> lengths_ok P (tr_points c) -> fitted RN rng P c T -> exists D, run RN (tr_call c T) (g_phase P) = Ok D.
Proof.
  intros HO HL HF. destruct (fitted_wf c T HO HL HF) as [HW _].
  assert (FA : forall s, 0 <= s < tr_samples c -> fits_all (g_phase P) T (zlen (tr_series c s))).
  { intros s Hs k l d Hl Hd. pose proof HW as (W1 & W2 & W3 & W4 & _). pose proof (nthZ_range _ _ _ Hl) as Rk.
    assert (HK : ushp_at T k (slice (nthd [] (us_values T) k) 0 l) l d (nthd 0%R (us_thr T) k) (nthd false (us_norm T) k)).
    { split; [exists (nthd [] (us_values T) k); split; [apply nthZ_nthd; lia|reflexivity]|]. split; [exact Hl|]. split; [exact Hd|]. split; apply nthZ_nthd; lia. }
    destruct (fitted_origin _ _ _ _ _ _ _ _ HO HL HF HK) as (A & B & _). eapply dil_fits; [apply HL; exact A|exact B|]. apply tr_series_len; assumption. }
  destruct c as [X y|X X_len y ml]; cbn [tr_call run tr_ok tr_samples tr_series] in *.
  - eexists. apply U_SL_ok; [apply HO|exact HW|exact FA].
  - eexists. apply U_VL_ok; [apply HO|apply HO|exact HW|exact FA].
Qed.

Lemma tr_sample_at (c : utrain R) T s : tr_ok c -> 0 <= s < tr_samples c -> sample_at (tr_call c T) s [tr_series c s].
Proof.
  intros HO Hs. destruct c as [X y|X X_len y ml]; cbn [tr_call tr_ok tr_samples tr_series] in *.
  - destruct HO as (_ & A & _). unfold ser. apply (sample_US X T s (nthd [] X s)); [apply nthZ_nthd; exact Hs|]. apply nthZ_nthd.
    assert (HI : In (nthd [] X s) X) by (apply (nthZ_In _ s); apply nthZ_nthd; exact Hs). specialize (A _ HI). destruct (nthd [] X s); [congruence|]. rewrite zlen_cons. pose proof (zlen_nonneg l0). lia.
  - destruct HO as (_ & A & _ & B & _). apply sample_UV. unfold ser_vl. exists (nthd [] X s), (nthd [] (nthd [] X s) 0), (nthd 0 X_len s).
    split; [apply nthZ_nthd; exact Hs|]. split; [|split; [apply nthZ_nthd; lia|reflexivity]]. apply nthZ_nthd.
    assert (HI : In (nthd [] X s) X) by (apply (nthZ_In _ s); apply nthZ_nthd; exact Hs). specialize (A _ HI). destruct (nthd [] X s); [congruence|]. rewrite zlen_cons. pose proof (zlen_nonneg l0). lia.
Qed.

Lemma tr_shapelet_at (c : utrain R) T k v l d thr nm : ushp_at T k v l d thr nm -> shapelet_at (tr_call c T) k [0] [v] l d thr nm.
Proof. intros H. destruct c; constructor; exact H. Qed.
(** every returned shapelet has a non-zero value *)
Lemma fitted_nonzero c T k v l d thr nm : tr_ok c -> lengths_ok P (tr_points c) -> fitted RN rng P c T -> ushp_at T k v l d thr nm ->
  exists x, In x v /\ x <> 0%R.
Proof.
  intros HO HL HF HK. destruct (fitted_sound c T HO HL HF) as (values & dr & th & s1 & hs & W & Hi & HA & _ & _ & _ & (HW1 & HW2) & HR).
  assert (HN : forall q, In q hs -> 0 <= q_len q) by (intros q Hq; pose proof (account_len c hs q HL HA Hq); lia).
  destruct (returned_at _ _ _ _ _ _ _ _ _ _ HN HR HK) as (q & Hq & _ & _ & _ & _ & Ev). apply filter_one in Hq as (i & _ & Hk). unfold kept in Hk. rewrite Ev in Hk.
  apply negb_true_iff in Hk. clear - Hk. induction v as [|x t IH]; [discriminate|]. cbn [forallb] in Hk. apply andb_false_iff in Hk as [Hk|Hk].
  - exists x. split; [left; reflexivity|]. apply Reqb_false. exact Hk.
  - destruct (IH Hk) as (z & A & B). exists z. split; [right; exact A|exact B].
Qed.

(** ** Pruning *)

(** where the returned shapelets were taken *)
Definition sources (c : utrain R) (T : ushp R) (src : list (Z * Z)) : Prop :=
  zlen src = zlen (us_len T) /\
  forall k v l d thr nm s t, ushp_at T k v l d thr nm -> nthZ src k = Some (s, t) -> comes_from c v l d nm s t.

Definition q_source (q : request) : Z * Z := match q_origin q with Some o => (o_series o, o_start o) | None => (0, 0) end.

Lemma fitted_pruned c T : tr_ok c -> lengths_ok P (tr_points c) -> fitted RN rng P c T ->
  exists src ml, sources c T src /\
    (forall k v l d thr nm, ushp_at T k v l d thr nm -> In (ml d) (g_sizes P) /\ ml d <= l) /\
    forall k k' v v' l l' d thr thr' nm s t t', k < k' -> ushp_at T k v l d thr nm -> ushp_at T k' v' l' d thr' nm ->
      nthZ src k = Some (s, t) -> nthZ src k' = Some (s, t') ->
      forall j, 0 <= j < l - Z.max 1 (Rfloor ((1 - g_alpha P) * IZR (ml d))) ->
        t' <> (t - j * d) mod zlen (tr_series c s) /\ t' <> (t + j * d) mod zlen (tr_series c s).
Proof.
  intros HO HL HF. destruct (fitted_sound c T HO HL HF) as (values & dr & th & s1 & hs & W & Hi & HA & _ & _ & _ & (HW1 & HW2) & HR).
  assert (HN : forall q, In q hs -> 0 <= q_len q) by (intros q Hq; pose proof (account_len c hs q HL HA Hq); lia).
  set (ks := filter (kept (g_phase P) (tr_series c)) hs) in *.
  set (ml := fun d => match min_list (map q_len (filter (fun q => q_dil q =? d) hs)) with Ok m => m | Err _ => 0 end).
  assert (HM : forall q, In q hs -> min_len_at hs (q_dil q) (ml (q_dil q))).
  { intros q Hq. unfold ml. assert (HI : In (q_len q) (map q_len (filter (fun q0 => q_dil q0 =? q_dil q) hs))).
    { apply in_map. apply filter_In. split; [exact Hq|apply Z.eqb_refl]. }
    destruct (min_list_ok (map q_len (filter (fun q0 => q_dil q0 =? q_dil q) hs))) as (m & Em).
    { intros E. rewrite E in HI. destruct HI. }
    destruct (min_list_spec _ _ Em) as [Hm Hle]. rewrite Em. split.
    - apply in_map_iff in Hm as (q' & E' & Hq'). apply filter_In in Hq' as [A B]. exists q'. split; [exact A|]. split; [apply Z.eqb_eq; exact B|exact E'].
    - intros q' A B. apply Hle. apply in_map. apply filter_In. split; [exact A|apply Z.eqb_eq; exact B]. }
  exists (map q_source ks), ml. split; [split|split].
  - rewrite zlen_map. rewrite (returned_zlen _ _ _ _ HR). reflexivity.
  - intros k v l d thr nm s t HK Hs. destruct (returned_at _ _ _ _ _ _ _ _ _ _ HN HR HK) as (q & Hq & El & Ed & En & Et & Ev). fold ks in Hq.
    rewrite nthZ_map, Hq in Hs. cbn [option_map] in Hs. apply filter_one in Hq as (i & Hq & _).
    unfold q_values in Ev. unfold q_source in Hs. destruct (q_origin q) as [o|] eqn:Eo; [|discriminate].
    assert (Es : o_series o = s /\ o_start o = t) by (split; congruence). destruct Es as [<- <-].
    destruct (ac_some _ _ _ _ _ _ _ _ _ _ _ _ HA i q o Hq Eo) as ((q' & Hq' & C1 & C2 & _) & _). assert (q' = q) by congruence. subst q'.
    rewrite El, Ed, En in *. split; [exact C1|]. split; [exact C2|congruence].
  - intros k v l d thr nm HK. destruct (returned_at _ _ _ _ _ _ _ _ _ _ HN HR HK) as (q & Hq & El & Ed & En & Et & Ev). fold ks in Hq. apply filter_one in Hq as (i & Hq & _).
    assert (HI : In q hs) by (eapply nthZ_In; exact Hq). destruct (HM q HI) as ((q' & A1 & A2 & A3) & B). rewrite Ed in *. split.
    + rewrite <- A3. apply In_nthZ in A1 as (i' & A1). destruct (ac_params _ _ _ _ _ _ _ _ _ _ _ _ HA i' q' A1) as [Q _]. exact Q.
    + rewrite <- El. apply B; [exact HI|exact Ed].
  - intros k k' v v' l l' d thr thr' nm s t t' Hkk HK HK' Hs Hs' j Hj.
    destruct (returned_at _ _ _ _ _ _ _ _ _ _ HN HR HK) as (q & Hq & El & Ed & En & Et & Ev). fold ks in Hq.
    destruct (returned_at _ _ _ _ _ _ _ _ _ _ HN HR HK') as (q' & Hq' & El' & Ed' & En' & Et' & Ev'). fold ks in Hq'.
    rewrite nthZ_map, Hq in Hs. rewrite nthZ_map, Hq' in Hs'. cbn [option_map] in Hs, Hs'.
    destruct (filter_two _ _ _ _ _ _ Hkk Hq Hq') as (i & i' & Hii & Gi & Gi' & _ & _).
    unfold q_values in Ev, Ev'. unfold q_source in Hs, Hs'. destruct (q_origin q) as [o|] eqn:Eo; [|discriminate]. destruct (q_origin q') as [o'|] eqn:Eo'; [|discriminate].
    assert (Es : o_series o = s /\ o_start o = t) by (split; congruence). destruct Es as [Es <-].
    assert (Es' : o_series o' = s /\ o_start o' = t') by (split; congruence). destruct Es' as [Es' <-].
    destruct (ac_some _ _ _ _ _ _ _ _ _ _ _ _ HA i' q' o' Gi' Eo') as ((q2 & Hq2 & C1 & C2 & C3) & _). assert (q2 = q') by congruence. subst q2.
    pose proof (nthZ_range _ _ _ Gi).
    assert (NT : ~ too_close (g_alpha P) (tr_series c) hs q o (o_start o')).
    { apply (C3 i q o ltac:(lia) Gi Eo); congruence. }
    assert (HI : In q hs) by (eapply nthZ_In; exact Gi). pose proof (HM q HI) as Hml. rewrite Ed in Hml. rewrite <- Es.
    split; intros E; apply NT; exists (ml d), j; rewrite Ed, El; auto.
Qed.

(** ** Missing requests *)

Lemma forallb_zero v : forallb (fun x => Reqb x 0) v = true <-> forall x, In x v -> x = 0%R.
Proof. rewrite forallb_forall. split; intros H x Hx; apply Reqb_true; apply H; exact Hx. Qed.

Lemma account_missing c hs i q : acc c hs -> nthZ hs i = Some q ->
  kept (g_phase P) (tr_series c) q = false <->
  (forall s t, ~ free_start (g_phase P) (g_alpha P) (tr_samples c) (tr_series c) hs i s t) \/
  (exists v, q_values (g_phase P) (tr_series c) q = Some v /\ forall x, In x v -> x = 0%R).
Proof.
  intros HA Hq. unfold kept. destruct (q_values (g_phase P) (tr_series c) q) as [v|] eqn:Ev.
  - rewrite negb_false_iff, forallb_zero. split.
    + intros H. right. exists v. auto.
    + intros [H|(w & A & B)]; [|assert (w = v) by congruence; subst w; exact B]. exfalso. unfold q_values in Ev. destruct (q_origin q) as [o|] eqn:Eo; [|discriminate].
      destruct (ac_some _ _ _ _ _ _ _ _ _ _ _ _ HA i q o Hq Eo) as (HFr & _). eapply H; exact HFr.
  - split; [|reflexivity]. intros _. left. unfold q_values in Ev. destruct (q_origin q) as [o|] eqn:Eo; [discriminate|].
    apply (ac_none _ _ _ _ _ _ _ _ _ _ _ _ HA i q Hq Eo).
Qed.

(** ** Parameters drawn *)

Inductive subseq {A} : list A -> list A -> Prop :=
| sub_nil : subseq [] []
| sub_skip x l m : subseq l m -> subseq l (x :: m)
| sub_take x l m : subseq l m -> subseq (x :: l) (x :: m).

Lemma subseq_filter {A B} (f : A -> bool) (g : A -> B) l : subseq (map g (filter f l)) (map g l).
Proof. induction l as [|a t IH]; cbn [filter map]; [constructor|]. destruct (f a); cbn [map]; constructor; exact IH. Qed.

(** (length, dilation, normalise) of the shapelets, in order *)
Definition parameters {F} (T : ushp F) : list (Z * Z * bool) := combine (combine (us_len T) (us_dil T)) (us_norm T).

Lemma combine_map {A B D} (f : A -> B) (g : A -> D) l : combine (map f l) (map g l) = map (fun x => (f x, g x)) l.
Proof. induction l as [|a t IH]; [reflexivity|]. cbn [map combine]. rewrite IH. reflexivity. Qed.

Lemma fitted_parameters n : exists ps, forall c T, tr_ok c -> tr_points c = n -> lengths_ok P n -> fitted RN rng P c T -> zlen ps = g_n P /\ subseq (parameters T) ps.
Proof.
  destruct (U_init RN rng (g_n P) (g_sizes P) n (g_pnorm P) (g_prime P) (r_seed rng (g_seed P))) as [[[[values dr] thr] s1]|e] eqn:Ei.
  - exists (combine (combine (dr_len dr) (dr_dil dr)) (dr_norm dr)). intros c T HO <- HL HF.
    destruct (fitted_sound c T HO HL HF) as (values' & dr' & thr' & s1' & hs & W & Hi & HA & E1 & E2 & E3 & _ & HR).
    assert (ED : dr' = dr) by congruence. rewrite ED in *. clear ED. rewrite <- E1, <- E2, <- E3, !combine_map. split.
    + rewrite zlen_map. apply (ac_n _ _ _ _ _ _ _ _ _ _ _ _ HA).
    + unfold parameters. destruct HR as (H1 & H2 & H3 & _). rewrite H1, H2, H3, !combine_map. apply subseq_filter.
  - exists []. intros c T HO <- HL HF. destruct (fitted_sound c T HO HL HF) as (values' & dr' & thr' & s1' & hs & W & Hi & _). congruence.
Qed.

(** ** Totality, independence of the schedule *)

(** the result of fit on the calling thread, and of one parallel execution *)
Definition fit_seq (c : utrain R) : res (ushp R) :=
  match c with TrSL X y => U_SL_generate RN rng X y P | TrVL X X_len y ml => U_VL_generate RN rng X X_len y ml P end.
Definition fit_par (rs : Z -> S) (sched : list Z -> list (Z * Z)) (c : utrain R) : res (ushp R) :=
  match c with TrSL X y => U_SL_generate_par RN rng rs sched X y P | TrVL X X_len y ml => U_VL_generate_par RN rng rs sched X X_len y ml P end.

Lemma fit_seq_fitted c T : fit_seq c = Ok T -> fitted RN rng P c T.
Proof. destruct c; intros H; [apply fitted_SL_seq|apply fitted_VL_seq]; exact H. Qed.
Lemma fit_par_fitted rs sched c T : scheduler sched -> fit_par rs sched c = Ok T -> fitted RN rng P c T.
Proof. intros HS. destruct c; intros H; [eapply fitted_SL_par|eapply fitted_VL_par]; eauto. Qed.

Definition percentiles_ok : Prop := (0 <= g_pmin P <= 100)%R /\ (0 <= g_pmax P <= 100)%R.

Lemma fit_total c : tr_ok c -> lengths_ok P (tr_points c) -> percentiles_ok -> g_sizes P <> [] -> 1 <= g_n P ->
  (exists T, fit_seq c = Ok T) /\ forall rs, exists T, forall sched, scheduler sched -> fit_par rs sched c = Ok T.
Proof.
  intros HO HL [HP1 HP2] Hs Hn. destruct c as [X y|X X_len y ml]; cbn [tr_ok tr_points fit_seq fit_par] in *; split.
  - eapply SL_total_seq; eauto.
  - intros rs. destruct (SL_total rng L X y _ P HO HL HP1 HP2 rs seq_sched seq_sched_scheduler Hs Hn) as (T & HT). exists T. intros sched HS.
    destruct (SL_total rng L X y _ P HO HL HP1 HP2 rs sched HS Hs Hn) as (T' & HT'). rewrite HT'. f_equal.
    eapply (SL_indep rng L X y _ P HO HL); [exact HS|exact seq_sched_scheduler|exact HT'|exact HT].
  - eapply VL_total_seq; eauto.
  - intros rs. destruct (VL_total rng L X X_len y _ P HO HL HP1 HP2 rs seq_sched seq_sched_scheduler Hs Hn) as (T & HT). exists T. intros sched HS.
    destruct (VL_total rng L X X_len y _ P HO HL HP1 HP2 rs sched HS Hs Hn) as (T' & HT'). rewrite HT'. f_equal.
    eapply (VL_indep rng L X X_len y _ P HO HL); [exact HS|exact seq_sched_scheduler|exact HT'|exact HT].
Qed.
End Laws.

(** ** Shared time points *)

Definition time_point (t l d p : Z) : Prop := exists a, 0 <= a < l /\ p = t + a * d.

Lemma shared_points n t t' l d B : 1 <= d -> 1 <= B -> 0 <= t' < n ->
  (forall j, 0 <= j < l - B -> t' <> (t - j * d) mod n /\ t' <> (t + j * d) mod n) ->
  forall ps, NoDup ps -> (forall p, In p ps -> time_point t l d p /\ time_point t' l d p) -> zlen ps <= B.
Proof.
  intros Hd HB Ht' HJ ps HND HP. destruct ps as [|p0 rest] eqn:Eps; [change (zlen (@nil Z)) with 0; lia|]. rewrite <- Eps in *.
  assert (H0 : In p0 ps) by (rewrite Eps; left; reflexivity). destruct (HP p0 H0) as ((a & Ha & Ea) & (b & Hb & Eb)).
  set (m := a - b). assert (Et : t' = t + m * d) by (unfold m; nia).
  assert (HM : l - Z.abs m <= B).
  { destruct (Z_lt_le_dec B (l - Z.abs m)) as [C|C]; [|lia]. exfalso. destruct (HJ (Z.abs m) ltac:(lia)) as [N1 N2].
    destruct (Z_le_gt_dec 0 m).
    - apply N2. replace (t + Z.abs m * d) with t' by (rewrite Z.abs_eq by lia; lia). symmetry. apply Z.mod_small. exact Ht'.
    - apply N1. replace (t - Z.abs m * d) with t' by (rewrite Z.abs_neq by lia; lia). symmetry. apply Z.mod_small. exact Ht'. }
  assert (INC : incl ps (map (fun a => t + a * d) (zrange (Z.max 0 m) (Z.min l (l + m))))).
  { intros p Hp. destruct (HP p Hp) as ((a' & Ha' & Ea') & (b' & Hb' & Eb')). assert (a' = m + b') by nia. apply in_map_iff. exists a'. split; [lia|]. apply in_zrange. lia. }
  apply NoDup_incl_length in INC; [|exact HND]. rewrite map_length in INC. pose proof (zlen_zrange (Z.max 0 m) (Z.min l (l + m))) as HZ. unfold zlen in *. lia.
Qed.

(** ** The normalisation flags at the ends of the range of p_norm *)

Section PNorm.
Context {S : Type} (rng : Rng R S) (L : RngLaws RN rng).

Lemma draw_norm_flags n p s nm s' b : draw_norm RN rng n p s = Ok (nm, s') -> In b nm -> exists u, (0 <= u < 1)%R /\ (b = true <-> (u < p)%R).
Proof.
  intros H Hb. unfold draw_norm in H. apply mapG_inv in H. revert Hb. induction H as [|x y l l' Hxy _ IH]; intros Hb; [destruct Hb|]. destruct Hb as [<-|Hb]; [|auto].
  destruct Hxy as (s1 & s2 & H). apply bindG_inv in H as (u & s3 & H1 & H). unfold draw_unif in H1. unfold retG in H. cbn [nltb RN] in H. exists u.
  assert (u = fst (r_unif rng s1)) by (destruct (r_unif rng s1); cbn; congruence). subst u. split; [apply RngLaws_R; exact L|].
  assert (E : y = Rltb (fst (r_unif rng s1)) p) by congruence. rewrite E. apply Rltb_true.
Qed.

Lemma U_init_flags n sizes n_ts p prime_scheme s values dr thr s' b : U_init RN rng n sizes n_ts p prime_scheme s = Ok (values, dr, thr, s') -> In b (dr_norm dr) ->
  exists u, (0 <= u < 1)%R /\ (b = true <-> (u < p)%R).
Proof.
  intros H. unfold U_init in H. apply bindG_inv in H as (lens & s1 & H1 & H). apply bindG_inv in H as (dils & s2 & H2 & H).
  apply bind_liftG in H as (th & H3 & H). apply bind_liftG in H as (w & H4 & H). apply bind_liftG in H as (row & H5 & H). apply bind_liftG in H as (vs & H6 & H).
  apply bindG_inv in H as (nm & s3 & H7 & H). unfold retG in H. assert (E : dr = mkDrawn lens dils nm) by congruence. rewrite E. cbn [dr_norm]. eapply draw_norm_flags; eauto.
Qed.

Lemma fitted_flags P c T k v l d thr nm : tr_ok c -> lengths_ok P (tr_points c) -> fitted RN rng P c T -> ushp_at T k v l d thr nm ->
  exists u, (0 <= u < 1)%R /\ (nm = true <-> (u < g_pnorm P)%R).
Proof.
  intros HO HL HF HK. destruct (fitted_sound rng L P c T HO HL HF) as (values & dr & th & s1 & hs & W & Hi & HA & _ & _ & E3 & _ & HR).
  eapply U_init_flags; [exact Hi|]. rewrite <- E3. destruct HR as (_ & _ & H3 & _). destruct HK as (_ & _ & _ & _ & HK). apply nthZ_In in HK. rewrite H3 in HK.
  apply in_map_iff in HK as (q & <- & Hq). apply filter_In in Hq as [Hq _]. apply in_map. exact Hq.
Qed.
End PNorm.

(** ** End to end *)

Lemma distances_ne ph nm (X v : list R) l d : 0 < nwin ph (zlen X) l d -> distances RN ph nm X v l d <> [].
Proof.
  intros H E. unfold distances in E. apply map_eq_nil in E. assert (H0 : In 0 (zrange 0 (nwin ph (zlen X) l d))) by (apply in_zrange; lia). rewrite E in H0. destruct H0.
Qed.

Lemma features_count ds thr m a cnt : (exists x, In x ds /\ (x <= thr)%R) -> is_features RN ds thr (m, a, cnt) -> exists q, cnt = IZR q /\ 1 <= q.
Proof.
  intros (x & Hx & Hle) [(E & _)|(k & _ & _ & _ & _ & ->)]; [rewrite E in Hx; destruct Hx|]. cbn [nofZ nleb RN]. eexists. split; [reflexivity|].
  assert (HI : In x (filter (fun x => Rleb x thr) ds)) by (apply filter_In; split; [exact Hx|apply Rleb_true; exact Hle]).
  destruct (filter (fun x => Rleb x thr) ds); [destruct HI|]. rewrite zlen_cons. pose proof (zlen_nonneg l). lia.
Qed.

Lemma threshold_range ds pmin pmax thr : ds <> [] -> (0 <= pmin <= pmax)%R -> (pmax <= 100)%R -> threshold_between pmin pmax ds thr ->
  exists a b, is_percentile ds pmin a /\ is_percentile ds pmax b /\ (a <= thr <= b)%R /\ (exists x, In x ds /\ (x <= thr)%R).
Proof.
  intros Hne H1 H2 (a & b & u & PA & PB & Hu & ->). pose proof (percentile_mono ds pmin pmax a b Hne ltac:(lra) H2 PA PB) as Hab.
  exists a, b. split; [exact PA|]. split; [exact PB|]. split; [nra|]. destruct (percentile_min ds pmin a Hne ltac:(lra) PA) as ((x & Hx & Hle) & _).
  exists x. split; [exact Hx|]. nra.
Qed.

Section EndToEnd.
Context {S : Type} (rng : Rng R S) (L : RngLaws RN rng) (P : gparams R).

Lemma train_features c T k v l d thr nm D s : tr_ok c -> lengths_ok P (tr_points c) -> fitted RN rng P c T -> run RN (tr_call c T) (g_phase P) = Ok D ->
  ushp_at T k v l d thr nm -> 0 <= s < tr_samples c ->
  exists f, cell3 D s k f /\ is_features RN (distances RN (g_phase P) nm (tr_series c s) v l d) thr f.
Proof.
  intros HO HL HF HD HK Hs. destruct (fitted_wf rng L P c T HO HL HF) as [HW _].
  destruct (cell_exists (tr_call c T) (g_phase P) D s k _ _ _ l d thr nm (zlen (tr_series c s)) (tr_wf_call c T HO HW) HD (tr_sample_at c T s HO Hs) (tr_shapelet_at c T k v l d thr nm HK)) as (f & A & B).
  - intros r [<-|[]]. reflexivity.
  - exists f. split; [exact A|]. rewrite distances_mdistances. exact B.
Qed.
End EndToEnd.

(** ** Raw points *)

(** [w] holds the points of the first [n] points of [r] read from [t] with step [d], around the end if [ph]. *)
Definition points_of (r : list R) (n : Z) (ph : bool) (l d t : Z) (w : list R) : Prop :=
  zlen w = l /\ 0 <= t < n /\ (ph = false -> t + (l - 1) * d < n) /\
  forall j, 0 <= j < l -> nthZ w j = nthZ r (if ph then (t + j * d) mod n else t + j * d).

Lemma window_points ph (r : list R) n l d t : 2 <= l -> 1 <= d -> 0 <= n <= zlen r -> 0 <= t < nwin ph n l d ->
  points_of r n ph l d t (window RN ph (slice r 0 n) l d t).
Proof.
  intros Hl Hd Hn Ht. pose proof (zlen_slice0 r n Hn) as HZ. split; [apply zlen_window; lia|]. split; [unfold nwin in Ht; destruct ph; nia|].
  split; [intros ->; unfold nwin in Ht; lia|]. intros j Hj. assert (HF : fits ph (zlen (slice r 0 n)) l d) by (rewrite HZ; unfold fits, nwin in *; destruct ph; [lia|nia]).
  rewrite nthZ_window; [|exact HF|rewrite HZ; exact Ht|exact Hj]. rewrite HZ. assert (HP : 0 <= pos ph n (t + j * d) < n).
  { unfold pos, nwin in *. destruct ph; [apply Z.mod_pos_bound; lia|nia]. }
  rewrite nthZ_slice by lia. rewrite Z.add_0_l. unfold pos. reflexivity.
Qed.

Section Raw.
Context {S : Type} (rng : Rng R S) (L : RngLaws RN rng) (P : gparams R).

Lemma fitted_raw c T k v l d thr nm : tr_ok c -> lengths_ok P (tr_points c) -> fitted RN rng P c T -> ushp_at T k v l d thr nm ->
  exists i x r n t w, nthZ (match c with TrSL X _ => X | TrVL X _ _ _ => X end) i = Some x /\ nthZ x 0 = Some r /\
    (match c with TrSL X _ => n = n_timestamps X | TrVL _ X_len _ _ => nthZ X_len i = Some n end) /\
    points_of r n (g_phase P) l d t w /\ v = seen RN nm w.
Proof.
  intros HO HL HF HK. destruct (fitted_origin rng L P c T k v l d thr nm HO HL HF HK) as (Hl & (D1 & D2 & _) & s & t & s' & (C1 & C2 & C3) & _).
  pose proof (HL l Hl) as Hl2. destruct c as [X y|X X_len y ml]; cbn [tr_ok tr_points tr_samples tr_series] in *.
  - pose proof (tr_sample_at (TrSL X y) T s HO C1) as HS. cbn [tr_call tr_series] in HS. inversion HS as [X0 s0 i0 x sr Hx Hr| | |]; subst.
    exists s, x, (ser X s), (n_timestamps X), t, (window RN (g_phase P) (ser X s) l d t). split; [exact Hx|]. split; [exact Hr|]. split; [reflexivity|]. split; [|reflexivity].
    pose proof (train_u_ser _ X y s HO C1) as HZ. rewrite <- (slice_full (ser X s)) at 2. rewrite HZ in *. apply window_points; lia.
  - pose proof (tr_sample_at (TrVL X X_len y ml) T s HO C1) as HS. cbn [tr_call tr_series] in HS. inversion HS as [|X0 XL0 s0 i0 sr HP| |]; subst. destruct HP as (x & r & n & Hx & Hr & Hn & E).
    exists s, x, r, n, t, (window RN (g_phase P) (slice r 0 n) l d t). split; [exact Hx|]. split; [exact Hr|]. split; [exact Hn|].
    pose proof (zlen_ser_vl ml X X_len y HO s C1) as HZ. rewrite E in *. rewrite (nthd_some 0 _ _ _ Hn) in HZ. rewrite HZ in C2. split; [|reflexivity].
    destruct HO as (_ & _ & H1 & _ & _ & H3 & H4). pose proof (H3 n (nthZ_In _ _ _ Hn)). pose proof (H4 x r n (nthZ_In _ _ _ Hx) (nthZ_In _ _ _ Hr) (nthZ_In _ _ _ Hn)).
    apply window_points; lia.
Qed.

(** the rows of the values array: [length] values followed by zeros *)
Lemma fitted_rows c T k row l : tr_ok c -> lengths_ok P (tr_points c) -> fitted RN rng P c T -> nthZ (us_values T) k = Some row -> nthZ (us_len T) k = Some l ->
  (In (zlen row) (g_sizes P) /\ forall m, In m (g_sizes P) -> m <= zlen row) /\ forall j x, l <= j -> nthZ row j = Some x -> x = 0%R.
Proof.
  intros HO HL HF Hrow Hl. destruct (fitted_sound rng L P c T HO HL HF) as (values & dr & th & s1 & hs & W & Hi & HA & _ & _ & _ & (HW1 & HW2) & HR).
  destruct HR as (H1 & H2 & H3 & H4 & H5). rewrite H5, nthZ_map in Hrow. rewrite H1, nthZ_map in Hl. destruct (nthZ (filter _ hs) k) as [q|] eqn:Eq; [|discriminate]. cbn [option_map] in *.
  assert (El : q_len q = l) by congruence. assert (Er : row = val_of (g_phase P) (tr_series c) q ++ repeat 0%R (Z.to_nat (W - q_len q))) by congruence.
  assert (HI : In q (filter (kept (g_phase P) (tr_series c)) hs)) by (eapply nthZ_In; exact Eq). apply filter_In in HI as [HI HK].
  pose proof (account_len P c hs q HL HA HI) as HQ. assert (HV : zlen (val_of (g_phase P) (tr_series c) q) = l).
  { unfold kept, val_of in *. destruct (q_values (g_phase P) (tr_series c) q) as [w|] eqn:Ew; [|discriminate]. unfold q_values in Ew. destruct (q_origin q) as [o|]; [|discriminate].
    assert (Ew' : w = seen RN (q_norm q) (window RN (g_phase P) (tr_series c (o_series o)) (q_len q) (q_dil q) (o_start o))) by congruence. rewrite Ew', zlen_seen, zlen_window; lia. }
  assert (HW : l <= W). { rewrite <- El. apply HW2. apply In_nthZ in HI as (i & HI). apply (ac_params _ _ _ _ _ _ _ _ _ _ _ _ HA i q HI). }
  assert (HZr : zlen row = W). { rewrite Er, zlen_app, HV. unfold zlen at 1. rewrite repeat_length. lia. }
  split; [rewrite HZr; auto|]. intros j x Hj Hx. rewrite Er, nthZ_app, HV in Hx. replace (j <? l) with false in Hx by (symmetry; apply Z.ltb_ge; exact Hj).
  apply nthZ_In in Hx. apply repeat_spec in Hx. exact Hx.
Qed.
End Raw.
