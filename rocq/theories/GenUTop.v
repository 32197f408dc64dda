(** Univariate shapelet generation: the four entry points (same or variable length, sequential or parallel). *)
From Coq Require Import ZArith Znumtheory List Bool Reals Lra Lia Permutation.
From Verif Require Import Prelude Num Kernel Spec KernelProofs RealBase Apply ApplyUni TransformProofs TransformLaws Gen GenSched GenBase GenUni
  GenULoop GenTrace GenURun GenDraw GenSpec GenUFinal.
Import ListNotations.
Open Scope Z_scope.

(** ** Sequential runs are parallel runs *)

Section Seq.
Context {F : Type} (N : NumOps F) {S : Type} (rng : Rng F S).

Lemma seq_sched_scheduler : scheduler seq_sched.
Proof. intros d. apply seq_sched_ok. Qed.

Lemma exec_seq_par {ST} dr (iter : ST -> Z * Z -> G S ST) st s q : exec_seq dr iter st s = Ok q ->
  exists rs, exec_par rs seq_sched dr iter st s = Ok (fst q, s).
Proof.
  destruct q as [st' s']. intros H. unfold exec_seq in H. apply foldG_sched in H as (rs & H).
  - exists rs. unfold exec_par, liftG. rewrite H. reflexivity.
  - apply (sched_shp_NoDup (dr_dil dr)). apply seq_sched_ok.
Qed.

Lemma U_SL_seq_par X y P R : U_SL_generate N rng X y P = Ok R -> exists rs, U_SL_generate_par N rng rs seq_sched X y P = Ok R.
Proof.
  unfold U_SL_generate, U_SL_generate_par, U_SL_generate_with. intros H. apply bind_inv in H as ([[[values dr] thr] s1] & Hi & H).
  apply bind_inv in H as (q & Hq & H). destruct (exec_seq_par _ _ _ _ _ Hq) as (rs & Hrs). exists rs. rewrite Hi. cbn [bind]. rewrite Hrs. exact H.
Qed.

Lemma U_VL_seq_par X X_len y ml P R : U_VL_generate N rng X X_len y ml P = Ok R -> exists rs, U_VL_generate_par N rng rs seq_sched X X_len y ml P = Ok R.
Proof.
  unfold U_VL_generate, U_VL_generate_par, U_VL_generate_with. intros H. apply bind_inv in H as ([[[values dr] thr] s1] & Hi & H).
  apply bind_inv in H as (st0 & Hs & H).
  apply bind_inv in H as (q & Hq & H). destruct (exec_seq_par _ _ _ _ _ Hq) as (rs & Hrs). exists rs. rewrite Hi. cbn [bind]. rewrite Hs. cbn [bind]. rewrite Hrs. exact H.
Qed.
End Seq.

(** ** A run, for any variant *)

Section Core.
Context {S : Type} (rng : Rng R S) (L : RngLaws RN rng).
Context (nsamp wd : Z) (nlen : Z -> Z) (srs : Z -> list R) (y : list Z) (P : gparams R) (n_ts : Z) (m0 : list (list bool)).
Context (iter : drawn -> ust R -> Z * Z -> G S (ust R)).
Context (localG : drawn -> Z * Z -> list (list bool) -> G S (list (list bool) * option (pick R))).
Hypothesis Hstep : forall dr rs st e sched, wf_drawn dr -> is_schedule (dr_dil dr) sched -> In e sched ->
  (let* p := iter dr st e (rs (snd e)) in Ok (u_enc (fst p))) = u_step rs (localG dr) dr (u_enc st) e.
Hypothesis Hinv : forall dr g i m s r, mask_ok nsamp wd m -> draw_fits nsamp nlen dr i -> localG dr (g, i) m s = Ok r ->
  iter_ok RN rng nsamp wd nlen srs y P dr (g, i) m (fst (fst r)) (snd (fst r)).
Hypothesis Hm0k : mask_ok nsamp wd m0.
Hypothesis Hm0 : forall s t, mcell m0 s t = true <-> 0 <= s < nsamp /\ 0 <= t < nlen s.
Hypothesis Hsl : forall s, 0 <= s < nsamp -> zlen (srs s) = nlen s.
Hypothesis Hsz : forall l, In l (g_sizes P) -> 2 <= l <= n_ts.
Hypothesis Hnl : forall s, 0 <= s < nsamp -> n_ts <= nlen s.
Notation init := (U_init RN rng (g_n P) (g_sizes P) n_ts (g_pnorm P) (g_prime P) (r_seed rng (g_seed P))).
Notation acc := (account (g_phase P) (g_alpha P) (g_pmin P) (g_pmax P) (g_prime P) (g_sizes P) n_ts (g_n P) nsamp srs y).

Lemma drawn_wf dr : drawn_ok (g_n P) (g_sizes P) n_ts (g_prime P) dr -> wf_drawn dr.
Proof. intros H. unfold wf_drawn. rewrite (do_len _ _ _ _ _ H), (do_dil _ _ _ _ _ H), (do_norm _ _ _ _ _ H). auto. Qed.

Lemma drawn_fits dr i : drawn_ok (g_n P) (g_sizes P) n_ts (g_prime P) dr -> 0 <= i < g_n P -> draw_fits nsamp nlen dr i.
Proof.
  intros H Hi. pose proof (do_size _ _ _ _ _ H i Hi) as H1. pose proof (do_fit _ _ _ _ _ H i Hi) as (H2 & H3 & _). specialize (Hsz _ H1).
  split; [lia|]. split; [exact H2|]. intros s Hs. specialize (Hnl s Hs). lia.
Qed.

Lemma event_fits dr sched g i : drawn_ok (g_n P) (g_sizes P) n_ts (g_prime P) dr -> is_schedule (dr_dil dr) sched -> In (g, i) sched -> draw_fits nsamp nlen dr i.
Proof.
  intros H HS Hin. apply drawn_fits; [exact H|]. apply (sched_event _ _ g i HS) in Hin. rewrite (do_dil _ _ _ _ _ H) in Hin. tauto.
Qed.

Lemma init_state values dr thr s1 : init = Ok (values, dr, thr, s1) ->
  drawn_ok (g_n P) (g_sizes P) n_ts (g_prime P) dr /\
  exists W, (forall l, In l (g_sizes P) -> l <= W) /\ In W (g_sizes P) /\
    (forall i, 0 <= i < zlen (dr_len dr) -> 0 <= dlen dr i <= W) /\
    u_enc (mkUst (mask0 dr m0) thr values) = (mask0 dr m0, (thr0 RN dr, val0 RN dr W)).
Proof.
  intros H. destruct (U_init_inv rng L _ _ _ _ _ _ _ _ _ _ Hsz H) as (Hn & HD & W & HW & HWin & -> & ->). split; [exact HD|].
  exists W. split; [exact HW|]. split; [exact HWin|]. rewrite (do_len _ _ _ _ _ HD). split.
  - intros i Hi. pose proof (do_size _ _ _ _ _ HD i Hi) as Hin. specialize (HW _ Hin). specialize (Hsz _ Hin). lia.
  - unfold u_enc, thr0, val0. cbn [u_mask u_thr u_val n0 RN]. rewrite (do_len _ _ _ _ _ HD). reflexivity.
Qed.

Lemma run_as_step dr rs sched st0 st' : drawn_ok (g_n P) (g_sizes P) n_ts (g_prime P) dr -> is_schedule (dr_dil dr) sched ->
  run_sched (iter dr) rs sched st0 = Ok st' -> foldM (u_step rs (localG dr) dr) sched (u_enc st0) = Ok (u_enc st').
Proof.
  intros HD HS H. rewrite <- (run_enc (iter dr) u_enc (u_step rs (localG dr) dr) rs sched).
  - rewrite H. reflexivity.
  - intros st e He. apply (Hstep dr rs st e sched); [apply drawn_wf; exact HD|exact HS|exact He].
Qed.

Lemma core_sound values dr thr s1 rs sched st' : init = Ok (values, dr, thr, s1) -> is_schedule (dr_dil dr) sched ->
  run_sched (iter dr) rs sched (mkUst (mask0 dr m0) thr values) = Ok st' ->
  exists hs W, acc hs /\ map q_len hs = dr_len dr /\ map q_dil hs = dr_dil dr /\ map q_norm hs = dr_norm dr /\
    (In W (g_sizes P) /\ forall l, In l (g_sizes P) -> l <= W) /\ returned srs P W hs (U_finish RN dr st').
Proof.
  intros Hi HS H. destruct (init_state _ _ _ _ Hi) as (HD & W & HW & HWin & HWl & E). apply (run_as_step dr rs sched _ _ HD HS) in H. rewrite E in H.
  destruct st' as [M' thr' val']. unfold u_enc in H at 1. cbn [u_mask u_thr u_val] in H.
  destruct (u_run_history RN rng nsamp wd nlen srs y P dr (localG dr) m0 W rs sched (drawn_wf dr HD) HS Hm0k HWl) with (2 := H) as (ms & pks & HH).
  { intros [g i] m s r He HM HL. apply (Hinv dr g i m s r HM); [|exact HL]. eapply event_fits; eauto. }
  exists (reqs dr (g_n P) pks), W.
  split; [eapply history_account; eauto; intros l Hl; specialize (Hsz l Hl); lia|].
  split; [symmetry; rewrite <- (map_nthd_zrange 0 (dr_len dr)); rewrite (do_len _ _ _ _ _ HD); apply map_nth_eq; reflexivity|].
  split; [symmetry; rewrite <- (map_nthd_zrange 0 (dr_dil dr)); rewrite (do_dil _ _ _ _ _ HD); apply map_nth_eq; reflexivity|].
  split; [symmetry; rewrite <- (map_nthd_zrange false (dr_norm dr)); rewrite (do_norm _ _ _ _ _ HD); apply map_nth_eq; reflexivity|].
  split; [auto|]. eapply history_returned; eauto.
  - intros l Hl. specialize (Hsz l Hl). lia.
  - rewrite <- (do_len _ _ _ _ _ HD). exact HWl.
Qed.

Hypothesis Htot : forall dr g i m s, mask_ok nsamp wd m -> draw_fits nsamp nlen dr i -> exists r, localG dr (g, i) m s = Ok r.

Lemma core_total values dr thr s1 rs sched : init = Ok (values, dr, thr, s1) -> is_schedule (dr_dil dr) sched ->
  exists st', run_sched (iter dr) rs sched (mkUst (mask0 dr m0) thr values) = Ok st'.
Proof.
  intros Hi HS. destruct (init_state _ _ _ _ Hi) as (HD & W & HW & HWin & HWl & E).
  assert (HR := run_enc (iter dr) u_enc (u_step rs (localG dr) dr) rs sched
     (fun st e He => Hstep dr rs st e sched (drawn_wf dr HD) HS He) (mkUst (mask0 dr m0) thr values)).
  rewrite E in HR.
  destruct (u_run_total RN rng nsamp wd nlen srs y P dr (localG dr) m0 W rs sched (drawn_wf dr HD) HS Hm0k HWl) as (M' & o' & HF).
  - intros [g i] m s r He HM HL. apply (Hinv dr g i m s r HM); [|exact HL]. eapply event_fits; eauto.
  - intros [g i] m s He HM. apply Htot; [exact HM|]. eapply event_fits; eauto.
  - rewrite HF in HR. destruct (run_sched (iter dr) rs sched (mkUst (mask0 dr m0) thr values)) as [st'|er]; [eauto|discriminate].
Qed.

Lemma core_indep values dr thr s1 rs sched sched' st st' : init = Ok (values, dr, thr, s1) ->
  is_schedule (dr_dil dr) sched -> is_schedule (dr_dil dr) sched' ->
  run_sched (iter dr) rs sched (mkUst (mask0 dr m0) thr values) = Ok st ->
  run_sched (iter dr) rs sched' (mkUst (mask0 dr m0) thr values) = Ok st' -> u_thr st = u_thr st' /\ u_val st = u_val st'.
Proof.
  intros Hi HS HS' H H'. destruct (init_state _ _ _ _ Hi) as (HD & W & HW & HWin & HWl & E).
  apply (run_as_step dr rs sched _ _ HD HS) in H. apply (run_as_step dr rs sched' _ _ HD HS') in H'.
  destruct st as [M1 t1 v1], st' as [M2 t2 v2]. unfold u_enc in H, H'. cbn [u_mask u_thr u_val] in *.
  assert (EQ : (t1, v1) = (t2, v2)); [|split; congruence].
  eapply (two_schedules (dnorm dr) (with_rs rs (localG dr)) u_put (dr_dil dr)) with (s1 := sched) (s2 := sched'); [|exact HS|exact HS'|exact H|exact H'|].
  - intros. eapply u_put_comm; eauto.
  - intros e He. rewrite (mask0_present dr m0 sched e HS He). discriminate.
Qed.
End Core.

(** ** Same length *)

(** A training set of [zlen X] univariate series of [n] points each, with their labels. *)
Definition train_u {F} (n : Z) (X : dataset F) (y : list Z) : Prop :=
  X <> [] /\ has_ft X /\ 0 < n /\ (forall x r, In x X -> In r x -> zlen r = n) /\ zlen y = zlen X.

Lemma train_u_ser {F} n (X : dataset F) y i : train_u n X y -> 0 <= i < zlen X -> zlen (ser X i) = n.
Proof.
  intros (_ & HF & _ & HR & _) Hi. destruct (nthZ_some X i Hi) as (x & Hx). unfold ser. rewrite (nthd_some [] X i x Hx). pose proof (nthZ_In _ _ _ Hx) as Hin.
  specialize (HF x Hin). destruct x as [|r t]; [congruence|]. change (nthd [] (r :: t) 0) with r. eapply HR; [exact Hin|left; reflexivity].
Qed.

Lemma train_u_nts {F} n (X : dataset F) y : train_u n X y -> n_timestamps X = n.
Proof.
  intros H. pose proof H as (HN & HF & _ & HR & _). destruct X as [|x X']; [congruence|]. cbn. specialize (HF x (or_introl eq_refl)).
  destruct x as [|r t]; [congruence|]. change (zlen r = n). apply (HR (r :: t) r); left; reflexivity.
Qed.

Definition m0_SL {F} (n : Z) (X : dataset F) : list (list bool) := repeat (repeat true (Z.to_nat n)) (length X).

Lemma m0_SL_ok {F} n (X : dataset F) : 0 < n -> mask_ok (zlen X) n (m0_SL n X).
Proof.
  intros Hn. unfold m0_SL. split; [unfold zlen; rewrite repeat_length; reflexivity|]. intros s r Hr. apply nthZ_In in Hr. apply repeat_spec in Hr. subst.
  rewrite zlen_repeat. lia.
Qed.

Lemma mcell_m0_SL {F} n (X : dataset F) s t : 0 < n -> mcell (m0_SL n X) s t = true <-> 0 <= s < zlen X /\ 0 <= t < n.
Proof.
  intros Hn. destruct (m0_SL_ok n X Hn) as [M1 M2]. split.
  - intros H. apply mcell_true in H as (r & Hr & Ht). pose proof (nthZ_range _ _ _ Hr). pose proof (nthZ_range _ _ _ Ht). rewrite (M2 _ _ Hr) in *. lia.
  - intros [Hs Ht]. apply (mcell_nth _ s t (repeat true (Z.to_nat n))).
    + unfold m0_SL. apply nthZ_repeat. unfold zlen in Hs. lia.
    + apply nthZ_repeat. lia.
Qed.

Section SL.
Context {S : Type} (rng : Rng R S) (L : RngLaws RN rng).
Context (X : dataset R) (y : list Z) (n : Z) (P : gparams R).
Hypothesis HX : train_u n X y.
Hypothesis Hsz : forall l, In l (g_sizes P) -> 2 <= l <= n.
Notation acc := (account (g_phase P) (g_alpha P) (g_pmin P) (g_pmax P) (g_prime P) (g_sizes P) n (g_n P) (zlen X) (ser X) y).

Lemma SL_parts : has_ft X /\ 0 < n /\ (forall i, 0 <= i < zlen X -> zlen (ser X i) = n) /\ zlen y = zlen X /\ n_timestamps X = n.
Proof.
  pose proof HX as (_ & A & B & _ & D). split; [exact A|]. split; [exact B|]. split; [intros i Hi; eapply train_u_ser; eauto|]. split; [exact D|eapply train_u_nts; eauto].
Qed.

Lemma SL_start dr values thr : U_SL_start X dr values thr = mkUst (mask0 dr (m0_SL n X)) thr values.
Proof. destruct SL_parts as (_ & _ & _ & _ & E). unfold U_SL_start, mask0, m0_SL. rewrite E. reflexivity. Qed.

Lemma SL_par_inv rs sched T : U_SL_generate_par RN rng rs sched X y P = Ok T ->
  exists values dr thr s1 st', U_init RN rng (g_n P) (g_sizes P) n (g_pnorm P) (g_prime P) (r_seed rng (g_seed P)) = Ok (values, dr, thr, s1) /\
    run_sched (U_SL_iter RN rng X y n P dr) rs (sched (dr_dil dr)) (mkUst (mask0 dr (m0_SL n X)) thr values) = Ok st' /\ T = U_finish RN dr st'.
Proof.
  unfold U_SL_generate_par, U_SL_generate_with. destruct SL_parts as (_ & _ & _ & _ & E). rewrite E. intros H. apply bind_inv in H as ([[[values dr] thr] s1] & Hi & H).
  apply bind_inv in H as ([st' s2] & Hq & H). cbn [fst] in H. rewrite SL_start in Hq. unfold exec_par in Hq. apply liftG_inv in Hq as [Hq _].
  exists values, dr, thr, s1, st'. split; [exact Hi|]. split; [exact Hq|congruence].
Qed.

Theorem SL_sound rs sched T : scheduler sched -> U_SL_generate_par RN rng rs sched X y P = Ok T ->
  exists values dr thr s1 hs W, U_init RN rng (g_n P) (g_sizes P) n (g_pnorm P) (g_prime P) (r_seed rng (g_seed P)) = Ok (values, dr, thr, s1) /\
    acc hs /\ map q_len hs = dr_len dr /\ map q_dil hs = dr_dil dr /\ map q_norm hs = dr_norm dr /\
    (In W (g_sizes P) /\ forall l, In l (g_sizes P) -> l <= W) /\ returned (ser X) P W hs T.
Proof.
  intros HS H. apply SL_par_inv in H as (values & dr & thr & s1 & st' & Hi & Hr & ->). destruct SL_parts as (A & B & D & E & _).
  exists values, dr, thr, s1.
  destruct (core_sound rng L (zlen X) n (fun _ => n) (ser X) y P n (m0_SL n X) (U_SL_iter RN rng X y n P) (U_SL_localG RN rng X y n P))
    with (values := values) (dr := dr) (thr := thr) (s1 := s1) (rs := rs) (sched := sched (dr_dil dr)) (st' := st') as (hs & W & HH); auto.
  - intros. eapply U_SL_iter_step; eauto.
  - intros. apply (SL_local_inv RN rng X y n P dr0 A B D E g i m s r); assumption.
  - apply m0_SL_ok; exact B.
  - intros s t. apply mcell_m0_SL. exact B.
  - intros; lia.
  - exists hs, W. split; [exact Hi|exact HH].
Qed.

Hypothesis Hq1 : (0 <= g_pmin P <= 100)%R.
Hypothesis Hq2 : (0 <= g_pmax P <= 100)%R.

Lemma SL_run_total values dr thr s1 rs sched : U_init RN rng (g_n P) (g_sizes P) n (g_pnorm P) (g_prime P) (r_seed rng (g_seed P)) = Ok (values, dr, thr, s1) ->
  is_schedule (dr_dil dr) sched -> exists st', run_sched (U_SL_iter RN rng X y n P dr) rs sched (mkUst (mask0 dr (m0_SL n X)) thr values) = Ok st'.
Proof.
  intros Hi HS. destruct SL_parts as (A & B & D & E & _).
  eapply (core_total rng L (zlen X) n (fun _ => n) (ser X) y P n (m0_SL n X) (U_SL_iter RN rng X y n P) (U_SL_localG RN rng X y n P)); eauto.
  - intros. eapply U_SL_iter_step; eauto.
  - intros. apply (SL_local_inv RN rng X y n P dr0 A B D E g i m s r); assumption.
  - apply m0_SL_ok; exact B.
  - intros s t. apply mcell_m0_SL. exact B.
  - intros; lia.
  - intros. apply (SL_local_total RN rng X y n P dr0 A B D E L); try assumption.
    intros a _. destruct (percentiles_R a _ _ Hq1 Hq2) as (p & Hp & _). eauto.
Qed.

Theorem SL_total rs sched : scheduler sched -> g_sizes P <> [] -> 1 <= g_n P -> exists T, U_SL_generate_par RN rng rs sched X y P = Ok T.
Proof.
  intros HS Hne Hn. destruct (U_init_total rng L (g_n P) (g_sizes P) n (g_pnorm P) (g_prime P) (r_seed rng (g_seed P)) Hne Hsz Hn) as ([[[values dr] thr] s1] & Hi).
  unfold U_SL_generate_par, U_SL_generate_with. destruct SL_parts as (_ & _ & _ & _ & E). rewrite E, Hi. cbn [bind]. rewrite SL_start.
  destruct (SL_run_total values dr thr s1 rs (sched (dr_dil dr)) Hi (HS _)) as (st' & Hr). unfold exec_par, liftG. rewrite Hr. cbn [bind]. eauto.
Qed.

Theorem SL_total_seq : g_sizes P <> [] -> 1 <= g_n P -> exists T, U_SL_generate RN rng X y P = Ok T.
Proof.
  intros Hne Hn. destruct (U_init_total rng L (g_n P) (g_sizes P) n (g_pnorm P) (g_prime P) (r_seed rng (g_seed P)) Hne Hsz Hn) as ([[[values dr] thr] s1] & Hi).
  unfold U_SL_generate, U_SL_generate_with. destruct SL_parts as (_ & _ & _ & _ & E). rewrite E, Hi. cbn [bind]. rewrite SL_start.
  unfold exec_seq. edestruct (foldG_par_total (U_SL_iter RN rng X y n P dr) (seq_sched (dr_dil dr))) as (r & Hr).
  - apply (sched_shp_NoDup (dr_dil dr)). apply seq_sched_ok.
  - intros rs. apply (SL_run_total values dr thr s1 rs _ Hi). apply seq_sched_ok.
  - rewrite Hr. cbn [bind]. eauto.
Qed.

End SL.

Theorem SL_indep {S : Type} (rng : Rng R S) (L : RngLaws RN rng) X y n P (HX : train_u n X y) (Hsz : forall l, In l (g_sizes P) -> 2 <= l <= n) rs sched sched' T T' :
  scheduler sched -> scheduler sched' ->
  U_SL_generate_par RN rng rs sched X y P = Ok T -> U_SL_generate_par RN rng rs sched' X y P = Ok T' -> T = T'.
Proof.
  intros HS HS' H H'. apply (SL_par_inv rng X y n P HX) in H as (values & dr & thr & s1 & st & Hi & Hr & ->).
  apply (SL_par_inv rng X y n P HX) in H' as (values' & dr' & thr' & s1' & st' & Hi' & Hr' & ->).
  assert (E : (values, dr, thr) = (values', dr', thr')) by congruence. inversion E; subst values' dr' thr'. clear E.
  destruct (SL_parts X y n HX) as (A & B & D & E & _).
  assert (EE : u_thr st = u_thr st' /\ u_val st = u_val st').
  { eapply (core_indep rng L (zlen X) n (fun _ => n) (ser X) y P n (m0_SL n X) (U_SL_iter RN rng X y n P) (U_SL_localG RN rng X y n P))
      with (8 := Hi) (11 := Hr) (12 := Hr'); auto.
    - intros. eapply U_SL_iter_step; eauto.
    - intros. apply (SL_local_inv RN rng X y n P dr0 A B D E g i m s r); assumption.
    - apply m0_SL_ok; exact B.
    - intros s t. apply mcell_m0_SL. exact B.
    - intros; lia. }
  destruct EE as [E1 E2].
  unfold U_finish. rewrite E1, E2. reflexivity.
Qed.

(** ** Variable length *)

(** A training set of univariate series, padded in [X], whose numbers of points are [X_len], all at least [min_len]. *)
Definition train_uv {F} (min_len : Z) (X : dataset F) (X_len y : list Z) : Prop :=
  X <> [] /\ has_ft X /\ 0 < min_len /\ zlen X_len = zlen X /\ zlen y = zlen X /\
  (forall n, In n X_len -> min_len <= n) /\ (forall x r n, In x X -> In r x -> In n X_len -> n <= zlen r).

Definition maxlen (X_len : list Z) : Z := match max_list X_len with Ok m => m | Err _ => 0 end.

Definition m0_VL (X_len : list Z) : list (list bool) := map (fun n => clear_from (repeat true (Z.to_nat (maxlen X_len))) n) X_len.

Lemma clear_from_spec w n : 0 <= n <= w -> clear_from (repeat true (Z.to_nat w)) n = repeat true (Z.to_nat n) ++ repeat false (Z.to_nat (w - n)).
Proof.
  intros H. unfold clear_from. rewrite slice_length by (rewrite ?zlen_repeat; lia). rewrite zlen_repeat.
  replace (Z.of_nat (Z.to_nat w) - (n - 0)) with (w - n) by lia. f_equal.
  rewrite slice_ok by (rewrite ?zlen_repeat; lia). cbn [skipn Z.to_nat]. replace (Z.to_nat w) with (Z.to_nat n + Z.to_nat (w - n))%nat by lia.
  rewrite repeat_app, firstn_app, repeat_length. replace (Z.to_nat (n - 0)) with (Z.to_nat n) by lia.
  rewrite firstn_all2 by (rewrite repeat_length; lia). rewrite Nat.sub_diag. cbn [firstn]. apply app_nil_r.
Qed.

Section VLdata.
Context {F : Type} (min_len : Z) (X : dataset F) (X_len y : list Z).
Hypothesis HX : train_uv min_len X X_len y.
Notation wd := (maxlen X_len).

Lemma VL_max : max_list X_len = Ok wd.
Proof.
  pose proof HX as (A & _ & _ & D & _). unfold maxlen. destruct (max_list X_len) as [m|e] eqn:E; [reflexivity|].
  exfalso. destruct X_len as [|a t]; [destruct X; [congruence|]; rewrite zlen_cons in D; change (zlen (@nil Z)) with 0 in D; pose proof (zlen_nonneg d); lia|].
  cbn in E. discriminate.
Qed.

Lemma VL_nlen s : 0 <= s < zlen X -> In (nthd 0 X_len s) X_len /\ min_len <= nthd 0 X_len s <= wd.
Proof.
  intros Hs. pose proof HX as (_ & _ & _ & D & _ & E & _). destruct (nthZ_some X_len s ltac:(lia)) as (a & Ha). rewrite (nthd_some 0 _ _ _ Ha).
  pose proof (nthZ_In _ _ _ Ha) as Hin. split; [exact Hin|]. split; [apply E; exact Hin|]. apply (max_list_spec _ _ VL_max). exact Hin.
Qed.

Lemma VL_series i : 0 <= i < zlen X -> wd <= zlen (ser X i).
Proof.
  intros Hi. pose proof HX as (_ & HF & _ & _ & _ & _ & HR). destruct (nthZ_some X i Hi) as (x & Hx). unfold ser. rewrite (nthd_some [] X i x Hx). pose proof (nthZ_In _ _ _ Hx) as Hin.
  specialize (HF x Hin). destruct x as [|r t]; [congruence|]. change (nthd [] (r :: t) 0) with r. eapply (HR _ r); [exact Hin|left; reflexivity|].
  apply (max_list_spec _ _ VL_max).
Qed.

Lemma zlen_ser_vl i : 0 <= i < zlen X -> zlen (ser_vl X X_len i) = nthd 0 X_len i.
Proof.
  intros Hi. pose proof (VL_nlen i Hi) as [_ H]. pose proof (VL_series i Hi) as H2. pose proof HX as (_ & _ & H3 & _). unfold ser_vl. unfold ser in H2. rewrite slice_length; lia.
Qed.

Lemma m0_VL_row s r : nthZ (m0_VL X_len) s = Some r -> 0 <= s < zlen X /\ r = repeat true (Z.to_nat (nthd 0 X_len s)) ++ repeat false (Z.to_nat (wd - nthd 0 X_len s)).
Proof.
  intros Hr. unfold m0_VL in Hr. rewrite nthZ_map in Hr. destruct (nthZ X_len s) as [n|] eqn:E; [|discriminate]. cbn [option_map] in Hr.
  pose proof (nthZ_range _ _ _ E) as Rs. pose proof HX as (_ & _ & H0 & D & _). rewrite D in Rs. split; [exact Rs|]. pose proof (VL_nlen s Rs) as [_ H].
  rewrite (nthd_some 0 _ _ _ E) in *. rewrite clear_from_spec in Hr by lia. congruence.
Qed.

Lemma m0_VL_ok : mask_ok (zlen X) wd (m0_VL X_len).
Proof.
  pose proof HX as (_ & _ & H0 & D & _). split; [unfold m0_VL; rewrite zlen_map; exact D|]. intros s r Hr. apply m0_VL_row in Hr as [Hs ->].
  pose proof (VL_nlen s Hs). rewrite zlen_app, !zlen_repeat. lia.
Qed.

Lemma mcell_m0_VL s t : mcell (m0_VL X_len) s t = true <-> 0 <= s < zlen X /\ 0 <= t < nthd 0 X_len s.
Proof.
  pose proof HX as (_ & _ & H0 & D & _). split.
  - intros H. apply mcell_true in H as (r & Hr & Ht). apply m0_VL_row in Hr as [Hs ->]. split; [exact Hs|]. pose proof (nthZ_range _ _ _ Ht) as R.
    pose proof (VL_nlen s Hs). destruct (Z.lt_ge_cases t (nthd 0 X_len s)); [lia|]. exfalso.
    rewrite nthZ_app, zlen_repeat in Ht. destruct (Z.ltb_spec t (Z.of_nat (Z.to_nat (nthd 0 X_len s)))); [lia|]. apply nthZ_In, repeat_spec in Ht. discriminate.
  - intros [Hs Ht]. pose proof (VL_nlen s Hs). destruct m0_VL_ok as [M1 _]. destruct (nthZ_some (m0_VL X_len) s ltac:(lia)) as (r & Hr).
    apply (mcell_nth _ s t r _ Hr). apply m0_VL_row in Hr as [_ ->]. rewrite nthZ_app, zlen_repeat. destruct (Z.ltb_spec t (Z.of_nat (Z.to_nat (nthd 0 X_len s)))); [|lia]. apply nthZ_repeat. lia.
Qed.

Lemma VL_start dr (values : list (list F)) thr : U_VL_start X X_len dr values thr = Ok (mkUst (mask0 dr (m0_VL X_len)) thr values).
Proof.
  unfold U_VL_start. rewrite VL_max. cbn [bind]. pose proof HX as (_ & _ & H0 & D & _).
  rewrite (mapM_ok _ (fun i => clear_from (repeat true (Z.to_nat wd)) (nthd 0 X_len i))).
  - cbn [bind]. unfold mask0. assert (E : m0_VL X_len = map (fun i => clear_from (repeat true (Z.to_nat wd)) (nthd 0 X_len i)) (zrange 0 (zlen X))); [|rewrite E; reflexivity].
    unfold m0_VL. set (f := clear_from _). change (map f X_len = map (fun i => f (nthd 0 X_len i)) (zrange 0 (zlen X))).
    transitivity (map f (map (nthd 0 X_len) (zrange 0 (zlen X_len)))); [rewrite map_nthd_zrange; reflexivity|rewrite map_map, D; reflexivity].
  - intros i Hi. apply in_zrange in Hi. rewrite (get_nthd 0 X_len i) by lia. reflexivity.
Qed.
End VLdata.

Section VL.
Context {S : Type} (rng : Rng R S) (L : RngLaws RN rng).
Context (X : dataset R) (X_len y : list Z) (n : Z) (P : gparams R).
Hypothesis HX : train_uv n X X_len y.
Hypothesis Hsz : forall l, In l (g_sizes P) -> 2 <= l <= n.
Notation acc := (account (g_phase P) (g_alpha P) (g_pmin P) (g_pmax P) (g_prime P) (g_sizes P) n (g_n P) (zlen X) (ser_vl X X_len) y).
Notation wd := (maxlen X_len).

Lemma VL_parts : has_ft X /\ zlen X_len = zlen X /\ zlen y = zlen X /\ (forall s, 0 <= s < zlen X -> 0 < nthd 0 X_len s <= wd) /\
  (forall i, 0 <= i < zlen X -> wd <= zlen (ser X i)).
Proof.
  pose proof HX as (_ & A & B & C & D & _). split; [exact A|]. split; [exact C|]. split; [exact D|].
  split; [intros s Hs; pose proof (VL_nlen n X X_len y HX s Hs); lia|apply (VL_series n X X_len y HX)].
Qed.

Lemma VL_par_inv rs sched T : U_VL_generate_par RN rng rs sched X X_len y n P = Ok T ->
  exists values dr thr s1 st', U_init RN rng (g_n P) (g_sizes P) n (g_pnorm P) (g_prime P) (r_seed rng (g_seed P)) = Ok (values, dr, thr, s1) /\
    run_sched (U_VL_iter RN rng X X_len y P dr) rs (sched (dr_dil dr)) (mkUst (mask0 dr (m0_VL X_len)) thr values) = Ok st' /\ T = U_finish RN dr st'.
Proof.
  unfold U_VL_generate_par, U_VL_generate_with. intros H. apply bind_inv in H as ([[[values dr] thr] s1] & Hi & H).
  rewrite (VL_start n X X_len y HX) in H. cbn [bind] in H.
  apply bind_inv in H as ([st' s2] & Hq & H). cbn [fst] in H. unfold exec_par in Hq. apply liftG_inv in Hq as [Hq _].
  exists values, dr, thr, s1, st'. split; [exact Hi|]. split; [exact Hq|congruence].
Qed.

Theorem VL_sound rs sched T : scheduler sched -> U_VL_generate_par RN rng rs sched X X_len y n P = Ok T ->
  exists values dr thr s1 hs W, U_init RN rng (g_n P) (g_sizes P) n (g_pnorm P) (g_prime P) (r_seed rng (g_seed P)) = Ok (values, dr, thr, s1) /\
    acc hs /\ map q_len hs = dr_len dr /\ map q_dil hs = dr_dil dr /\ map q_norm hs = dr_norm dr /\
    (In W (g_sizes P) /\ forall l, In l (g_sizes P) -> l <= W) /\ returned (ser_vl X X_len) P W hs T.
Proof.
  intros HS H. apply VL_par_inv in H as (values & dr & thr & s1 & st' & Hi & Hr & ->). destruct VL_parts as (A & B & D & E & E').
  exists values, dr, thr, s1.
  destruct (core_sound rng L (zlen X) wd (nthd 0 X_len) (ser_vl X X_len) y P n (m0_VL X_len) (U_VL_iter RN rng X X_len y P) (U_VL_localG RN rng X X_len y P))
    with (values := values) (dr := dr) (thr := thr) (s1 := s1) (rs := rs) (sched := sched (dr_dil dr)) (st' := st') as (hs & W & HH); auto.
  - intros. eapply U_VL_iter_step; eauto.
  - intros. apply (VL_local_inv RN rng X X_len y wd P dr0 A B D E E' g i m s r); assumption.
  - apply (m0_VL_ok n X X_len y HX).
  - apply (mcell_m0_VL n X X_len y HX).
  - apply (zlen_ser_vl n X X_len y HX).
  - intros s Hs. apply (VL_nlen n X X_len y HX). exact Hs.
  - exists hs, W. split; [exact Hi|exact HH].
Qed.

Hypothesis Hq1 : (0 <= g_pmin P <= 100)%R.
Hypothesis Hq2 : (0 <= g_pmax P <= 100)%R.

Lemma VL_run_total values dr thr s1 rs sched : U_init RN rng (g_n P) (g_sizes P) n (g_pnorm P) (g_prime P) (r_seed rng (g_seed P)) = Ok (values, dr, thr, s1) ->
  is_schedule (dr_dil dr) sched -> exists st', run_sched (U_VL_iter RN rng X X_len y P dr) rs sched (mkUst (mask0 dr (m0_VL X_len)) thr values) = Ok st'.
Proof.
  intros Hi HS. destruct VL_parts as (A & B & D & E & E').
  eapply (core_total rng L (zlen X) wd (nthd 0 X_len) (ser_vl X X_len) y P n (m0_VL X_len) (U_VL_iter RN rng X X_len y P) (U_VL_localG RN rng X X_len y P)); eauto.
  - intros. eapply U_VL_iter_step; eauto.
  - intros. apply (VL_local_inv RN rng X X_len y wd P dr0 A B D E E' g i m s r); assumption.
  - apply (m0_VL_ok n X X_len y HX).
  - apply (mcell_m0_VL n X X_len y HX).
  - apply (zlen_ser_vl n X X_len y HX).
  - intros s Hs. apply (VL_nlen n X X_len y HX). exact Hs.
  - intros. apply (VL_local_total RN rng X X_len y wd P dr0 A B D E E' L); try assumption.
    intros a _. destruct (percentiles_R a _ _ Hq1 Hq2) as (p & Hp & _). eauto.
Qed.

Theorem VL_total rs sched : scheduler sched -> g_sizes P <> [] -> 1 <= g_n P -> exists T, U_VL_generate_par RN rng rs sched X X_len y n P = Ok T.
Proof.
  intros HS Hne Hn. destruct (U_init_total rng L (g_n P) (g_sizes P) n (g_pnorm P) (g_prime P) (r_seed rng (g_seed P)) Hne Hsz Hn) as ([[[values dr] thr] s1] & Hi).
  unfold U_VL_generate_par, U_VL_generate_with. rewrite Hi. cbn [bind]. rewrite (VL_start n X X_len y HX). cbn [bind].
  destruct (VL_run_total values dr thr s1 rs (sched (dr_dil dr)) Hi (HS _)) as (st' & Hr). unfold exec_par, liftG. rewrite Hr. cbn [bind]. eauto.
Qed.

Theorem VL_total_seq : g_sizes P <> [] -> 1 <= g_n P -> exists T, U_VL_generate RN rng X X_len y n P = Ok T.
Proof.
  intros Hne Hn. destruct (U_init_total rng L (g_n P) (g_sizes P) n (g_pnorm P) (g_prime P) (r_seed rng (g_seed P)) Hne Hsz Hn) as ([[[values dr] thr] s1] & Hi).
  unfold U_VL_generate, U_VL_generate_with. rewrite Hi. cbn [bind]. rewrite (VL_start n X X_len y HX). cbn [bind].
  unfold exec_seq. edestruct (foldG_par_total (U_VL_iter RN rng X X_len y P dr) (seq_sched (dr_dil dr))) as (r & Hr).
  - apply (sched_shp_NoDup (dr_dil dr)). apply seq_sched_ok.
  - intros rs. apply (VL_run_total values dr thr s1 rs _ Hi). apply seq_sched_ok.
  - rewrite Hr. cbn [bind]. eauto.
Qed.

End VL.

Theorem VL_indep {S : Type} (rng : Rng R S) (L : RngLaws RN rng) X X_len y n P (HX : train_uv n X X_len y) (Hsz : forall l, In l (g_sizes P) -> 2 <= l <= n) rs sched sched' T T' :
  scheduler sched -> scheduler sched' ->
  U_VL_generate_par RN rng rs sched X X_len y n P = Ok T -> U_VL_generate_par RN rng rs sched' X X_len y n P = Ok T' -> T = T'.
Proof.
  intros HS HS' H H'. apply (VL_par_inv rng X X_len y n P HX) in H as (values & dr & thr & s1 & st & Hi & Hr & ->).
  apply (VL_par_inv rng X X_len y n P HX) in H' as (values' & dr' & thr' & s1' & st' & Hi' & Hr' & ->).
  assert (E : (values, dr, thr) = (values', dr', thr')) by congruence. inversion E; subst values' dr' thr'. clear E. destruct (VL_parts X X_len y n P HX Hsz) as (A & B & D & E & E').
  assert (EE : u_thr st = u_thr st' /\ u_val st = u_val st').
  { eapply (core_indep rng L (zlen X) (maxlen X_len) (nthd 0 X_len) (ser_vl X X_len) y P n (m0_VL X_len) (U_VL_iter RN rng X X_len y P) (U_VL_localG RN rng X X_len y P))
      with (8 := Hi) (11 := Hr) (12 := Hr'); auto.
    - intros. eapply U_VL_iter_step; eauto.
    - intros. apply (VL_local_inv RN rng X X_len y (maxlen X_len) P dr0 A B D E E' g i m s r); assumption.
    - apply (m0_VL_ok n X X_len y HX).
    - apply (mcell_m0_VL n X X_len y HX).
    - apply (zlen_ser_vl n X X_len y HX).
    - intros s Hs. apply (VL_nlen n X X_len y HX). exact Hs. }
  destruct EE as [E1 E2].
  unfold U_finish. rewrite E1, E2. reflexivity.
Qed.
