(** Multivariate shapelet generation: the four entry points (same or variable length, sequential or parallel). *)
From Coq Require Import ZArith Znumtheory List Bool Reals Lra Lia Permutation.
From Verif Require Import Prelude Num Kernel Spec KernelProofs RealBase Apply ApplyUni ApplyMulti TransformProofs TransformLaws Gen GenSched GenBase GenUni
  GenULoop GenTrace GenURun GenDraw GenSpec GenUFinal GenUTop GenMulti GenMLoop GenMRun GenMSpec GenMFinal.
Import ListNotations.
Open Scope Z_scope.

Section Seq.
Context {F : Type} (N : NumOps F) {S : Type} (rng : Rng F S).

Lemma M_SL_seq_par X y mc P T : M_SL_generate N rng X y mc P = Ok T -> exists rs, M_SL_generate_par N rng rs seq_sched X y mc P = Ok T.
Proof.
  unfold M_SL_generate, M_SL_generate_par, M_SL_generate_with. intros H. apply bind_inv in H as ([[[[[values dr] thr] nch] chan] s1] & Hi & H).
  apply bind_inv in H as (q & Hq & H). destruct (exec_seq_par _ _ _ _ _ Hq) as (rs & Hrs). exists rs. rewrite Hi. cbn [bind]. rewrite Hrs. exact H.
Qed.

Lemma M_VL_seq_par X X_len y mc ml P T : M_VL_generate N rng X X_len y mc ml P = Ok T -> exists rs, M_VL_generate_par N rng rs seq_sched X X_len y mc ml P = Ok T.
Proof.
  unfold M_VL_generate, M_VL_generate_par, M_VL_generate_with. intros H. apply bind_inv in H as ([[[[[values dr] thr] nch] chan] s1] & Hi & H).
  apply bind_inv in H as (st0 & Hs & H).
  apply bind_inv in H as (q & Hq & H). destruct (exec_seq_par _ _ _ _ _ Hq) as (rs & Hrs). exists rs. rewrite Hi. cbn [bind]. rewrite Hs. cbn [bind]. rewrite Hrs. exact H.
Qed.
End Seq.

Lemma concat_repeat {A} (x : A) l : (forall k, In k l -> 0 <= k) -> concat (map (fun k => repeat x (Z.to_nat k)) l) = repeat x (Z.to_nat (zsum l)).
Proof.
  induction l as [|k l IH]; intros H; [reflexivity|]. cbn [map concat]. rewrite IH by (intros; apply H; right; assumption). rewrite zsum_cons.
  assert (0 <= k) by (apply H; left; reflexivity). assert (0 <= zsum l).
  { assert (Q : forall j, In j l -> 0 <= j) by (intros; apply H; right; assumption). clear -Q. induction l as [|a t IH]; [cbn; lia|]. rewrite zsum_cons. pose proof (Q a (or_introl eq_refl)).
    specialize (IH (fun j Hj => Q j (or_intror Hj))). lia. }
  rewrite Z2Nat.inj_add by assumption. rewrite repeat_app. reflexivity.
Qed.

Lemma zmul_comm a b : zmul_list a b = zmul_list b a.
Proof.
  unfold zmul_list. revert b. induction a as [|x a IH]; intros [|z b]; try reflexivity. cbn [combine map fst snd]. rewrite IH, Z.mul_comm. reflexivity.
Qed.

Section Core.
Context {S : Type} (rng : Rng R S) (L : RngLaws RN rng).
Context (nsamp nf wd : Z) (nlen : Z -> Z) (srs : Z -> list (list R)) (y : list Z) (P : gparams R) (n_ts mc : Z) (m0 : list (list (list bool))).
Context (iter : drawn -> list Z -> mst R -> Z * Z -> G S (mst R)).
Context (localG : drawn -> list Z -> Z * Z -> list (list (list bool)) -> G S (list (list (list bool)) * option (mpick R))).
Record mcore : Prop := {
  c_sim : forall dr nch rs st q e sched, wf_m dr nch -> is_schedule (dr_dil dr) sched -> In e sched -> reads dr nch st q ->
    sim (reads dr nch) (let* p := iter dr nch st e (rs (snd e)) in Ok (fst p)) (m_step rs (localG dr nch) dr q e);
  c_inv : forall dr nch g i m s r, 1 <= dnch nch i -> mask_ok3 nsamp nf wd m -> draw_fits nsamp nlen dr i -> localG dr nch (g, i) m s = Ok r ->
    miter_ok RN rng nsamp nf wd nlen srs y P dr nch (g, i) m (fst (fst r)) (snd (fst r));
  c_m0k : mask_ok3 nsamp nf wd m0;
  c_m0 : forall s c t, m3cell m0 s c t = true <-> 0 <= s < nsamp /\ 0 <= c < nf /\ 0 <= t < nlen s;
  c_sz : forall l, In l (g_sizes P) -> 2 <= l <= n_ts;
  c_nl : forall s, 0 <= s < nsamp -> n_ts <= nlen s }.
Hypothesis C : mcore.
Notation init := (M_init RN rng (g_n P) (g_sizes P) n_ts (g_pnorm P) mc (g_prime P) (r_seed rng (g_seed P))).
Notation acc := (maccount (g_phase P) (g_alpha P) (g_pmin P) (g_pmax P) (g_prime P) (g_sizes P) n_ts (g_n P) mc nf nsamp srs nlen y).
Notation start dr thr values chan := (mkMst (mask0m dr m0) thr values chan (repeat true (length (dr_len dr)))).

Record minit (dr : drawn) (nch : list Z) : Prop := {
  mi_drawn : drawn_ok (g_n P) (g_sizes P) n_ts (g_prime P) dr;
  mi_wf : wf_m dr nch;
  mi_nz : zlen nch = g_n P;
  mi_nc : forall c, In c nch -> 1 <= c <= mc;
  mi_len : forall i, 0 <= i < zlen (dr_len dr) -> 1 <= dlen dr i;
  mi_ch : forall i, 0 <= i < zlen (dr_len dr) -> 1 <= dnch nch i <= mc }.

Lemma init_minit values dr thr nch chan s1 : init = Ok (values, dr, thr, nch, chan, s1) ->
  minit dr nch /\ reads dr nch (start dr thr values chan) (mask0m dr m0, out_start RN dr nch).
Proof.
  intros H. destruct (M_init_inv rng L _ _ _ _ _ _ _ _ _ _ _ _ _ (c_sz C) H) as (Hn & HD & HZ & HC & Et & Ec & Ev).
  pose proof (do_len _ _ _ _ _ HD) as HL. pose proof (do_dil _ _ _ _ _ HD) as HDl. pose proof (do_norm _ _ _ _ _ HD) as HNm.
  assert (I : minit dr nch).
  { split; auto.
    - unfold wf_m, wf_drawn. split; [split|]; lia.
    - intros i Hi. rewrite HL in Hi. pose proof (do_size _ _ _ _ _ HD i Hi) as Q. apply (c_sz C) in Q. lia.
    - intros i Hi. apply HC. unfold dnch. apply (nthZ_In _ i). apply nthZ_nthd. lia. }
  split; [exact I|].
  destruct (out_start_shape RN dr nch (mi_wf _ _ I) (mi_len _ _ I)) as (A1 & A2 & A3 & A4); [intros i Hi; apply (mi_ch _ _ I i Hi)|].
  assert (NV : forall k, In k (zmul_list nch (dr_len dr)) -> 0 <= k) by (rewrite <- A3; intros k Hk; apply in_map_iff in Hk as (g & <- & _); apply zlen_nonneg).
  assert (NC : forall k, In k nch -> 0 <= k) by (intros k Hk; specialize (HC k Hk); lia).
  split; cbn [fst snd m_mask m_thr m_ret m_val m_chan]; auto.
  - rewrite Et. unfold out_start. cbn [out_thr n0 RN]. rewrite HL. reflexivity.
  - unfold out_start. cbn [out_ret]. unfold zlen. rewrite Nat2Z.id. reflexivity.
  - rewrite Ev. unfold out_start. cbn [out_val n0 RN]. rewrite concat_repeat by exact NV. rewrite (zmul_comm (dr_len dr)). reflexivity.
  - rewrite Ec. unfold out_start. cbn [out_chan]. rewrite concat_repeat by exact NC. reflexivity.
Qed.

Lemma m_event_fits dr nch sched g i : minit dr nch -> is_schedule (dr_dil dr) sched -> In (g, i) sched -> 0 <= i < zlen (dr_len dr) /\ draw_fits nsamp nlen dr i.
Proof.
  intros I HS Hin. pose proof (mi_drawn _ _ I) as HD. apply (sched_event _ _ g i HS) in Hin. rewrite (do_dil _ _ _ _ _ HD) in Hin. rewrite (do_len _ _ _ _ _ HD). split; [lia|].
  pose proof (do_size _ _ _ _ _ HD i ltac:(lia)) as H1. pose proof (do_fit _ _ _ _ _ HD i ltac:(lia)) as (H2 & H3 & _). pose proof (c_sz C _ H1).
  split; [lia|]. split; [exact H2|]. intros s Hs. pose proof (c_nl C s Hs). lia.
Qed.

Lemma m_run_sim dr nch rs sched st q : minit dr nch -> is_schedule (dr_dil dr) sched -> reads dr nch st q ->
  sim (reads dr nch) (run_sched (iter dr nch) rs sched st) (foldM (m_step rs (localG dr nch) dr) sched q).
Proof. intros I HS HR. apply run_sim; [|exact HR]. intros st1 q1 e He Hr. apply (c_sim C dr nch rs st1 q1 e sched); auto. apply (mi_wf _ _ I). Qed.

Lemma mcore_sound values dr thr nch chan s1 rs sched st' : init = Ok (values, dr, thr, nch, chan, s1) -> is_schedule (dr_dil dr) sched ->
  run_sched (iter dr nch) rs sched (start dr thr values chan) = Ok st' ->
  exists hs T, acc hs /\ map mq_len hs = dr_len dr /\ map mq_dil hs = dr_dil dr /\ map mq_norm hs = dr_norm dr /\ map (fun q => zlen (mq_chs q)) hs = nch /\
    M_finish RN dr nch st' = Ok T /\ mreturned srs P hs T.
Proof.
  intros Hi HS H. destruct (init_minit _ _ _ _ _ _ Hi) as (I & HR0). pose proof (mi_drawn _ _ I) as HD.
  pose proof (m_run_sim dr nch rs sched _ _ I HS HR0) as HSim. rewrite H in HSim. destruct (foldM _ sched _) as [[M' o']|er] eqn:EF; [|destruct HSim]. cbn [sim] in HSim.
  destruct (m_run_history RN rng nsamp nf wd nlen srs y P dr nch (localG dr nch) m0 rs sched (mi_wf _ _ I) HS (c_m0k C) (mi_len _ _ I)) with (3 := EF) as (ms & chs & pks & HH).
  { intros i Hi'. apply (mi_ch _ _ I i Hi'). }
  { intros [g i] m s r He HM HL. destruct (m_event_fits dr nch sched g i I HS He) as [Hi' Hf]. apply (c_inv C dr nch g i m s r); auto. apply (mi_ch _ _ I i Hi'). }
  assert (OK : out_shape dr nch o').
  { destruct (mh_len _ _ _ _ _ _ _ _ _ _ _ _ _ _ _ HH) as (Z1 & Z2 & Z3 & Z4). unfold out_shape. split; [exact Z1|]. split; [exact Z4|]. split; [apply (re_vl _ _ _ _ HSim)|apply (re_cl _ _ _ _ HSim)]. }
  assert (Hsz2 : forall l, In l (g_sizes P) -> 2 <= l) by (intros l Hl; apply (c_sz C) in Hl; lia).
  destruct (mhistory_returned rng nsamp nf nlen srs y P dr nch m0 n_ts (g_n P) mc HD (mi_nz _ _ I) (mi_nc _ _ I) (c_m0 C) Hsz2 (c_nl C) o' ms chs pks st' HH OK) as (T & HT & HRt).
  { apply (re_thr _ _ _ _ HSim). } { apply (re_ret _ _ _ _ HSim). } { apply (re_val _ _ _ _ HSim). } { apply (re_chan _ _ _ _ HSim). }
  exists (mreqs dr (g_n P) chs pks), T.
  split; [eapply mhistory_account; eauto; try apply I; apply C|].
  split; [symmetry; rewrite <- (map_nthd_zrange 0 (dr_len dr)); rewrite (do_len _ _ _ _ _ HD); apply map_nth_eq; reflexivity|].
  split; [symmetry; rewrite <- (map_nthd_zrange 0 (dr_dil dr)); rewrite (do_dil _ _ _ _ _ HD); apply map_nth_eq; reflexivity|].
  split; [symmetry; rewrite <- (map_nthd_zrange false (dr_norm dr)); rewrite (do_norm _ _ _ _ _ HD); apply map_nth_eq; reflexivity|].
  split; [|auto]. symmetry. rewrite <- (map_nthd_zrange 0 nch). rewrite (mi_nz _ _ I). apply map_nth_eq. intros i Hi'. cbn [mq_chs mreq_of]. symmetry.
  apply (mh_chs _ _ _ _ _ _ _ _ _ _ _ _ _ _ _ HH i). rewrite (do_len _ _ _ _ _ HD). exact Hi'.
Qed.

Lemma mcore_total (Hmc : mc <= nf) (Htot : forall dr nch g i m s, 1 <= dnch nch i <= nf -> mask_ok3 nsamp nf wd m -> draw_fits nsamp nlen dr i -> exists r, localG dr nch (g, i) m s = Ok r)
  values dr thr nch chan s1 rs sched : init = Ok (values, dr, thr, nch, chan, s1) -> is_schedule (dr_dil dr) sched ->
  exists st', run_sched (iter dr nch) rs sched (start dr thr values chan) = Ok st' /\ exists T, M_finish RN dr nch st' = Ok T.
Proof.
  intros Hi HS. destruct (init_minit _ _ _ _ _ _ Hi) as (I & HR0). pose proof (mi_drawn _ _ I) as HD.
  pose proof (m_run_sim dr nch rs sched _ _ I HS HR0) as HSim.
  destruct (m_run_total RN rng nsamp nf wd nlen srs y P dr nch (localG dr nch) m0 rs sched (mi_wf _ _ I) HS (c_m0k C) (mi_len _ _ I)) as (M' & o' & HF).
  - intros i Hi'. apply (mi_ch _ _ I i Hi').
  - intros [g i] m s r He HM HL. destruct (m_event_fits dr nch sched g i I HS He) as [Hi' Hf]. apply (c_inv C dr nch g i m s r); auto. apply (mi_ch _ _ I i Hi').
  - intros [g i] m s He HM. destruct (m_event_fits dr nch sched g i I HS He) as [Hi' Hf]. apply Htot; auto. pose proof (mi_ch _ _ I i Hi'). lia.
  - rewrite HF in HSim. destruct (run_sched (iter dr nch) rs sched (start dr thr values chan)) as [st'|er] eqn:ER; [|destruct HSim]. exists st'. split; [reflexivity|].
    destruct (mcore_sound _ _ _ _ _ _ rs sched st' Hi HS ER) as (hs & T & _ & _ & _ & _ & _ & HT & _). eauto.
Qed.

Lemma mcore_indep values dr thr nch chan s1 rs sched sched' st st' : init = Ok (values, dr, thr, nch, chan, s1) ->
  is_schedule (dr_dil dr) sched -> is_schedule (dr_dil dr) sched' ->
  run_sched (iter dr nch) rs sched (start dr thr values chan) = Ok st ->
  run_sched (iter dr nch) rs sched' (start dr thr values chan) = Ok st' -> M_finish RN dr nch st = M_finish RN dr nch st'.
Proof.
  intros Hi HS HS' H H'. destruct (init_minit _ _ _ _ _ _ Hi) as (I & HR0).
  pose proof (m_run_sim dr nch rs sched _ _ I HS HR0) as S1. pose proof (m_run_sim dr nch rs sched' _ _ I HS' HR0) as S2. rewrite H in S1. rewrite H' in S2.
  destruct (foldM _ sched _) as [[M1 o1]|] eqn:E1; [|destruct S1]. destruct (foldM _ sched' _) as [[M2 o2]|] eqn:E2; [|destruct S2]. cbn [sim] in S1, S2.
  assert (EQ : o1 = o2).
  { eapply (two_schedules (dnorm dr) (with_rs rs (localG dr nch)) m_put (dr_dil dr)) with (s1 := sched) (s2 := sched'); [|exact HS|exact HS'|exact E1|exact E2|].
    - intros. eapply m_put_comm; eauto.
    - intros e He. rewrite (mask0m_present dr m0 sched e HS He). discriminate. }
  destruct S1 as [_ A1 A2 A3 A4 _ _], S2 as [_ B1 B2 B3 B4 _ _]. cbn [snd] in *. rewrite <- EQ in *. unfold M_finish. rewrite A1, A2, A3, A4, B1, B2, B3, B4. reflexivity.
Qed.
End Core.

(** ** Same length *)

(** A training set of multivariate series of [nf] channels and [n] points each, with their labels. *)
Definition train_m {F} (nf n : Z) (X : dataset F) (y : list Z) : Prop := X <> [] /\ mdata nf n X /\ 0 < n /\ zlen y = zlen X.

Lemma train_m_shape {F} nf n (X : dataset F) y : train_m nf n X y -> n_features X = nf /\ n_timestamps X = n /\ 0 < zlen X.
Proof.
  intros (HN & (H1 & H2 & H3) & _). destruct X as [|x X']; [congruence|]. destruct (H3 x (or_introl eq_refl)) as [E R]. split; [exact E|]. split.
  - destruct x as [|r t]; [change (zlen (@nil (list F))) with 0 in E; lia|]. change (zlen r = n). apply R. left. reflexivity.
  - rewrite zlen_cons. pose proof (zlen_nonneg X'). lia.
Qed.

Definition m0_MSL {F} (nf n : Z) (X : dataset F) : list (list (list bool)) := repeat (repeat (repeat true (Z.to_nat n)) (Z.to_nat nf)) (length X).

Lemma m3cell_true m s c t : m3cell m s c t = true <-> exists m2 r, nthZ m s = Some m2 /\ nthZ m2 c = Some r /\ nthZ r t = Some true.
Proof.
  unfold m3cell. split.
  - intros H. unfold nthd in H. destruct (nthZ m s) as [m2|]; [|apply mcell_true in H as (r & H & _); apply nthZ_range in H; cbn in H; lia].
    apply mcell_true in H as (r & A & B). eauto.
  - intros (m2 & r & A & B & D). rewrite (nthd_some [] _ _ _ A). eapply mcell_nth; eauto.
Qed.

Lemma m0_MSL_ok {F} nf n (X : dataset F) : 0 < n -> 1 <= nf -> mask_ok3 (zlen X) nf n (m0_MSL nf n X).
Proof.
  intros Hn Hf. unfold m0_MSL. split; [unfold zlen; rewrite repeat_length; reflexivity|]. intros s m2 Hs. apply nthZ_In, repeat_spec in Hs. subst m2.
  split; [rewrite zlen_repeat; lia|]. intros c r Hr. apply nthZ_In, repeat_spec in Hr. subst. rewrite zlen_repeat. lia.
Qed.

Lemma m0_MSL_cell {F} nf n (X : dataset F) s c t : 0 < n -> 1 <= nf -> m3cell (m0_MSL nf n X) s c t = true <-> 0 <= s < zlen X /\ 0 <= c < nf /\ 0 <= t < n.
Proof.
  intros Hn Hf. rewrite m3cell_true. unfold m0_MSL. split.
  - intros (m2 & r & A & B & D). pose proof (nthZ_range _ _ _ A) as R1. apply nthZ_In, repeat_spec in A. subst m2. pose proof (nthZ_range _ _ _ B) as R2. apply nthZ_In, repeat_spec in B. subst r.
    pose proof (nthZ_range _ _ _ D) as R3. rewrite !zlen_repeat in *. unfold zlen. lia.
  - intros (A & B & D). do 2 eexists. split; [apply nthZ_repeat; unfold zlen in A; lia|]. split; apply nthZ_repeat; lia.
Qed.

Section SL.
Context {S : Type} (rng : Rng R S) (L : RngLaws RN rng).
Context (X : dataset R) (y : list Z) (nf n mc : Z) (P : gparams R).
Hypothesis HX : train_m nf n X y.
Hypothesis Hsz : forall l, In l (g_sizes P) -> 2 <= l <= n.
Notation acc := (maccount (g_phase P) (g_alpha P) (g_pmin P) (g_pmax P) (g_prime P) (g_sizes P) n (g_n P) mc nf (zlen X) (nthd [] X) (fun _ => n) y).
Notation init := (M_init RN rng (g_n P) (g_sizes P) n (g_pnorm P) mc (g_prime P) (r_seed rng (g_seed P))).

Lemma MSL_core : mcore rng (zlen X) nf n (fun _ => n) (nthd [] X) y P n (m0_MSL nf n X) (fun dr nch => M_SL_iter RN rng X y nf n P dr nch) (fun dr nch => M_SL_localG RN rng X y nf n P dr nch).
Proof.
  destruct (train_m_shape _ _ _ _ HX) as (_ & _ & HP). pose proof HX as (_ & HM & Hn & Hy). split.
  - intros. eapply M_SL_iter_sim; eauto.
  - intros. eapply (MSL_local_inv RN rng L X y nf n P dr nch HM Hn Hy); eauto.
  - apply m0_MSL_ok; [exact Hn|apply HM].
  - intros. apply m0_MSL_cell; [exact Hn|apply HM].
  - exact Hsz.
  - intros; lia.
Qed.

Lemma MSL_start dr values thr chan : M_SL_start X dr values thr chan = mkMst (mask0m dr (m0_MSL nf n X)) thr values chan (repeat true (length (dr_len dr))).
Proof. destruct (train_m_shape _ _ _ _ HX) as (E1 & E2 & _). unfold M_SL_start, mask0m, m0_MSL. rewrite E1, E2. reflexivity. Qed.

Lemma MSL_par_inv rs sched T : M_SL_generate_par RN rng rs sched X y mc P = Ok T ->
  exists values dr thr nch chan s1 st', init = Ok (values, dr, thr, nch, chan, s1) /\
    run_sched (M_SL_iter RN rng X y nf n P dr nch) rs (sched (dr_dil dr)) (mkMst (mask0m dr (m0_MSL nf n X)) thr values chan (repeat true (length (dr_len dr)))) = Ok st' /\
    M_finish RN dr nch st' = Ok T.
Proof.
  unfold M_SL_generate_par, M_SL_generate_with. destruct (train_m_shape _ _ _ _ HX) as (E1 & E2 & _). rewrite E1, E2. intros H.
  apply bind_inv in H as ([[[[[values dr] thr] nch] chan] s1] & Hi & H).
  apply bind_inv in H as ([st' s2] & Hq & H). cbn [fst] in H. rewrite MSL_start in Hq. unfold exec_par in Hq. apply liftG_inv in Hq as [Hq _].
  exists values, dr, thr, nch, chan, s1, st'. auto.
Qed.

Theorem MSL_sound rs sched T : scheduler sched -> M_SL_generate_par RN rng rs sched X y mc P = Ok T ->
  exists values dr thr nch chan s1 hs, init = Ok (values, dr, thr, nch, chan, s1) /\
    acc hs /\ map mq_len hs = dr_len dr /\ map mq_dil hs = dr_dil dr /\ map mq_norm hs = dr_norm dr /\ map (fun q => zlen (mq_chs q)) hs = nch /\
    mreturned (nthd [] X) P hs T.
Proof.
  intros HS H. apply MSL_par_inv in H as (values & dr & thr & nch & chan & s1 & st' & Hi & Hr & HT). exists values, dr, thr, nch, chan, s1.
  destruct (mcore_sound rng L _ _ _ _ _ _ _ _ _ _ _ _ MSL_core values dr thr nch chan s1 rs (sched (dr_dil dr)) st' Hi (HS _) Hr) as (hs & T' & A1 & A2 & A3 & A4 & A5 & A6 & A7).
  assert (T' = T) by congruence. subst T'. exists hs. auto 10.
Qed.

Hypothesis Hq1 : (0 <= g_pmin P <= 100)%R.
Hypothesis Hq2 : (0 <= g_pmax P <= 100)%R.
Hypothesis Hmc : mc <= nf.

Lemma MSL_run_total values dr thr nch chan s1 rs sched : init = Ok (values, dr, thr, nch, chan, s1) -> is_schedule (dr_dil dr) sched ->
  exists st', run_sched (M_SL_iter RN rng X y nf n P dr nch) rs sched (mkMst (mask0m dr (m0_MSL nf n X)) thr values chan (repeat true (length (dr_len dr)))) = Ok st' /\
    exists T, M_finish RN dr nch st' = Ok T.
Proof.
  intros Hi HS. destruct (train_m_shape _ _ _ _ HX) as (_ & _ & HP). pose proof HX as (_ & HM & Hn & Hy).
  eapply (mcore_total rng L _ _ _ _ _ _ _ _ _ _ _ _ MSL_core Hmc); eauto.
  intros. apply (MSL_local_total RN rng L X y nf n P dr0 nch0 HM Hn Hy); auto.
  intros a _. destruct (percentiles_R a _ _ Hq1 Hq2) as (p & Hp & _). eauto.
Qed.

Theorem MSL_total rs sched : scheduler sched -> g_sizes P <> [] -> 1 <= g_n P -> 1 <= mc -> exists T, M_SL_generate_par RN rng rs sched X y mc P = Ok T.
Proof.
  intros HS Hne Hn H1. destruct (M_init_total rng L (g_n P) (g_sizes P) n (g_pnorm P) mc (g_prime P) (r_seed rng (g_seed P)) Hne Hsz Hn H1) as ([[[[[values dr] thr] nch] chan] s1] & Hi).
  unfold M_SL_generate_par, M_SL_generate_with. destruct (train_m_shape _ _ _ _ HX) as (E1 & E2 & _). rewrite E1, E2, Hi. cbn [bind]. rewrite MSL_start.
  destruct (MSL_run_total values dr thr nch chan s1 rs (sched (dr_dil dr)) Hi (HS _)) as (st' & Hr & HT). unfold exec_par, liftG. rewrite Hr. cbn [bind]. exact HT.
Qed.

Theorem MSL_total_seq : g_sizes P <> [] -> 1 <= g_n P -> 1 <= mc -> exists T, M_SL_generate RN rng X y mc P = Ok T.
Proof.
  intros Hne Hn H1. destruct (M_init_total rng L (g_n P) (g_sizes P) n (g_pnorm P) mc (g_prime P) (r_seed rng (g_seed P)) Hne Hsz Hn H1) as ([[[[[values dr] thr] nch] chan] s1] & Hi).
  unfold M_SL_generate, M_SL_generate_with. destruct (train_m_shape _ _ _ _ HX) as (E1 & E2 & _). rewrite E1, E2, Hi. cbn [bind]. rewrite MSL_start.
  destruct (exec_seq dr (M_SL_iter RN rng X y nf n P dr nch) (mkMst (mask0m dr (m0_MSL nf n X)) thr values chan (repeat true (length (dr_len dr)))) s1) as [q|er] eqn:Eq.
  - cbn [bind]. destruct (exec_seq_par _ _ _ _ _ Eq) as (rs & Hrs). unfold exec_par in Hrs. apply liftG_inv in Hrs as [Hrs _].
    destruct (MSL_run_total values dr thr nch chan s1 rs (seq_sched (dr_dil dr)) Hi (seq_sched_ok _)) as (st' & Hr & HT). assert (st' = fst q) by congruence. subst st'. exact HT.
  - exfalso. unfold exec_seq in Eq. edestruct (foldG_par_total (M_SL_iter RN rng X y nf n P dr nch) (seq_sched (dr_dil dr))) as (r & Hr).
    + apply (sched_shp_NoDup (dr_dil dr)). apply seq_sched_ok.
    + intros rs. destruct (MSL_run_total values dr thr nch chan s1 rs _ Hi (seq_sched_ok _)) as (st' & Hr & _). eauto.
    + rewrite Hr in Eq. discriminate.
Qed.
End SL.

Theorem MSL_indep {S : Type} (rng : Rng R S) (L : RngLaws RN rng) X y nf n mc P (HX : train_m nf n X y) (Hsz : forall l, In l (g_sizes P) -> 2 <= l <= n) rs sched sched' T T' :
  scheduler sched -> scheduler sched' ->
  M_SL_generate_par RN rng rs sched X y mc P = Ok T -> M_SL_generate_par RN rng rs sched' X y mc P = Ok T' -> T = T'.
Proof.
  intros HS HS' H H'. apply (MSL_par_inv rng X y nf n mc P HX) in H as (values & dr & thr & nch & chan & s1 & st & Hi & Hr & HT).
  apply (MSL_par_inv rng X y nf n mc P HX) in H' as (values' & dr' & thr' & nch' & chan' & s1' & st' & Hi' & Hr' & HT').
  assert (E : (values, dr, thr, nch, chan) = (values', dr', thr', nch', chan')) by congruence. inversion E; subst values' dr' thr' nch' chan'. clear E.
  pose proof (mcore_indep rng L _ _ _ _ _ _ _ _ _ _ _ _ (MSL_core rng L X y nf n P HX Hsz) values dr thr nch chan s1 rs _ _ st st' Hi (HS _) (HS' _) Hr Hr'). congruence.
Qed.

(** ** Variable length *)

(** A training set of multivariate series of [nf] channels, padded in [X], whose numbers of points are [X_len], all at least [min_len]. *)
Definition train_mv {F} (nf min_len : Z) (X : dataset F) (X_len y : list Z) : Prop :=
  X <> [] /\ mdata nf (n_timestamps X) X /\ 0 < min_len /\ zlen X_len = zlen X /\ zlen y = zlen X /\
  (forall n, In n X_len -> min_len <= n <= n_timestamps X).

Definition m0_MVL (nf : Z) (X_len : list Z) : list (list (list bool)) := map (fun n => repeat (clear_from (repeat true (Z.to_nat (maxlen X_len))) n) (Z.to_nat nf)) X_len.

Section VLdata.
Context {F : Type} (nf min_len : Z) (X : dataset F) (X_len y : list Z).
Hypothesis HX : train_mv nf min_len X X_len y.
Notation wd := (maxlen X_len).

Lemma MVL_max : max_list X_len = Ok wd.
Proof.
  pose proof HX as (A & _ & _ & D & _). unfold maxlen. destruct (max_list X_len) as [m|e] eqn:E; [reflexivity|].
  exfalso. destruct X_len as [|a t]; [destruct X; [congruence|]; rewrite zlen_cons in D; change (zlen (@nil Z)) with 0 in D; pose proof (zlen_nonneg d); lia|].
  cbn in E. discriminate.
Qed.

Lemma MVL_nlen s : 0 <= s < zlen X -> In (nthd 0 X_len s) X_len /\ min_len <= nthd 0 X_len s <= wd.
Proof.
  intros Hs. pose proof HX as (_ & _ & _ & D & _ & E). destruct (nthZ_some X_len s ltac:(lia)) as (a & Ha). rewrite (nthd_some 0 _ _ _ Ha).
  pose proof (nthZ_In _ _ _ Ha) as Hin. split; [exact Hin|]. split; [apply E; exact Hin|]. apply (max_list_spec _ _ MVL_max). exact Hin.
Qed.

Lemma MVL_wd : wd <= n_timestamps X.
Proof. pose proof HX as (_ & _ & _ & _ & _ & E). apply E. apply (max_list_spec _ _ MVL_max). Qed.

Lemma MVL_shape : n_features X = nf /\ 0 < zlen X.
Proof.
  pose proof HX as (HN & (_ & _ & H3) & _). clear HX. destruct X as [|x X']; [congruence|]. destruct (H3 x (or_introl eq_refl)) as [E _]. split; [exact E|].
  rewrite zlen_cons. pose proof (zlen_nonneg X'). lia.
Qed.

Lemma m0_MVL_at s m2 : nthZ (m0_MVL nf X_len) s = Some m2 -> 0 <= s < zlen X /\ m2 = repeat (repeat true (Z.to_nat (nthd 0 X_len s)) ++ repeat false (Z.to_nat (wd - nthd 0 X_len s))) (Z.to_nat nf).
Proof.
  intros Hr. unfold m0_MVL in Hr. rewrite nthZ_map in Hr. destruct (nthZ X_len s) as [n|] eqn:E; [|discriminate]. cbn [option_map] in Hr.
  pose proof (nthZ_range _ _ _ E) as Rs. pose proof HX as (_ & _ & H0 & D & _). rewrite D in Rs. split; [exact Rs|]. pose proof (MVL_nlen s Rs) as [_ H].
  rewrite (nthd_some 0 _ _ _ E) in *. rewrite clear_from_spec in Hr by lia. congruence.
Qed.

Lemma m0_MVL_ok : mask_ok3 (zlen X) nf wd (m0_MVL nf X_len).
Proof.
  pose proof HX as (_ & (Hf & _) & H0 & D & _). split; [unfold m0_MVL; rewrite zlen_map; exact D|]. intros s m2 Hr. apply m0_MVL_at in Hr as [Hs ->].
  pose proof (MVL_nlen s Hs). split; [rewrite zlen_repeat; lia|]. intros c r Hr. apply nthZ_In, repeat_spec in Hr. subst r. rewrite zlen_app, !zlen_repeat. lia.
Qed.

Lemma m0_MVL_cell s c t : m3cell (m0_MVL nf X_len) s c t = true <-> 0 <= s < zlen X /\ 0 <= c < nf /\ 0 <= t < nthd 0 X_len s.
Proof.
  pose proof HX as (_ & (Hf & _) & H0 & D & _). rewrite m3cell_true. split.
  - intros (m2 & r & A & B & Ht). apply m0_MVL_at in A as [Hs ->]. pose proof (nthZ_range _ _ _ B) as R2. rewrite zlen_repeat in R2. apply nthZ_In, repeat_spec in B. subst r.
    split; [exact Hs|]. split; [lia|]. pose proof (nthZ_range _ _ _ Ht) as R.
    pose proof (MVL_nlen s Hs). destruct (Z.lt_ge_cases t (nthd 0 X_len s)); [lia|]. exfalso.
    rewrite nthZ_app, zlen_repeat in Ht. destruct (Z.ltb_spec t (Z.of_nat (Z.to_nat (nthd 0 X_len s)))); [lia|]. apply nthZ_In, repeat_spec in Ht. discriminate.
  - intros (Hs & Hc & Ht). pose proof (MVL_nlen s Hs). destruct m0_MVL_ok as [M1 _]. destruct (nthZ_some (m0_MVL nf X_len) s ltac:(lia)) as (r & Hr).
    pose proof (m0_MVL_at s r Hr) as [_ Er]. exists r. eexists. split; [exact Hr|]. rewrite Er. split; [apply nthZ_repeat; lia|].
    rewrite nthZ_app, zlen_repeat. destruct (Z.ltb_spec t (Z.of_nat (Z.to_nat (nthd 0 X_len s)))); [|lia]. apply nthZ_repeat. lia.
Qed.

Lemma MVL_start dr (values : list F) thr chan : M_VL_start X X_len dr values thr chan = Ok (mkMst (mask0m dr (m0_MVL nf X_len)) thr values chan (repeat true (length (dr_len dr)))).
Proof.
  unfold M_VL_start. rewrite MVL_max. cbn [bind]. pose proof HX as (_ & _ & H0 & D & _). destruct MVL_shape as [EF _]. rewrite EF.
  rewrite (mapM_ok _ (fun i => repeat (clear_from (repeat true (Z.to_nat wd)) (nthd 0 X_len i)) (Z.to_nat nf))).
  - cbn [bind]. unfold mask0m. assert (E : m0_MVL nf X_len = map (fun i => repeat (clear_from (repeat true (Z.to_nat wd)) (nthd 0 X_len i)) (Z.to_nat nf)) (zrange 0 (zlen X))); [|rewrite E; reflexivity].
    unfold m0_MVL. set (f := fun n => repeat (clear_from _ n) _). change (map f X_len = map (fun i => f (nthd 0 X_len i)) (zrange 0 (zlen X))).
    transitivity (map f (map (nthd 0 X_len) (zrange 0 (zlen X_len)))); [rewrite map_nthd_zrange; reflexivity|rewrite map_map, D; reflexivity].
  - intros i Hi. apply in_zrange in Hi. rewrite (get_nthd 0 X_len i) by lia. reflexivity.
Qed.
End VLdata.

Section VL.
Context {S : Type} (rng : Rng R S) (L : RngLaws RN rng).
Context (X : dataset R) (X_len y : list Z) (nf n mc : Z) (P : gparams R).
Hypothesis HX : train_mv nf n X X_len y.
Hypothesis Hsz : forall l, In l (g_sizes P) -> 2 <= l <= n.
Notation acc := (maccount (g_phase P) (g_alpha P) (g_pmin P) (g_pmax P) (g_prime P) (g_sizes P) n (g_n P) mc nf (zlen X) (mser_vl X X_len) (nthd 0 X_len) y).
Notation init := (M_init RN rng (g_n P) (g_sizes P) n (g_pnorm P) mc (g_prime P) (r_seed rng (g_seed P))).
Notation wd := (maxlen X_len).

Lemma MVL_pos s : 0 <= s < zlen X -> 0 < nthd 0 X_len s <= wd.
Proof. intros Hs. pose proof (MVL_nlen nf n X X_len y HX s Hs). pose proof HX as (_ & _ & H0 & _). lia. Qed.

Lemma MVL_core : mcore rng (zlen X) nf wd (nthd 0 X_len) (mser_vl X X_len) y P n (m0_MVL nf X_len) (fun dr nch => M_VL_iter RN rng X X_len y nf P dr nch) (fun dr nch => M_VL_localG RN rng X X_len y nf P dr nch).
Proof.
  pose proof HX as (_ & HM & Hn & HL & Hy & _). split.
  - intros. eapply M_VL_iter_sim; eauto.
  - intros. eapply (MVL_local_inv RN rng L X X_len y nf _ wd P dr nch HM HL Hy MVL_pos (MVL_wd nf n X X_len y HX)); eauto.
  - apply (m0_MVL_ok nf n X X_len y HX).
  - apply (m0_MVL_cell nf n X X_len y HX).
  - exact Hsz.
  - intros s Hs. apply (MVL_nlen nf n X X_len y HX s Hs).
Qed.

Lemma MVL_par_inv rs sched T : M_VL_generate_par RN rng rs sched X X_len y mc n P = Ok T ->
  exists values dr thr nch chan s1 st', init = Ok (values, dr, thr, nch, chan, s1) /\
    run_sched (M_VL_iter RN rng X X_len y nf P dr nch) rs (sched (dr_dil dr)) (mkMst (mask0m dr (m0_MVL nf X_len)) thr values chan (repeat true (length (dr_len dr)))) = Ok st' /\
    M_finish RN dr nch st' = Ok T.
Proof.
  unfold M_VL_generate_par, M_VL_generate_with. destruct (MVL_shape nf n X X_len y HX) as (E1 & _). rewrite E1. intros H.
  apply bind_inv in H as ([[[[[values dr] thr] nch] chan] s1] & Hi & H). rewrite (MVL_start nf n X X_len y HX) in H. cbn [bind] in H.
  apply bind_inv in H as ([st' s2] & Hq & H). cbn [fst] in H. unfold exec_par in Hq. apply liftG_inv in Hq as [Hq _].
  exists values, dr, thr, nch, chan, s1, st'. auto.
Qed.

Theorem MVL_sound rs sched T : scheduler sched -> M_VL_generate_par RN rng rs sched X X_len y mc n P = Ok T ->
  exists values dr thr nch chan s1 hs, init = Ok (values, dr, thr, nch, chan, s1) /\
    acc hs /\ map mq_len hs = dr_len dr /\ map mq_dil hs = dr_dil dr /\ map mq_norm hs = dr_norm dr /\ map (fun q => zlen (mq_chs q)) hs = nch /\
    mreturned (mser_vl X X_len) P hs T.
Proof.
  intros HS H. apply MVL_par_inv in H as (values & dr & thr & nch & chan & s1 & st' & Hi & Hr & HT). exists values, dr, thr, nch, chan, s1.
  destruct (mcore_sound rng L _ _ _ _ _ _ _ _ _ _ _ _ MVL_core values dr thr nch chan s1 rs (sched (dr_dil dr)) st' Hi (HS _) Hr) as (hs & T' & A1 & A2 & A3 & A4 & A5 & A6 & A7).
  assert (T' = T) by congruence. subst T'. exists hs. auto 10.
Qed.

Hypothesis Hq1 : (0 <= g_pmin P <= 100)%R.
Hypothesis Hq2 : (0 <= g_pmax P <= 100)%R.
Hypothesis Hmc : mc <= nf.

Lemma MVL_run_total values dr thr nch chan s1 rs sched : init = Ok (values, dr, thr, nch, chan, s1) -> is_schedule (dr_dil dr) sched ->
  exists st', run_sched (M_VL_iter RN rng X X_len y nf P dr nch) rs sched (mkMst (mask0m dr (m0_MVL nf X_len)) thr values chan (repeat true (length (dr_len dr)))) = Ok st' /\
    exists T, M_finish RN dr nch st' = Ok T.
Proof.
  intros Hi HS. pose proof HX as (_ & HM & Hn & HL & Hy & _).
  eapply (mcore_total rng L _ _ _ _ _ _ _ _ _ _ _ _ MVL_core Hmc); eauto.
  intros. apply (MVL_local_total RN rng L X X_len y nf _ wd P dr0 nch0 HM HL Hy MVL_pos (MVL_wd nf n X X_len y HX)); auto.
  intros a _. destruct (percentiles_R a _ _ Hq1 Hq2) as (p & Hp & _). eauto.
Qed.

Theorem MVL_total rs sched : scheduler sched -> g_sizes P <> [] -> 1 <= g_n P -> 1 <= mc -> exists T, M_VL_generate_par RN rng rs sched X X_len y mc n P = Ok T.
Proof.
  intros HS Hne Hn H1. destruct (M_init_total rng L (g_n P) (g_sizes P) n (g_pnorm P) mc (g_prime P) (r_seed rng (g_seed P)) Hne Hsz Hn H1) as ([[[[[values dr] thr] nch] chan] s1] & Hi).
  unfold M_VL_generate_par, M_VL_generate_with. destruct (MVL_shape nf n X X_len y HX) as (E1 & _). rewrite E1, Hi. cbn [bind]. rewrite (MVL_start nf n X X_len y HX). cbn [bind].
  destruct (MVL_run_total values dr thr nch chan s1 rs (sched (dr_dil dr)) Hi (HS _)) as (st' & Hr & HT). unfold exec_par, liftG. rewrite Hr. cbn [bind]. exact HT.
Qed.

Theorem MVL_total_seq : g_sizes P <> [] -> 1 <= g_n P -> 1 <= mc -> exists T, M_VL_generate RN rng X X_len y mc n P = Ok T.
Proof.
  intros Hne Hn H1. destruct (M_init_total rng L (g_n P) (g_sizes P) n (g_pnorm P) mc (g_prime P) (r_seed rng (g_seed P)) Hne Hsz Hn H1) as ([[[[[values dr] thr] nch] chan] s1] & Hi).
  unfold M_VL_generate, M_VL_generate_with. destruct (MVL_shape nf n X X_len y HX) as (E1 & _). rewrite E1, Hi. cbn [bind]. rewrite (MVL_start nf n X X_len y HX). cbn [bind].
  destruct (exec_seq dr (M_VL_iter RN rng X X_len y nf P dr nch) (mkMst (mask0m dr (m0_MVL nf X_len)) thr values chan (repeat true (length (dr_len dr)))) s1) as [q|er] eqn:Eq.
  - cbn [bind]. destruct (exec_seq_par _ _ _ _ _ Eq) as (rs & Hrs). unfold exec_par in Hrs. apply liftG_inv in Hrs as [Hrs _].
    destruct (MVL_run_total values dr thr nch chan s1 rs (seq_sched (dr_dil dr)) Hi (seq_sched_ok _)) as (st' & Hr & HT). assert (st' = fst q) by congruence. subst st'. exact HT.
  - exfalso. unfold exec_seq in Eq. edestruct (foldG_par_total (M_VL_iter RN rng X X_len y nf P dr nch) (seq_sched (dr_dil dr))) as (r & Hr).
    + apply (sched_shp_NoDup (dr_dil dr)). apply seq_sched_ok.
    + intros rs. destruct (MVL_run_total values dr thr nch chan s1 rs _ Hi (seq_sched_ok _)) as (st' & Hr & _). eauto.
    + rewrite Hr in Eq. discriminate.
Qed.
End VL.

Theorem MVL_indep {S : Type} (rng : Rng R S) (L : RngLaws RN rng) X X_len y nf n mc P (HX : train_mv nf n X X_len y) (Hsz : forall l, In l (g_sizes P) -> 2 <= l <= n) rs sched sched' T T' :
  scheduler sched -> scheduler sched' ->
  M_VL_generate_par RN rng rs sched X X_len y mc n P = Ok T -> M_VL_generate_par RN rng rs sched' X X_len y mc n P = Ok T' -> T = T'.
Proof.
  intros HS HS' H H'. apply (MVL_par_inv rng X X_len y nf n mc P HX) in H as (values & dr & thr & nch & chan & s1 & st & Hi & Hr & HT).
  apply (MVL_par_inv rng X X_len y nf n mc P HX) in H' as (values' & dr' & thr' & nch' & chan' & s1' & st' & Hi' & Hr' & HT').
  assert (E : (values, dr, thr, nch, chan) = (values', dr', thr', nch', chan')) by congruence. inversion E; subst values' dr' thr' nch' chan'. clear E.
  pose proof (mcore_indep rng L _ _ _ _ _ _ _ _ _ _ _ _ (MVL_core rng L X X_len y nf n P HX Hsz) values dr thr nch chan s1 rs _ _ st st' Hi (HS _) (HS' _) Hr Hr'). congruence.
Qed.
