(** The origin of a multivariate shapelet as a function of the random numbers consumed by its iteration, over the reals. *)
From Coq Require Import ZArith Znumtheory List Bool Reals Lra Lia Permutation.
From Verif Require Import Prelude Num Kernel Spec KernelProofs RealBase Apply ApplyUni ApplyMulti TransformProofs TransformLaws Gen GenSched GenBase GenUni
  GenULoop GenTrace GenURun GenDraw GenSpec GenUFinal GenUTop GenMulti GenMLoop GenMRun GenMSpec GenMFinal GenMTop PermLaws WindowLaw.
Import ListNotations.
Open Scope Z_scope.

(** ** Specification *)

(** window and test series: the window first with series of one length; the series, the test series, then the start
    with variable lengths *)
Definition mdrawn {F S} (rng : Rng F S) (one_length : bool) (nser : Z) (y : list Z) (ws : list (Z * Z)) (s : S) (a t b : Z) (s' : S) : Prop :=
  if one_length then exists s1, drawn_window rng true ws s a t s1 /\ drawn_test rng nser y a s1 b s'
  else exists s1 s2, (exists sl, NoDup sl /\ (forall x, In x sl <-> exists u, In (x, u) ws) /\ drawn_at rng sl s a s1) /\
    drawn_test rng nser y a s1 b s2 /\ drawn_at rng (starts_of ws a) s2 t s'.

(** what the iteration of request [i], which starts from generator state [s0], does *)
Definition morigin_law {S} (rng : Rng R S) (one_length : bool) (P : gparams R) (nf nser : Z) (series : Z -> list (list R)) (slen : Z -> Z) (y : list Z)
  (hs : list mrequest) (i : Z) (s0 : S) (q : mrequest) (o : origin) : Prop :=
  exists s1 ws s2, drawn_channels rng nf (zlen (mq_chs q)) s0 (mq_chs q) s1 /\
    NoDup ws /\ (forall a t, In (a, t) ws <-> mfree_start (g_phase P) (g_alpha P) nser slen hs i a t) /\
    mdrawn rng one_length nser y ws s1 (o_series o) (o_start o) (o_test o) s2 /\
    forall vs, mq_values (g_phase P) series q = Some vs ->
      drawn_thr rng (g_pmin P) (g_pmax P) (mdistances RN (g_phase P) (mq_norm q) (slen (o_test o)) (series (o_test o)) (mq_chs q) vs (mq_len q) (mq_dil q)) s2 (o_thr o).

(** ** Proofs *)

Section Core.
Context {S : Type} (rng : Rng R S) (L : RngLaws RN rng).
Context (nsamp nf wd : Z) (nlen : Z -> Z) (srs : Z -> list (list R)) (srs_m : Z -> Z -> res (list R)) (y : list Z) (P : gparams R) (n_ts mc : Z) (m0 : list (list (list bool))).
Context (one_length : bool) (iter : drawn -> list Z -> mst R -> Z * Z -> G S (mst R)).
Context (localG : drawn -> list Z -> Z * Z -> list (list (list bool)) -> G S (list (list (list bool)) * option (mpick R))).
Hypothesis C : mcore rng nsamp nf wd nlen srs y P n_ts m0 iter localG.
(** how the variant chooses *)
Hypothesis Hlaw : forall dr nch g i m s m' pk s', 1 <= dnch nch i -> mask_ok3 nsamp nf wd m -> draw_fits nsamp nlen dr i -> localG dr nch (g, i) m s = Ok (m', Some pk, s') ->
  exists s1 ws s2 asize n xd vals, drawn_channels rng nf (dnch nch i) s (mp_chs pk) s1 /\ NoDup ws /\
    (forall a t, In (a, t) ws <-> madmissible RN nsamp nlen P dr nch i m (mp_chs pk) a t) /\
    mdrawn rng one_length nsamp y ws s1 (mp_sample pk) (mp_index pk) (mp_test pk) s2 /\
    m_rest RN rng srs_m P (dlen dr i) (ddil dr i) (dnorm dr i) asize n (mp_sample pk) (mp_test pk) (mp_index pk) (mp_chs pk) m xd vals s2 = Ok (m', Some pk, s').
Notation init := (M_init RN rng (g_n P) (g_sizes P) n_ts (g_pnorm P) mc (g_prime P) (r_seed rng (g_seed P))).
Notation acc := (maccount (g_phase P) (g_alpha P) (g_pmin P) (g_pmax P) (g_prime P) (g_sizes P) n_ts (g_n P) mc nf nsamp srs nlen y).
Notation start dr thr values chan := (mkMst (mask0m dr m0) thr values chan (repeat true (length (dr_len dr)))).

Lemma mrest_thr l d nm asize n a b t chs m xd vals s m' pk s' : m_rest RN rng srs_m P l d nm asize n a b t chs m xd vals s = Ok (m', Some pk, s') ->
  exists x z, percentiles RN (mp_dist pk) (g_pmin P) (g_pmax P) = Ok (x, z) /\ mp_thr pk = (x + (z - x) * fst (r_unif rng s))%R.
Proof.
  intros H. unfold m_rest in H. apply bind_liftG in H as (r & _ & H). apply bindG_inv in H as (thr & s3 & Hth & H).
  unfold draw_threshold in Hth. apply bind_liftG in Hth as ([p1 p2] & Hp & Hth). unfold uniform, bindG, draw_unif, retG in Hth. cbn [bind fst snd] in Hth.
  unfold retG in H. injection H as Em Epk Es. subst pk. cbn [mp_dist mp_thr]. exists p1, p2. split; [exact Hp|]. destruct (r_unif rng s) as [u su]. cbn [fst snd] in *. injection Hth as <- _. reflexivity.
Qed.

Lemma mcore_law values dr thr nch chan s1 rs sched st' T : init = Ok (values, dr, thr, nch, chan, s1) -> is_schedule (dr_dil dr) sched ->
  run_sched (iter dr nch) rs sched (start dr thr values chan) = Ok st' -> M_finish RN dr nch st' = Ok T ->
  exists hs, acc hs /\ mreturned srs P hs T /\
    forall i q o, nthZ hs i = Some q -> mq_origin q = Some o -> morigin_law rng one_length P nf nsamp srs nlen y hs i (rs i) q o.
Proof.
  intros Hi HS H HT0. destruct (init_minit rng L _ _ _ _ _ _ _ _ _ _ _ _ C _ _ _ _ _ _ Hi) as (I & HR0). pose proof (mi_drawn _ _ _ _ _ I) as HD.
  pose proof (m_run_sim rng _ _ _ _ _ _ _ _ _ _ _ _ C dr nch rs sched _ _ I HS HR0) as HSim. rewrite H in HSim. destruct (foldM _ sched _) as [[M' o']|er] eqn:EF; [|destruct HSim]. cbn [sim] in HSim.
  destruct (m_run_history_run RN rng nsamp nf wd nlen srs y P dr nch (localG dr nch) m0 rs sched (mi_wf _ _ _ _ _ I) HS (c_m0k _ _ _ _ _ _ _ _ _ _ _ _ C) (mi_len _ _ _ _ _ I)) with (3 := EF) as (ms & chs & pks & HH & HR).
  { intros i Hi'. apply (mi_ch _ _ _ _ _ I i Hi'). }
  { intros [g i] m s r He HM HL. destruct (m_event_fits rng _ _ _ _ _ _ _ _ _ _ _ _ C dr nch sched g i I HS He) as [Hi' Hf]. apply (c_inv _ _ _ _ _ _ _ _ _ _ _ _ C dr nch g i m s r); auto. apply (mi_ch _ _ _ _ _ I i Hi'). }
  assert (OK : out_shape dr nch o').
  { destruct (mh_len _ _ _ _ _ _ _ _ _ _ _ _ _ _ _ HH) as (Z1 & Z2 & Z3 & Z4). unfold out_shape. split; [exact Z1|]. split; [exact Z4|]. split; [apply (re_vl _ _ _ _ HSim)|apply (re_cl _ _ _ _ HSim)]. }
  assert (Hsz2 : forall l, In l (g_sizes P) -> 2 <= l) by (intros l Hl; apply (c_sz _ _ _ _ _ _ _ _ _ _ _ _ C) in Hl; lia).
  pose proof (c_m0 _ _ _ _ _ _ _ _ _ _ _ _ C) as Cm0. pose proof (c_nl _ _ _ _ _ _ _ _ _ _ _ _ C) as Cnl.
  destruct (mhistory_returned rng nsamp nf nlen srs y P dr nch m0 n_ts (g_n P) mc HD (mi_nz _ _ _ _ _ I) (mi_nc _ _ _ _ _ I) Cm0 Hsz2 Cnl o' ms chs pks st' HH OK) as (T' & HT & HRt).
  { apply (re_thr _ _ _ _ HSim). } { apply (re_ret _ _ _ _ HSim). } { apply (re_val _ _ _ _ HSim). } { apply (re_chan _ _ _ _ HSim). }
  assert (T' = T) by congruence. subst T'.
  exists (mreqs dr (g_n P) chs pks).
  split; [eapply mhistory_account; eauto; try apply I; apply C|]. split; [exact HRt|].
  intros i q o Hq Ho.
  assert (Ri : 0 <= i < g_n P) by (pose proof (nthZ_range _ _ _ Hq) as Q; unfold mreqs in Q; rewrite zlen_map, zlen_zrange in Q; lia).
  assert (Eq : q = mreq_of dr chs pks i). { unfold mreqs in Hq. rewrite nthZ_map, nthZ_zrange, Z.add_0_l in Hq by lia. cbn [option_map] in Hq. congruence. }
  rewrite (do_len _ _ _ _ _ HD) in HR. destruct (HR i Ri) as (g & m' & He & HM & Hrun).
  subst q. cbn [mq_origin mreq_of] in Ho. destruct (pks i) as [pk|] eqn:Epk; [|discriminate]. cbn [option_map] in Ho.
  assert (Eo : o = mkO (mp_sample pk) (mp_index pk) (mp_test pk) (mp_thr pk)) by (unfold origin_of in Ho; congruence). subst o.
  unfold with_rs in Hrun. cbn [snd] in Hrun. apply bind_inv in Hrun as ([[m2 w] s'] & Hrun & E2). cbn [fst] in E2. assert (m2 = m' /\ w = Some pk) as [-> ->] by (split; congruence).
  destruct (m_event_fits rng _ _ _ _ _ _ _ _ _ _ _ _ C dr nch sched g i I HS He) as [Hi' Hf].
  destruct (Hlaw dr nch g i (ms i) (rs i) m' pk s') as (sc & ws & s2 & asize & n & xd & vals & W0 & W1 & W2 & W3 & W4); auto; [apply (mi_ch _ _ _ _ _ I i Hi')|].
  destruct (mh_some _ _ _ _ _ _ _ _ _ _ _ _ _ _ _ HH i pk Hi' Epk) as (_ & _ & _ & _ & Ec & (PC & PA & Hv & T1 & T2 & T3 & Hd & Hth)).
  exists sc, ws, s2. cbn [mq_chs mreq_of]. rewrite Ec. split; [destruct PC as (PC & _); rewrite PC; exact W0|]. split; [exact W1|]. split.
  { intros a t. rewrite W2, <- Ec. eapply (history_mfree rng nsamp nf nlen srs y P dr nch m0 n_ts (g_n P) mc HD (mi_nc _ _ _ _ _ I)); eauto. }
  cbn [o_series o_start o_test o_thr]. split; [exact W3|].
  intros vs Ev. unfold mq_values in Ev. cbn [mq_origin mreq_of] in Ev. rewrite Epk in Ev. cbn [option_map o_series o_start mq_len mq_dil mq_norm mq_chs mreq_of] in Ev. rewrite Ec in Ev.
  destruct (mrest_thr _ _ _ _ _ _ _ _ _ _ _ _ _ _ _ _ W4) as (x & b & R2 & R3).
  pose proof (percentiles_range _ _ _ _ R2) as [Q1 Q2]. destruct (percentiles_R (mp_dist pk) _ _ Q1 Q2) as (p & Hp' & HP).
  rewrite Hp' in R2. assert (p = (x, b)) by congruence. subst p. cbn [mq_norm mq_len mq_dil mreq_of].
  match goal with |- drawn_thr _ _ _ ?D _ _ => assert (ED : mp_dist pk = D) end.
  { rewrite Hd. injection Ev as <-. reflexivity. }
  rewrite <- ED. destruct HP as [S1 S2].
  { rewrite ED. eapply mdistances_nonempty; try eassumption; [exact (mi_nc _ _ _ _ _ I)|]. apply (mnwin_pos nsamp nf nlen srs P dr nch m0 n_ts (g_n P) mc HD (mi_nc _ _ _ _ _ I) Cm0 Hsz2 Cnl); assumption. }
  exists x, b. cbn [fst snd] in *. auto.
Qed.
End Core.

(** ** The two variants *)
Section SL.
Context {S : Type} (rng : Rng R S) (L : RngLaws RN rng).
Context (X : dataset R) (y : list Z) (nf n mc : Z) (P : gparams R).
Hypothesis HX : train_m nf n X y.
Hypothesis Hsz : forall l, In l (g_sizes P) -> 2 <= l <= n.
Notation acc := (maccount (g_phase P) (g_alpha P) (g_pmin P) (g_pmax P) (g_prime P) (g_sizes P) n (g_n P) mc nf (zlen X) (nthd [] X) (fun _ => n) y).

Lemma MSL_window dr nch g i m s m' pk s' : 1 <= dnch nch i -> mask_ok3 (zlen X) nf n m -> draw_fits (zlen X) (fun _ => n) dr i ->
  M_SL_localG RN rng X y nf n P dr nch (g, i) m s = Ok (m', Some pk, s') ->
  exists s1 ws s2 asize k xd vals, drawn_channels rng nf (dnch nch i) s (mp_chs pk) s1 /\ NoDup ws /\
    (forall a t, In (a, t) ws <-> madmissible RN (zlen X) (fun _ => n) P dr nch i m (mp_chs pk) a t) /\
    mdrawn rng true (zlen X) y ws s1 (mp_sample pk) (mp_index pk) (mp_test pk) s2 /\
    m_rest RN rng (ch_series X) P (dlen dr i) (ddil dr i) (dnorm dr i) asize k (mp_sample pk) (mp_test pk) (mp_index pk) (mp_chs pk) m xd vals s2 = Ok (m', Some pk, s').
Proof.
  destruct (train_m_shape _ _ _ _ HX) as (_ & _ & Hp). pose proof HX as (_ & HMd & Hn & Hy).
  intros Hc1 HM HD H. unfold M_SL_localG in H. cbn [fst snd] in H.
  apply bind_liftG in H as (vals & _ & H). apply bindG_inv in H as (chs & s1 & H1 & H).
  pose proof (draw_channels RN rng L nf nch i _ _ _ H1) as HC. apply (channels_law RN rng L) in H1.
  pose proof (channels_ne nf nch i chs Hc1 HC) as Hne.
  rewrite (liftG_ok _ _ _ _ (MSL_counts X nf n P dr nch Hn i m chs HM HD Hne HC Hp)) in H.
  pose proof (fun s t => MSL_imask RN X n P dr nch i m chs s t HD) as HI. set (im := where2 _) in *. destruct (0 <? zlen im) eqn:E; [|unfold retG in H; congruence].
  apply bind_liftG in H as (xd & _ & H).
  apply bindG_inv in H as (id & s2 & H2 & H). pose proof (choice_In _ _ _ _ _ H2) as I2. apply (choice_law RN rng L) in H2.
  apply bindG_inv in H as (index & s3 & H3 & H). apply (choice_law RN rng L) in H3.
  assert (Hid : 0 <= id). { apply in_map_iff in I2 as ([a t] & Ea & I2). cbn in Ea. subst a. apply HI in I2. destruct I2 as (I2 & _). lia. }
  apply bindG_inv in H as (tst & s4 & Ht & H). apply (pick_test_law RN rng L) in Ht; [|exact Hid]. rewrite Hy in Ht.
  assert (EP : mp_sample pk = id /\ mp_index pk = index /\ mp_test pk = tst /\ mp_chs pk = chs).
  { unfold m_rest in H. repeat (first [apply bind_liftG in H as (? & _ & H)|apply bindG_inv in H as (? & ? & _ & H)]). unfold retG in H. injection H as _ <- _. repeat split; reflexivity. }
  destruct EP as (-> & -> & -> & ->). exists s1, im, s4. do 4 eexists. split; [exact H1|]. split; [apply where2_NoDup|]. split; [exact HI|].
  split; [|exact H]. exists s3. split; [|exact Ht]. exists s2. split; [exact H2|exact H3].
Qed.

Theorem MSL_windows rs sched T : scheduler sched -> M_SL_generate_par RN rng rs sched X y mc P = Ok T ->
  exists hs, acc hs /\ mreturned (nthd [] X) P hs T /\
    forall i q o, nthZ hs i = Some q -> mq_origin q = Some o -> morigin_law rng true P nf (zlen X) (nthd [] X) (fun _ => n) y hs i (rs i) q o.
Proof.
  intros HS H. apply (MSL_par_inv rng X y nf n mc P HX) in H as (values & dr & thr & nch & chan & s1 & st' & Hi & Hr & HT).
  exact (mcore_law rng L _ _ _ _ _ _ _ _ _ _ _ true _ _ (MSL_core rng L X y nf n P HX Hsz) MSL_window values dr thr nch chan s1 rs (sched (dr_dil dr)) st' T Hi (HS _) Hr HT).
Qed.
End SL.

Section VL.
Context {S : Type} (rng : Rng R S) (L : RngLaws RN rng).
Context (X : dataset R) (X_len y : list Z) (nf n mc : Z) (P : gparams R).
Hypothesis HX : train_mv nf n X X_len y.
Hypothesis Hsz : forall l, In l (g_sizes P) -> 2 <= l <= n.
Notation acc := (maccount (g_phase P) (g_alpha P) (g_pmin P) (g_pmax P) (g_prime P) (g_sizes P) n (g_n P) mc nf (zlen X) (mser_vl X X_len) (nthd 0 X_len) y).
Notation wd := (maxlen X_len).

Lemma MVL_window dr nch g i m s m' pk s' : 1 <= dnch nch i -> mask_ok3 (zlen X) nf wd m -> draw_fits (zlen X) (nthd 0 X_len) dr i ->
  M_VL_localG RN rng X X_len y nf P dr nch (g, i) m s = Ok (m', Some pk, s') ->
  exists s1 ws s2 asize k xd vals, drawn_channels rng nf (dnch nch i) s (mp_chs pk) s1 /\ NoDup ws /\
    (forall a t, In (a, t) ws <-> madmissible RN (zlen X) (nthd 0 X_len) P dr nch i m (mp_chs pk) a t) /\
    mdrawn rng false (zlen X) y ws s1 (mp_sample pk) (mp_index pk) (mp_test pk) s2 /\
    m_rest RN rng (ch_series_vl X X_len) P (dlen dr i) (ddil dr i) (dnorm dr i) asize k (mp_sample pk) (mp_test pk) (mp_index pk) (mp_chs pk) m xd vals s2 = Ok (m', Some pk, s').
Proof.
  pose proof HX as (_ & HMd & Hn & HL & Hy & _). pose proof (MVL_pos X X_len y nf n P HX Hsz) as Hpos.
  intros Hc1 HM HD H. unfold M_VL_localG in H. cbn [fst snd] in H.
  apply bindG_inv in H as (chs & s1 & H1 & H).
  pose proof (draw_channels RN rng L nf nch i _ _ _ H1) as HC. apply (channels_law RN rng L) in H1.
  apply bind_liftG in H as (vals & _ & H).
  pose proof (channels_ne nf nch i chs Hc1 HC) as Hne.
  rewrite (liftG_ok _ _ _ _ (MVL_rows RN X X_len nf wd P dr nch HL Hpos i m chs HM HD Hne HC)) in H.
  pose proof (fun s => MVL_imask RN X X_len wd P dr nch Hpos i m chs s) as HI. set (im0 := map _ _) in *. destruct (0 <? zlen (where_ im0)) eqn:E; [|unfold retG in H; congruence].
  apply bindG_inv in H as (id & s2 & H2 & H). pose proof (choice_In _ _ _ _ _ H2) as I2. apply (choice_law RN rng L) in H2. apply HI in I2 as (t0 & HA0). pose proof HA0 as (Hid & _).
  apply bindG_inv in H as (tst & s3 & Ht & H). apply (pick_test_law RN rng L) in Ht; [|lia]. rewrite Hy in Ht.
  apply bind_liftG in H as (n_t & _ & H). apply bind_liftG in H as (xd & _ & H).
  rewrite (liftG_ok _ _ _ (nthd 0 X_len id)) in H by (apply get_nthd; lia).
  destruct (MVL_count X X_len nf wd P dr nch Hpos i m chs id HM HD Hne HC Hid) as (m2 & G1 & G2). rewrite (liftG_ok _ _ _ _ G1), (liftG_ok _ _ _ _ G2) in H.
  apply bindG_inv in H as (index & s4 & H4 & H). apply (choice_law RN rng L) in H4.
  assert (EP : mp_sample pk = id /\ mp_index pk = index /\ mp_test pk = tst /\ mp_chs pk = chs).
  { unfold m_rest in H. repeat (first [apply bind_liftG in H as (? & _ & H)|apply bindG_inv in H as (? & ? & _ & H)]). unfold retG in H. injection H as _ <- _. repeat split; reflexivity. }
  destruct EP as (-> & -> & -> & ->).
  set (f := fun a => where_ (enough RN (dnch nch i) (g_alpha P) (map (count m a chs) (zrange 0 (nwin (g_phase P) (nthd 0 X_len a) (dlen dr i) (ddil dr i)))))).
  assert (HW : forall a t, In (a, t) (rows_list (zrange 0 (zlen X)) f) <-> madmissible RN (zlen X) (nthd 0 X_len) P dr nch i m chs a t).
  { intros a t. rewrite in_rows_list, in_zrange. unfold f. rewrite in_where. unfold madmissible. split.
    - intros [Ra Ht']. apply nthZ_enough in Ht' as [A B]. split; [exact Ra|]. auto.
    - intros (A & B & D). split; [exact A|]. apply nthZ_enough. auto. }
  exists s1, (rows_list (zrange 0 (zlen X)) f), s4. do 4 eexists. split; [exact H1|]. split; [apply rows_list_NoDup; [apply zrange_NoDup|intros; apply where_NoDup]|]. split; [exact HW|].
  split; [|exact H]. exists s2, s3. split; [|split; [exact Ht|]].
  - exists (where_ im0). split; [apply where_NoDup|]. split; [|exact H2]. intros x. rewrite HI. split; intros (t & Hx); exists t; apply HW; exact Hx.
  - rewrite starts_of_rows by apply zrange_NoDup. destruct (in_dec Z.eq_dec id (zrange 0 (zlen X))) as [_|Q]; [|exfalso; apply Q; apply in_zrange; lia]. exact H4.
Qed.

Theorem MVL_windows rs sched T : scheduler sched -> M_VL_generate_par RN rng rs sched X X_len y mc n P = Ok T ->
  exists hs, acc hs /\ mreturned (mser_vl X X_len) P hs T /\
    forall i q o, nthZ hs i = Some q -> mq_origin q = Some o -> morigin_law rng false P nf (zlen X) (mser_vl X X_len) (nthd 0 X_len) y hs i (rs i) q o.
Proof.
  intros HS H. apply (MVL_par_inv rng X X_len y nf n mc P HX) in H as (values & dr & thr & nch & chan & s1 & st' & Hi & Hr & HT).
  exact (mcore_law rng L _ _ _ _ _ _ _ _ _ _ _ false _ _ (MVL_core rng L X X_len y nf n P HX Hsz) MVL_window values dr thr nch chan s1 rs (sched (dr_dil dr)) st' T Hi (HS _) Hr HT).
Qed.
End VL.
