(** The origin of a univariate shapelet as a function of the random numbers consumed by its iteration, over the reals. *)
From Coq Require Import ZArith Znumtheory List Bool Reals Lra Lia Permutation.
From Verif Require Import Prelude Num Kernel Spec KernelProofs RealBase Apply ApplyUni TransformProofs TransformLaws Gen GenSched GenBase GenUni
  GenULoop GenTrace GenURun GenDraw GenSpec GenUFinal GenUTop.
Import ListNotations.
Open Scope Z_scope.

(** ** Specification *)

(** [x] is the element of [l] at the integer drawn below its length from state [s] *)
Definition drawn_at {F S A} (rng : Rng F S) (l : list A) (s : S) (x : A) (s' : S) : Prop :=
  exists j, r_int rng (zlen l) s = (j, s') /\ 0 <= j < zlen l /\ nthZ l j = Some x.

(** the starts of series [a] among windows (series, start) *)
Definition starts_of (ws : list (Z * Z)) (a : Z) : list Z := map snd (filter (fun p => fst p =? a) ws).

(** the series first, weighted by its windows or not, then the start *)
Definition drawn_window {F S} (rng : Rng F S) (weighted : bool) (ws : list (Z * Z)) (s0 : S) (a t : Z) (s2 : S) : Prop :=
  exists s1, (if weighted then drawn_at rng (map fst ws) s0 a s1
              else exists sl, NoDup sl /\ (forall x, In x sl <-> exists t, In (x, t) ws) /\ drawn_at rng sl s0 a s1) /\
    drawn_at rng (starts_of ws a) s1 t s2.

(** another series of the class if there is one *)
Definition drawn_test {F S} (rng : Rng F S) (nser : Z) (y : list Z) (a : Z) (s : S) (b : Z) (s' : S) : Prop :=
  exists os, NoDup os /\ (forall j, In j os <-> 0 <= j < nser /\ nthZ y j = nthZ y a /\ j <> a) /\
    ((os = [] /\ b = a /\ s' = s) \/ drawn_at rng os s b s').

Definition drawn_thr {S} (rng : Rng R S) (p_min p_max : R) (ds : list R) (s : S) (thr : R) : Prop :=
  exists a b, is_percentile ds p_min a /\ is_percentile ds p_max b /\ thr = (a + (b - a) * fst (r_unif rng s))%R.

(** what the iteration of request [i], which starts from generator state [s0], does *)
Definition origin_law {S} (rng : Rng R S) (weighted : bool) (P : gparams R) (nser : Z) (series : Z -> list R) (y : list Z) (hs : list request) (i : Z) (s0 : S) (q : request) (o : origin) : Prop :=
  exists ws s1 s2, NoDup ws /\ (forall a t, In (a, t) ws <-> free_start (g_phase P) (g_alpha P) nser series hs i a t) /\
    drawn_window rng weighted ws s0 (o_series o) (o_start o) s1 /\ drawn_test rng nser y (o_series o) s1 (o_test o) s2 /\
    forall v, q_values (g_phase P) series q = Some v ->
      drawn_thr rng (g_pmin P) (g_pmax P) (distances RN (g_phase P) (q_norm q) (series (o_test o)) v (q_len q) (q_dil q)) s2 (o_thr o).

(** ** Proofs *)

Lemma choice_law {F S A} (N : NumOps F) (rng : Rng F S) (L : RngLaws N rng) (l : list A) s x s' : choice rng l s = Ok (x, s') -> drawn_at rng l s x s'.
Proof.
  unfold choice. intros H. apply bind_liftG in H as ([] & Hg & H). apply guard_ok in Hg. apply Z.ltb_lt in Hg. apply bindG_inv in H as (j & s1 & H1 & H). unfold draw_int in H1.
  assert (Ej : r_int rng (zlen l) s = (j, s1)) by congruence. apply liftG_inv in H as [H ->]. pose proof (rl_int L (zlen l) s Hg) as Hj. rewrite Ej in Hj. cbn [fst] in Hj.
  exists j. split; [exact Ej|]. split; [exact Hj|]. apply get_nthZ in H; [exact H|lia].
Qed.

Lemma pick_test_law {F S} (N : NumOps F) (rng : Rng F S) (L : RngLaws N rng) y a s b s' : 0 <= a -> pick_test rng y a s = Ok (b, s') -> drawn_test rng (zlen y) y a s b s'.
Proof.
  intros Ha H. unfold pick_test in H. apply bind_liftG in H as (c & Hc & H). apply get_nthZ in Hc; [|exact Ha].
  pose proof (nthZ_range _ _ _ Hc) as Ra.
  assert (HW : forall j, In j (where_ (map (Z.eqb c) y)) <-> nthZ y j = Some c).
  { intros j. rewrite in_where, nthZ_map. split.
    - destruct (nthZ y j) as [d|]; [|discriminate]. cbn [option_map]. intros E. assert (E' : (c =? d) = true) by congruence. apply Z.eqb_eq in E'. congruence.
    - intros ->. cbn. rewrite Z.eqb_refl. reflexivity. }
  exists (filter (fun i => negb (i =? a)) (where_ (map (Z.eqb c) y))). split; [apply NoDup_filter; apply where_NoDup|]. split.
  { intros j. rewrite filter_In, HW, negb_true_iff, Z.eqb_neq, Hc. split; [|tauto]. intros [Q1 Q2]. split; [eapply nthZ_range; eauto|tauto]. }
  destruct (1 <? zlen (where_ (map (Z.eqb c) y))) eqn:E.
  - right. exact (choice_law N rng L _ _ _ _ H).
  - left. unfold retG in H. split; [|split; congruence]. apply Z.ltb_ge in E. assert (Hi' : In a (where_ (map (Z.eqb c) y))) by (apply HW; exact Hc).
    destruct (where_ (map (Z.eqb c) y)) as [|x [|z l]] eqn:Ew; [destruct Hi'| |exfalso; rewrite !zlen_cons in E; pose proof (zlen_nonneg l); lia].
    destruct Hi' as [->|[]]. cbn [filter]. rewrite Z.eqb_refl. reflexivity.
Qed.

(** the windows of series [ks], the starts of each given by [f], series after series *)
Definition rows_list (ks : list Z) (f : Z -> list Z) : list (Z * Z) := concat (map (fun k => map (pair k) (f k)) ks).

Lemma in_rows_list ks f a t : In (a, t) (rows_list ks f) <-> In a ks /\ In t (f a).
Proof.
  unfold rows_list. rewrite in_concat. split.
  - intros (l & Hl & H). apply in_map_iff in Hl as (k & <- & Hk). apply in_map_iff in H as (j & E & Hj). injection E as -> ->. auto.
  - intros [H1 H2]. exists (map (pair a) (f a)). split; [apply in_map_iff; exists a; auto|apply in_map; exact H2].
Qed.

Lemma rows_list_NoDup ks f : NoDup ks -> (forall k, In k ks -> NoDup (f k)) -> NoDup (rows_list ks f).
Proof.
  induction 1 as [|k ks Hk HD IH]; intros Hf; [constructor|]. unfold rows_list. cbn [map concat]. fold (rows_list ks f).
  assert (A : NoDup (map (pair k) (f k))). { apply FinFun.Injective_map_NoDup; [intros x z E; congruence|apply Hf; left; reflexivity]. }
  specialize (IH (fun k0 H0 => Hf k0 (or_intror H0))).
  assert (B : forall p, In p (map (pair k) (f k)) -> ~ In p (rows_list ks f)). { intros p Hp Hq. apply in_map_iff in Hp as (j & <- & _). apply in_rows_list in Hq as [Hq _]. contradiction. }
  revert A B. generalize (map (pair k) (f k)) as u. induction u as [|p u IHu]; intros A B; cbn [app]; [exact IH|]. inversion A; subst. constructor.
  - intros Q. apply in_app_or in Q as [Q|Q]; [contradiction|]. apply (B p (or_introl eq_refl) Q).
  - apply IHu; [assumption|]. intros q Hq. apply B. right. exact Hq.
Qed.

Lemma starts_of_app a u v : starts_of (u ++ v) a = starts_of u a ++ starts_of v a.
Proof. unfold starts_of. rewrite filter_app, map_app. reflexivity. Qed.

Lemma starts_of_pair a k l : starts_of (map (pair k) l) a = if k =? a then l else [].
Proof.
  unfold starts_of. destruct (Z.eqb_spec k a) as [->|N].
  - induction l as [|x t IH]; [reflexivity|]. cbn [map filter fst]. rewrite Z.eqb_refl. cbn [map snd]. rewrite IH. reflexivity.
  - induction l as [|x t IH]; [reflexivity|]. cbn [map filter fst]. destruct (Z.eqb_spec k a); [contradiction|exact IH].
Qed.

Lemma starts_of_rows ks f a : NoDup ks -> starts_of (rows_list ks f) a = if in_dec Z.eq_dec a ks then f a else [].
Proof.
  induction 1 as [|k ks Hk HD IH]; [reflexivity|]. unfold rows_list. cbn [map concat]. fold (rows_list ks f). rewrite starts_of_app, starts_of_pair, IH.
  destruct (Z.eqb_spec k a) as [->|N].
  - destruct (in_dec Z.eq_dec a ks); [contradiction|]. destruct (in_dec Z.eq_dec a (a :: ks)) as [_|Q]; [apply app_nil_r|exfalso; apply Q; left; reflexivity].
  - cbn [app]. destruct (in_dec Z.eq_dec a ks) as [Q|Q], (in_dec Z.eq_dec a (k :: ks)) as [Q'|Q']; try reflexivity.
    + exfalso. apply Q'. right. exact Q.
    + destruct Q' as [Q'|Q']; contradiction.
Qed.

Lemma where2_rows M : where2 M = rows_list (zrange 0 (zlen M)) (fun k => where_ (nthd [] M k)).
Proof.
  unfold where2, rows_list. f_equal. apply nthZ_ext.
  - rewrite !zlen_map. unfold zlen at 1. rewrite combine_length. pose proof (zlen_zrange 0 (zlen M)). unfold zlen in *. lia.
  - intros i Hi. rewrite !nthZ_map. assert (Ri : 0 <= i < zlen M).
    { rewrite zlen_map in Hi. unfold zlen in Hi at 1. rewrite combine_length in Hi. unfold zlen in *. lia. }
    rewrite nthZ_zrange by lia. cbn [option_map]. destruct (nthZ_some M i Ri) as (r & Hr).
    assert (E : nthZ (combine (zrange 0 (zlen M)) M) i = Some (i, r)).
    { assert (G : forall (l : list Z) (l' : list (list bool)) k x z, nthZ l k = Some x -> nthZ l' k = Some z -> nthZ (combine l l') k = Some (x, z)).
      { induction l as [|b u IH]; intros l' k x z Hx Hz; [apply nthZ_range in Hx; cbn in Hx; lia|]. destruct l' as [|c v]; [apply nthZ_range in Hz; cbn in Hz; lia|].
        cbn [combine]. rewrite nthZ_cons in Hx. rewrite nthZ_cons in Hz. rewrite nthZ_cons. destruct (k =? 0); [congruence|]. apply IH; assumption. }
      apply G; [|exact Hr]. rewrite nthZ_zrange by lia. f_equal. }
    rewrite E. rewrite ?Z.add_0_l. cbn [option_map fst snd]. rewrite (nthd_some [] M i r Hr). reflexivity.
Qed.

Lemma where2_NoDup M : NoDup (where2 M).
Proof. rewrite where2_rows. apply rows_list_NoDup; [apply zrange_NoDup|]. intros. apply where_NoDup. Qed.

Section Core.
Context {S : Type} (rng : Rng R S) (L : RngLaws RN rng).
Context (nsamp wd : Z) (nlen : Z -> Z) (srs : Z -> list R) (srs_m : Z -> res (list R)) (y : list Z) (P : gparams R) (n_ts : Z) (m0 : list (list bool)).
Context (weighted : bool) (localG : drawn -> Z * Z -> list (list bool) -> G S (list (list bool) * option (pick R))).
Context (iter : drawn -> ust R -> Z * Z -> G S (ust R)).
Hypothesis Hstep : forall dr rs st e sched, wf_drawn dr -> is_schedule (dr_dil dr) sched -> In e sched ->
  (let* p := iter dr st e (rs (snd e)) in Ok (u_enc (fst p))) = u_step rs (localG dr) dr (u_enc st) e.
Hypothesis Hinv : forall dr g i m s r, mask_ok nsamp wd m -> draw_fits nsamp nlen dr i -> localG dr (g, i) m s = Ok r ->
  iter_ok RN rng nsamp wd nlen srs y P dr (g, i) m (fst (fst r)) (snd (fst r)).
Hypothesis Hm0k : mask_ok nsamp wd m0.
Hypothesis Hm0 : forall s t, mcell m0 s t = true <-> 0 <= s < nsamp /\ 0 <= t < nlen s.
Hypothesis Hsl : forall s, 0 <= s < nsamp -> zlen (srs s) = nlen s.
Hypothesis Hsz : forall l, In l (g_sizes P) -> 2 <= l <= n_ts.
Hypothesis Hnl : forall s, 0 <= s < nsamp -> n_ts <= nlen s.
Hypothesis Hy : zlen y = nsamp.
(** how the variant chooses *)
Hypothesis Hlaw : forall dr g i m s m' pk s', mask_ok nsamp wd m -> draw_fits nsamp nlen dr i -> localG dr (g, i) m s = Ok (m', Some pk, s') ->
  exists ws s1 asize n, NoDup ws /\ (forall a t, In (a, t) ws <-> admissible nsamp nlen P dr i m a t) /\
    drawn_window rng weighted ws s (pk_sample pk) (pk_index pk) s1 /\
    u_rest RN rng srs_m y P (dlen dr i) (ddil dr i) (dnorm dr i) asize n (pk_sample pk) (pk_index pk) m s1 = Ok (m', Some pk, s').
Notation init := (U_init RN rng (g_n P) (g_sizes P) n_ts (g_pnorm P) (g_prime P) (r_seed rng (g_seed P))).
Notation acc := (account (g_phase P) (g_alpha P) (g_pmin P) (g_pmax P) (g_prime P) (g_sizes P) n_ts (g_n P) nsamp srs y).

(** the draws after the choice of the window *)
Lemma rest_law l d nm asize n a t m s m' pk s' : 0 <= a -> u_rest RN rng srs_m y P l d nm asize n a t m s = Ok (m', Some pk, s') ->
  pk_sample pk = a /\ exists s2, drawn_test rng (zlen y) y a s (pk_test pk) s2 /\
    exists x b, percentiles RN (pk_dist pk) (g_pmin P) (g_pmax P) = Ok (x, b) /\ pk_thr pk = (x + (b - x) * fst (r_unif rng s2))%R.
Proof.
  intros Ha H. unfold u_rest in H. apply bind_liftG in H as (m2 & _ & H). apply bind_liftG in H as (x & _ & H). apply bind_liftG in H as (v & _ & H).
  apply bindG_inv in H as (b & s2 & Hb & H). apply (pick_test_law RN rng L) in Hb; [|exact Ha].
  apply bind_liftG in H as (xt & _ & H). apply bind_liftG in H as (xd & _ & H). apply bindG_inv in H as (thr & s3 & Hth & H).
  unfold draw_threshold in Hth. apply bind_liftG in Hth as ([p1 p2] & Hp & Hth). unfold uniform, bindG, draw_unif, retG in Hth. cbn [bind fst snd] in Hth.
  unfold retG in H. injection H as Em Epk Es. subst pk. cbn [pk_sample pk_test pk_dist pk_thr]. split; [reflexivity|].
  exists s2. split; [exact Hb|]. exists p1, p2. split; [exact Hp|]. destruct (r_unif rng s2) as [u su]. cbn [fst snd] in *. injection Hth as <- _. reflexivity.
Qed.

Lemma core_law values dr thr s1 rs sched st' : init = Ok (values, dr, thr, s1) -> is_schedule (dr_dil dr) sched ->
  run_sched (iter dr) rs sched (mkUst (mask0 dr m0) thr values) = Ok st' ->
  exists hs W, acc hs /\ map q_len hs = dr_len dr /\ map q_dil hs = dr_dil dr /\ map q_norm hs = dr_norm dr /\
    (In W (g_sizes P) /\ forall l, In l (g_sizes P) -> l <= W) /\ returned srs P W hs (U_finish RN dr st') /\
    forall i q o, nthZ hs i = Some q -> q_origin q = Some o -> origin_law rng weighted P nsamp srs y hs i (rs i) q o.
Proof.
  intros Hi HS H. destruct (init_state rng L nsamp wd nlen srs y P n_ts m0 iter localG Hstep Hinv Hm0k Hm0 Hsl Hsz Hnl _ _ _ _ Hi) as (HD & W & HW & HWin & HWl & E).
  apply (run_as_step P n_ts iter localG Hstep dr rs sched _ _ HD HS) in H. rewrite E in H.
  destruct st' as [M' thr' val']. unfold u_enc in H at 1. cbn [u_mask u_thr u_val] in H.
  assert (EF : forall g i, In (g, i) sched -> draw_fits nsamp nlen dr i) by (intros g i He; exact (event_fits rng nsamp wd nlen srs y P n_ts m0 iter localG Hstep Hinv Hm0 Hsl Hsz Hnl dr sched g i HD HS He)).
  destruct (u_run_history_run RN rng nsamp wd nlen srs y P dr (localG dr) m0 W rs sched (drawn_wf P n_ts dr HD) HS Hm0k HWl) with (2 := H) as (ms & pks & HH & HR).
  { intros [g i] m s r He HM HL. apply (Hinv dr g i m s r HM); [|exact HL]. eapply EF; eauto. }
  assert (HA : acc (reqs dr (g_n P) pks)) by (eapply history_account; eauto; intros l Hl; specialize (Hsz l Hl); lia).
  exists (reqs dr (g_n P) pks), W. split; [exact HA|].
  split; [symmetry; rewrite <- (map_nthd_zrange 0 (dr_len dr)); rewrite (do_len _ _ _ _ _ HD); apply map_nth_eq; reflexivity|].
  split; [symmetry; rewrite <- (map_nthd_zrange 0 (dr_dil dr)); rewrite (do_dil _ _ _ _ _ HD); apply map_nth_eq; reflexivity|].
  split; [symmetry; rewrite <- (map_nthd_zrange false (dr_norm dr)); rewrite (do_norm _ _ _ _ _ HD); apply map_nth_eq; reflexivity|].
  split; [auto|]. split.
  { eapply history_returned; eauto.
    - intros l Hl. specialize (Hsz l Hl). lia.
    - rewrite <- (do_len _ _ _ _ _ HD). exact HWl. }
  assert (Hs2 : forall l, In l (g_sizes P) -> 2 <= l) by (intros l Hl'; specialize (Hsz l Hl'); lia).
  intros i q o Hq Ho. apply (reqs_nth nsamp nlen srs P dr m0 n_ts (g_n P) Hsl Hm0 Hs2 Hnl) in Hq as [Ri Eq]. rewrite (do_len _ _ _ _ _ HD) in HR. destruct (HR i Ri) as (g & m' & He & HM & Hrun).
  subst q. cbn [q_origin req_of] in Ho. destruct (pks i) as [pk|] eqn:Epk; [|discriminate]. cbn [option_map] in Ho.
  assert (Eo : o = mkO (pk_sample pk) (pk_index pk) (pk_test pk) (pk_thr pk)) by congruence. subst o.
  unfold with_rs in Hrun. cbn [snd] in Hrun. apply bind_inv in Hrun as ([[m2 w] s'] & Hrun & E2). cbn [fst] in E2. assert (m2 = m' /\ w = Some pk) as [-> ->] by (split; congruence).
  destruct (Hlaw dr g i (ms i) (rs i) m' pk s' HM (EF g i He) Hrun) as (ws & s2 & asize & n & W1 & W2 & W3 & W4).
  assert (FR : forall a t, In (a, t) ws <-> free_start (g_phase P) (g_alpha P) nsamp srs (reqs dr (g_n P) pks) i a t).
  { intros a t. rewrite W2. eapply (history_free rng nsamp nlen srs y P dr m0 W n_ts (g_n P) HD); eauto. }
  destruct (uh_some _ _ _ _ _ _ _ _ _ _ _ _ _ _ HH i pk ltac:(rewrite (do_len _ _ _ _ _ HD); lia) Epk) as (_ & _ & (PA & Hl & Hv & T1 & T2 & T3 & Hd & Hth)).
  destruct PA as (PA & _). destruct (rest_law _ _ _ _ _ _ _ _ _ _ _ _ (proj1 PA) W4) as (_ & s3 & R1 & x & b & R2 & R3).
  exists ws, s2, s3. split; [exact W1|]. split; [exact FR|]. cbn [o_series o_start o_test o_thr]. split; [exact W3|]. split; [rewrite <- Hy; exact R1|].
  intros v Ev. unfold q_values in Ev. cbn [q_origin req_of] in Ev. rewrite Epk in Ev. cbn [option_map o_series o_start q_len q_dil q_norm req_of] in Ev.
  assert (Ev' : v = pk_v pk) by (rewrite Hv; congruence). subst v. cbn [q_norm q_len q_dil req_of]. rewrite <- Hd.
  pose proof (percentiles_range _ _ _ _ R2) as [Q1 Q2]. destruct (percentiles_R (pk_dist pk) _ _ Q1 Q2) as (p & Hp' & HP).
  rewrite Hp' in R2. assert (p = (x, b)) by congruence. subst p. destruct HP as [S1 S2].
  { rewrite Hd. apply (distances_nonempty nsamp nlen srs P m0 n_ts Hsl Hm0 Hs2 Hnl). apply (nwin_pos nsamp nlen srs P dr m0 n_ts (g_n P) HD Hsl Hm0 Hs2 Hnl); assumption. }
  exists x, b. cbn [fst snd] in *. auto.
Qed.
End Core.

(** ** The two variants *)
Section SL.
Context {S : Type} (rng : Rng R S) (L : RngLaws RN rng).
Context (X : dataset R) (y : list Z) (n : Z) (P : gparams R).
Hypothesis HX : train_u n X y.
Hypothesis Hsz : forall l, In l (g_sizes P) -> 2 <= l <= n.
Notation acc := (account (g_phase P) (g_alpha P) (g_pmin P) (g_pmax P) (g_prime P) (g_sizes P) n (g_n P) (zlen X) (ser X) y).

Lemma SL_window dr g i m s m' pk s' : mask_ok (zlen X) n m -> draw_fits (zlen X) (fun _ => n) dr i -> U_SL_localG RN rng X y n P dr (g, i) m s = Ok (m', Some pk, s') ->
  exists ws s1 asize k, NoDup ws /\ (forall a t, In (a, t) ws <-> admissible (zlen X) (fun _ => n) P dr i m a t) /\
    drawn_window rng true ws s (pk_sample pk) (pk_index pk) s1 /\
    u_rest RN rng (u_series X) y P (dlen dr i) (ddil dr i) (dnorm dr i) asize k (pk_sample pk) (pk_index pk) m s1 = Ok (m', Some pk, s').
Proof.
  destruct (SL_parts X y n HX) as (A & B & D & E0 & _). intros HM HD H. unfold U_SL_localG in H. cbn [fst snd] in H.
  pose proof (fun a t => SL_imask X n P dr B D i m a t HM HD) as HI.
  set (im := where2 _) in H, HI. destruct (0 <? zlen im) eqn:E; [|unfold retG in H; congruence].
  apply bindG_inv in H as (id & s1 & H1 & H). apply (choice_law RN rng L) in H1.
  apply bindG_inv in H as (index & s2 & H2 & H). apply (choice_law RN rng L) in H2.
  assert (EP : pk_sample pk = id /\ pk_index pk = index).
  { unfold u_rest in H. repeat (first [apply bind_liftG in H as (? & _ & H)|apply bindG_inv in H as (? & ? & _ & H)]). unfold retG in H. injection H as _ <- _. split; reflexivity. }
  destruct EP as [-> ->]. exists im, s2. eexists _, _. split; [apply where2_NoDup|]. split; [exact HI|]. split; [exists s1; split; [exact H1|exact H2]|exact H].
Qed.

Theorem SL_windows rs sched T : scheduler sched -> U_SL_generate_par RN rng rs sched X y P = Ok T ->
  exists hs W, acc hs /\ (In W (g_sizes P) /\ forall l, In l (g_sizes P) -> l <= W) /\ returned (ser X) P W hs T /\
    forall i q o, nthZ hs i = Some q -> q_origin q = Some o -> origin_law rng true P (zlen X) (ser X) y hs i (rs i) q o.
Proof.
  intros HS H. apply (SL_par_inv rng X y n P HX) in H as (values & dr & thr & s1 & st' & Hi & Hr & ->). destruct (SL_parts X y n HX) as (A & B & D & E & _).
  destruct (core_law rng L (zlen X) n (fun _ => n) (ser X) (u_series X) y P n (m0_SL n X) true (U_SL_localG RN rng X y n P) (U_SL_iter RN rng X y n P))
    with (values := values) (dr := dr) (thr := thr) (s1 := s1) (rs := rs) (sched := sched (dr_dil dr)) (st' := st') as (hs & W & H1 & _ & _ & _ & H2 & H3 & H4); auto.
  - intros. eapply U_SL_iter_step; eauto.
  - intros. apply (SL_local_inv RN rng X y n P dr0 A B D E g i m s r); assumption.
  - apply m0_SL_ok; exact B.
  - intros s t. apply mcell_m0_SL. exact B.
  - intros; lia.
  - intros dr0 g i m s m' pk s'. apply SL_window.
  - exists hs, W. auto.
Qed.
End SL.

Section VL.
Context {S : Type} (rng : Rng R S) (L : RngLaws RN rng).
Context (X : dataset R) (X_len : list Z) (y : list Z) (n : Z) (P : gparams R).
Hypothesis HX : train_uv n X X_len y.
Hypothesis Hsz : forall l, In l (g_sizes P) -> 2 <= l <= n.
Notation acc := (account (g_phase P) (g_alpha P) (g_pmin P) (g_pmax P) (g_prime P) (g_sizes P) n (g_n P) (zlen X) (ser_vl X X_len) y).
Notation wd := (maxlen X_len).

Lemma VL_window dr g i m s m' pk s' : mask_ok (zlen X) wd m -> draw_fits (zlen X) (nthd 0 X_len) dr i -> U_VL_localG RN rng X X_len y P dr (g, i) m s = Ok (m', Some pk, s') ->
  exists ws s1 asize k, NoDup ws /\ (forall a t, In (a, t) ws <-> admissible (zlen X) (nthd 0 X_len) P dr i m a t) /\
    drawn_window rng false ws s (pk_sample pk) (pk_index pk) s1 /\
    u_rest RN rng (u_series_vl X X_len) y P (dlen dr i) (ddil dr i) (dnorm dr i) asize k (pk_sample pk) (pk_index pk) m s1 = Ok (m', Some pk, s').
Proof.
  destruct (VL_parts X X_len y n P HX Hsz) as (A & B & D & E0 & E'). intros HM HD H. unfold U_VL_localG in H. cbn [fst snd] in H.
  apply bind_liftG in H as (im & Him & H). rewrite (VL_rows X X_len wd P dr B E0 E' i m HM) in Him.
  pose proof (fun s => VL_imask X X_len wd P dr E0 E' i m s HM HD) as HI. set (im0 := map _ _) in Him, HI. assert (im = im0) by congruence. subst im.
  destruct (0 <? zlen (where_ im0)) eqn:E; [|unfold retG in H; congruence].
  apply bindG_inv in H as (id & s1 & H1 & H). pose proof (choice_In _ _ _ _ _ H1) as I1. apply (choice_law RN rng L) in H1. apply HI in I1 as (t0 & HA0). pose proof HA0 as (Hid & _).
  destruct (mask_row _ _ m id HM Hid) as (row & Hr & Hg & _).
  rewrite (liftG_ok _ _ _ (nthd 0 X_len id)) in H by (apply get_nthd; lia). rewrite (liftG_ok _ _ _ row Hg) in H.
  apply bindG_inv in H as (index & s2 & H2 & H). apply (choice_law RN rng L) in H2.
  assert (EP : pk_sample pk = id /\ pk_index pk = index).
  { unfold u_rest in H. repeat (first [apply bind_liftG in H as (? & _ & H)|apply bindG_inv in H as (? & ? & _ & H)]). unfold retG in H. injection H as _ <- _. split; reflexivity. }
  destruct EP as [-> ->].
  set (f := fun a => where_ (slice (nthd [] m a) 0 (nwin (g_phase P) (nthd 0 X_len a) (dlen dr i) (ddil dr i)))).
  assert (HW : forall a t, In (a, t) (rows_list (zrange 0 (zlen X)) f) <-> admissible (zlen X) (nthd 0 X_len) P dr i m a t).
  { intros a t. rewrite in_rows_list, in_zrange. unfold f. rewrite in_where. split.
    - intros [Ra Ht]. destruct (mask_row _ _ m a HM Ra) as (r & Hra & _ & _). rewrite (nthd_some [] m a r Hra) in Ht. apply (adm_row _ _ _ P dr E0 i m a t r HM HD Hra). exact Ht.
    - intros HA. pose proof HA as (Ra & _). split; [exact Ra|]. destruct (mask_row _ _ m a HM Ra) as (r & Hra & _ & _). rewrite (nthd_some [] m a r Hra).
      apply (adm_row _ _ _ P dr E0 i m a t r HM HD Hra). exact HA. }
  exists (rows_list (zrange 0 (zlen X)) f), s2. eexists _, _. split; [apply rows_list_NoDup; [apply zrange_NoDup|intros; apply where_NoDup]|]. split; [exact HW|].
  split; [|exact H]. exists s1. split.
  - exists (where_ im0). split; [apply where_NoDup|]. split; [|exact H1]. intros x. rewrite HI. split; intros (t & Ht); exists t; apply HW; exact Ht.
  - rewrite starts_of_rows by apply zrange_NoDup. destruct (in_dec Z.eq_dec id (zrange 0 (zlen X))) as [_|Q]; [|exfalso; apply Q; apply in_zrange; lia].
    unfold f. rewrite (nthd_some [] m id row Hr). exact H2.
Qed.

Theorem VL_windows rs sched T : scheduler sched -> U_VL_generate_par RN rng rs sched X X_len y n P = Ok T ->
  exists hs W, acc hs /\ (In W (g_sizes P) /\ forall l, In l (g_sizes P) -> l <= W) /\ returned (ser_vl X X_len) P W hs T /\
    forall i q o, nthZ hs i = Some q -> q_origin q = Some o -> origin_law rng false P (zlen X) (ser_vl X X_len) y hs i (rs i) q o.
Proof.
  intros HS H. apply (VL_par_inv rng X X_len y n P HX) in H as (values & dr & thr & s1 & st' & Hi & Hr & ->). destruct (VL_parts X X_len y n P HX Hsz) as (A & B & D & E & E').
  destruct (core_law rng L (zlen X) wd (nthd 0 X_len) (ser_vl X X_len) (u_series_vl X X_len) y P n (m0_VL X_len) false (U_VL_localG RN rng X X_len y P) (U_VL_iter RN rng X X_len y P))
    with (values := values) (dr := dr) (thr := thr) (s1 := s1) (rs := rs) (sched := sched (dr_dil dr)) (st' := st') as (hs & W & H1 & _ & _ & _ & H2 & H3 & H4); auto.
  - intros. eapply U_VL_iter_step; eauto.
  - intros. apply (VL_local_inv RN rng X X_len y wd P dr0 A B D E E' g i m s r); assumption.
  - apply (m0_VL_ok n X X_len y HX).
  - apply (mcell_m0_VL n X X_len y HX).
  - apply (zlen_ser_vl n X X_len y HX).
  - intros s Hs. apply (VL_nlen n X X_len y HX). exact Hs.
  - intros dr0 g i m s m' pk s'. apply VL_window.
  - exists hs, W. auto.
Qed.
End VL.
