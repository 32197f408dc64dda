(** Multivariate shapelet generation: packing of the result and account of a whole call. *)
From Coq Require Import ZArith Znumtheory List Bool Reals Lra Lia Permutation.
From Verif Require Import Prelude Num Kernel Spec KernelProofs RealBase Apply ApplyUni ApplyMulti TransformProofs TransformLaws Gen GenSched GenBase GenUni
  GenULoop GenTrace GenURun GenMulti GenMLoop GenMRun GenDraw GenSpec GenMSpec GenUFinal.
Import ListNotations.
Open Scope Z_scope.

(** ** The final repacking keeps the chunks of the returned shapelets *)

Section Pack.
Context {F : Type} (N : NumOps F).

Lemma zsum_map_concat {A} (gs : list (list A)) w : zsum (map (fun i => zlen (nthd [] gs i)) w) = zlen (concat (map (nthd [] gs) w)).
Proof. rewrite <- zsum_zlen, map_map. reflexivity. Qed.

Lemma nthd_out {A} (d : A) l i : ~ (0 <= i < zlen l) -> nthd d l i = d.
Proof. intros H. unfold nthd. replace (nthZ l i) with (@None A); [reflexivity|]. symmetry. apply nthZ_none. lia. Qed.

Lemma zmul_nth a b i : zlen a = zlen b -> nthd 0 (zmul_list a b) i = nthd 0 a i * nthd 0 b i.
Proof.
  intros H. destruct (Z_lt_le_dec i 0) as [Hi|Hi]; [|destruct (Z_lt_le_dec i (zlen a)) as [Hj|Hj]].
  - rewrite !nthd_out by lia. reflexivity.
  - apply nthd_some. apply nthZ_zmul; apply nthZ_nthd; lia.
  - rewrite !nthd_out by (rewrite ?zlen_zmul by exact H; lia). reflexivity.
Qed.

Lemma zmul_map {A} (f g : A -> Z) w : zmul_list (map f w) (map g w) = map (fun i => f i * g i) w.
Proof. unfold zmul_list. induction w as [|x w IH]; [reflexivity|]. cbn [map combine fst snd]. rewrite IH. reflexivity. Qed.

Lemma M_finish_ok dr nch (st : mst F) gs cs : wf_m dr nch -> zlen (m_ret st) = zlen (dr_len dr) ->
  m_val st = concat gs -> m_chan st = concat cs -> map zlen gs = zmul_list nch (dr_len dr) -> map zlen cs = nch ->
  M_finish N dr nch st = Ok (mkMshp (concat (mask_select (m_ret st) gs)) (mask_select (m_ret st) (dr_len dr)) (mask_select (m_ret st) (dr_dil dr))
     (mask_select (m_ret st) (m_thr st)) (mask_select (m_ret st) (dr_norm dr)) (mask_select (m_ret st) nch) (concat (mask_select (m_ret st) cs))).
Proof.
  intros [[W1 W2] W3] ZR EV EC LV LC.
  assert (Zg : zlen gs = zlen (dr_len dr)) by (rewrite <- (zlen_map zlen), LV, zlen_zmul; lia).
  assert (Zc : zlen cs = zlen (dr_len dr)) by (rewrite <- (zlen_map zlen), LC; lia).
  assert (SEL : forall A (d : A) (l : list A), zlen l = zlen (dr_len dr) -> mask_select (m_ret st) l = map (nthd d l) (where_ (m_ret st))).
  { intros A d l Hl. apply mask_select_nthd. unfold zlen in *. lia. }
  assert (HGV : forall i, zlen (nthd [] gs i) = nthd 0 nch i * nthd 0 (dr_len dr) i).
  { intros i. rewrite <- zmul_nth, <- LV by lia. change 0 with (zlen (@nil F)) at 1. unfold nthd. rewrite nthZ_map. destruct (nthZ gs i); reflexivity. }
  assert (HGC : forall i, zlen (nthd [] cs i) = nthd 0 nch i).
  { intros i. rewrite <- LC. unfold nthd. rewrite nthZ_map. destruct (nthZ cs i); reflexivity. }
  unfold M_finish. rewrite (SEL _ 0 (dr_len dr)) by lia. rewrite (SEL _ 0 nch) by lia. rewrite (SEL _ [] gs), (SEL _ [] cs) by lia.
  set (w := where_ (m_ret st)). set (fl := nthd 0 (dr_len dr)). set (fc := nthd 0 nch).
  assert (HwR : forall i, In i w -> 0 <= i < zlen (dr_len dr)).
  { intros i Hi. unfold w in Hi. apply in_where in Hi. apply nthZ_range in Hi. lia. }
  assert (S1 : zsum (map fc w) = zlen (concat (map (nthd [] cs) w))).
  { rewrite <- zsum_map_concat. f_equal. apply map_ext. intros i. symmetry. apply HGC. }
  assert (S2 : zsum (zmul_list (map fl w) (map fc w)) = zlen (concat (map (nthd [] gs) w))).
  { rewrite <- zsum_map_concat, zmul_map. f_equal. apply map_ext. intros i. rewrite HGV. apply Z.mul_comm. }
  rewrite S1, S2. rewrite !full_nonneg by apply zlen_nonneg. cbn [bind].
  set (loop := fun (q : Z * Z * list F * list Z) (p : Z * Z) => _).
  assert (HL : forall rest pre, w = pre ++ rest ->
    foldM loop (combine (zrange (zlen pre) (zlen w)) rest)
      (zlen (concat (map (nthd [] gs) pre)), zlen (concat (map (nthd [] cs) pre)),
       concat (map (nthd [] gs) pre) ++ repeat (n0 N) (Z.to_nat (zlen (concat (map (nthd [] gs) rest)))),
       concat (map (nthd [] cs) pre) ++ repeat 0 (Z.to_nat (zlen (concat (map (nthd [] cs) rest))))) =
    Ok (zlen (concat (map (nthd [] gs) w)), zlen (concat (map (nthd [] cs) w)), concat (map (nthd [] gs) w), concat (map (nthd [] cs) w))).
  { induction rest as [|i rest IH]; intros pre Ew.
    - rewrite combine_nil. cbn [foldM map concat]. change (zlen (@nil F)) with 0. change (zlen (@nil Z)) with 0. cbn [Z.to_nat repeat]. rewrite !app_nil_r. rewrite app_nil_r in Ew. rewrite Ew. reflexivity.
    - assert (Hi : 0 <= i < zlen (dr_len dr)) by (apply HwR; rewrite Ew; apply in_or_app; right; left; reflexivity).
      assert (Zw : zlen w = zlen pre + 1 + zlen rest) by (rewrite Ew, zlen_app, zlen_cons; lia). pose proof (zlen_nonneg rest). pose proof (zlen_nonneg pre).
      rewrite zrange_cons by lia. cbn [combine foldM].
      assert (GET : forall f : Z -> Z, get (map f w) (zlen pre) = Ok (f i)).
      { intros f. apply get_nthZ; [lia|]. rewrite nthZ_map, Ew, nthZ_app, Z.ltb_irrefl, Z.sub_diag. reflexivity. }
      destruct (offsets_slice gs i (nthd [] gs i)) as (a & b & A1 & A2 & A3); [apply nthZ_nthd; lia|].
      destruct (offsets_slice cs i (nthd [] cs i)) as (a' & b' & B1 & B2 & B3); [apply nthZ_nthd; lia|].
      rewrite LV in A1, A2. rewrite LC in B1, B2. rewrite <- EV in A3. rewrite <- EC in B3.
      assert (ST : loop (zlen (concat (map (nthd [] gs) pre)), zlen (concat (map (nthd [] cs) pre)),
         concat (map (nthd [] gs) pre) ++ repeat (n0 N) (Z.to_nat (zlen (concat (map (nthd [] gs) (i :: rest))))),
         concat (map (nthd [] cs) pre) ++ repeat 0 (Z.to_nat (zlen (concat (map (nthd [] cs) (i :: rest)))))) (zlen pre, i) =
        Ok (zlen (concat (map (nthd [] gs) (pre ++ [i]))), zlen (concat (map (nthd [] cs) (pre ++ [i]))),
            concat (map (nthd [] gs) (pre ++ [i])) ++ repeat (n0 N) (Z.to_nat (zlen (concat (map (nthd [] gs) rest)))),
            concat (map (nthd [] cs) (pre ++ [i])) ++ repeat 0 (Z.to_nat (zlen (concat (map (nthd [] cs) rest)))))).
      { unfold loop. rewrite !GET. cbn [bind]. rewrite A1. cbn [bind]. rewrite A2. cbn [bind]. rewrite B1. cbn [bind]. rewrite B2. cbn [bind]. rewrite A3, B3.
        unfold fc, fl. rewrite <- HGV, <- HGC. cbn [map concat]. rewrite !zlen_app.
        pose proof (zlen_nonneg (nthd [] gs i)) as P1. pose proof (zlen_nonneg (concat (map (nthd [] gs) rest))) as P2.
        pose proof (zlen_nonneg (nthd [] cs i)) as P3. pose proof (zlen_nonneg (concat (map (nthd [] cs) rest))) as P4.
        rewrite !Z2Nat.inj_add by assumption. rewrite !repeat_app.
        pose proof (set_slice_mid (concat (map (nthd [] gs) pre)) (repeat (n0 N) (Z.to_nat (zlen (nthd [] gs i)))) (repeat (n0 N) (Z.to_nat (zlen (concat (map (nthd [] gs) rest))))) (nthd [] gs i)) as M1.
        pose proof (set_slice_mid (concat (map (nthd [] cs) pre)) (repeat 0 (Z.to_nat (zlen (nthd [] cs i)))) (repeat 0 (Z.to_nat (zlen (concat (map (nthd [] cs) rest))))) (nthd [] cs i)) as M2.
        rewrite zlen_repeat, Z2Nat.id, Z.eqb_refl in M1 by assumption. rewrite zlen_repeat, Z2Nat.id, Z.eqb_refl in M2 by assumption.
        rewrite M1. cbn [bind]. rewrite M2. cbn [bind]. rewrite !map_app. cbn [map]. rewrite !concat_app. cbn [concat]. rewrite !app_nil_r, !zlen_app, <- !app_assoc. reflexivity. }
      rewrite ST. cbn [bind]. replace (zlen pre + 1) with (zlen (pre ++ [i])) by (rewrite zlen_app; reflexivity). apply IH. rewrite Ew, <- app_assoc. reflexivity. }
  specialize (HL w [] eq_refl). cbn [map concat app] in HL. change (zlen (@nil F)) with 0 in HL. change (zlen (@nil Z)) with 0 in HL.
  rewrite HL. cbn [bind]. reflexivity.
Qed.
End Pack.

(** ** The account of a run *)

Section H.
Context {S : Type} (rng : Rng R S) (L : RngLaws RN rng).
Context (nsamp nf wd : Z) (nlen : Z -> Z) (srs : Z -> list (list R)) (y : list Z) (P : gparams R) (dr : drawn) (nch : list Z) (m0 : list (list (list bool))) (n_ts n mc : Z).
Hypothesis HD : drawn_ok n (g_sizes P) n_ts (g_prime P) dr.
Hypothesis Hnz : zlen nch = n.
Hypothesis Hnc : forall c, In c nch -> 1 <= c <= mc.
Hypothesis Hm0 : forall s c t, m3cell m0 s c t = true <-> 0 <= s < nsamp /\ 0 <= c < nf /\ 0 <= t < nlen s.
Hypothesis Hsz : forall l, In l (g_sizes P) -> 2 <= l.
Hypothesis Hnl : forall s, 0 <= s < nsamp -> n_ts <= nlen s.
Notation acc := (maccount (g_phase P) (g_alpha P) (g_pmin P) (g_pmax P) (g_prime P) (g_sizes P) n_ts n mc nf nsamp srs nlen y).
Notation hist := (m_history RN rng nsamp nf nlen srs y P dr nch m0).

Definition origin_of (pk : mpick R) : origin := mkO (mp_sample pk) (mp_index pk) (mp_test pk) (mp_thr pk).
Definition mreq_of (chs : Z -> list Z) (pks : Z -> option (mpick R)) (i : Z) : mrequest :=
  mkMReq (dlen dr i) (ddil dr i) (dnorm dr i) (chs i) (option_map origin_of (pks i)).
Definition mreqs chs pks := map (mreq_of chs pks) (zrange 0 n).

Lemma mreqs_nth chs pks i q : nthZ (mreqs chs pks) i = Some q <-> 0 <= i < n /\ q = mreq_of chs pks i.
Proof.
  unfold mreqs. rewrite nthZ_map. split.
  - destruct (nthZ (zrange 0 n) i) as [j|] eqn:E; [|discriminate]. cbn [option_map]. intros H. pose proof (nthZ_range _ _ _ E) as Ri. rewrite zlen_zrange in Ri.
    rewrite nthZ_zrange in E by lia. assert (0 + i = j) by congruence. replace j with i in H by lia. split; [lia|congruence].
  - intros [Hi ->]. rewrite nthZ_zrange by lia. reflexivity.
Qed.

Lemma mreqs_min chs pks i ml : 0 <= i < n -> is_min_len dr i ml <-> mmin_len_at (mreqs chs pks) (ddil dr i) ml.
Proof.
  intros Hi. pose proof (do_len _ _ _ _ _ HD) as HZ. unfold is_min_len, mmin_len_at. rewrite HZ.
  assert (HI : forall q, In q (mreqs chs pks) <-> exists j, 0 <= j < n /\ q = mreq_of chs pks j).
  { intros q. unfold mreqs. rewrite in_map_iff. split; intros (j & A & B); exists j; rewrite in_zrange in *; auto. }
  split; intros [A B]; split.
  - destruct A as (j & A1 & A2 & A3). exists (mreq_of chs pks j). split; [apply HI; eauto|]. cbn. auto.
  - intros q Hq Hd. apply HI in Hq as (j & Hj & ->). cbn in *. apply B; auto.
  - destruct A as (q & A1 & A2 & A3). apply HI in A1 as (j & Hj & ->). exists j. auto.
  - intros j Hj Hd. apply (B (mreq_of chs pks j)); [apply HI; eauto|exact Hd].
Qed.

Lemma history_cell o ms chs pks i s c t : hist o ms chs pks -> 0 <= i < n -> 0 <= s < nsamp -> 0 <= c < nf -> 0 <= t < nwin (g_phase P) (nlen s) (dlen dr i) (ddil dr i) ->
  m3cell (ms i) s c t = true <-> ~ taken (g_alpha P) nlen (mreqs chs pks) i (mreq_of chs pks i) s c t.
Proof.
  intros HH Hi Hs Hc Ht. pose proof (do_len _ _ _ _ _ HD) as HZ. rewrite (mh_mask _ _ _ _ _ _ _ _ _ _ _ _ _ _ _ HH i s c t) by lia. split.
  - intros [_ A] (j & q' & o' & Hj & Hq' & Ho & Ed & En & Es & Hin & (ml & k & B1 & B2 & B3)).
    apply mreqs_nth in Hq' as [Hj' ->]. cbn [mq_origin mreq_of mq_dil mq_norm mq_chs mq_len] in *. destruct (pks j) as [pk|] eqn:Epk; [|discriminate]. cbn [option_map] in Ho.
    assert (Eo : o' = origin_of pk) by congruence. rewrite Eo in *. unfold origin_of in *. cbn [o_series o_start] in *. clear Ho Eo.
    assert (HMl : is_min_len dr i ml) by (apply (mreqs_min chs pks); [lia|rewrite <- Ed; exact B1]).
    apply (A j pk Hj Epk En Ed ml HMl). split; [congruence|].
    destruct (mh_some _ _ _ _ _ _ _ _ _ _ _ _ _ _ _ HH j pk ltac:(lia) Epk) as (_ & _ & _ & _ & Ec & _). split; [rewrite <- Ec; exact Hin|].
    unfold masked_at. rewrite alpha_size_R. exists k. rewrite <- Ed, <- Es. auto.
  - intros A. split.
    + apply Hm0. split; [exact Hs|]. split; [exact Hc|]. pose proof (do_fit _ _ _ _ _ HD i Hi) as (D1 & D2 & _). pose proof (Hsz _ (do_size _ _ _ _ _ HD i Hi)).
      unfold nwin in Ht. destruct (g_phase P); [lia|]. nia.
    + intros j pk Hj Epk En Ed ml Hml (Es & Hin & HM). apply A. exists j, (mreq_of chs pks j), (origin_of pk). split; [exact Hj|].
      split; [apply mreqs_nth; split; [lia|reflexivity]|]. cbn [mq_origin mreq_of mq_dil mq_norm mq_chs mq_len]. rewrite Epk. cbn [option_map origin_of o_series].
      destruct (mh_some _ _ _ _ _ _ _ _ _ _ _ _ _ _ _ HH j pk ltac:(lia) Epk) as (_ & _ & _ & _ & Ec & _).
      repeat split; auto; [rewrite Ec; exact Hin|]. unfold masked_at in HM. rewrite alpha_size_R in HM. destruct HM as (k & K1 & K2).
      exists ml, k. cbn [mq_dil mreq_of mq_len origin_of o_start o_series]. rewrite Ed, <- Es. split; [apply (mreqs_min chs pks); auto|]. auto.
Qed.

Lemma history_mfree o ms chs pks i s t : hist o ms chs pks -> 0 <= i < n ->
  madmissible RN nsamp nlen P dr nch i (ms i) (chs i) s t <-> mfree_start (g_phase P) (g_alpha P) nsamp nlen (mreqs chs pks) i s t.
Proof.
  intros HH Hi. pose proof (do_len _ _ _ _ _ HD) as HZ. destruct (mh_chs _ _ _ _ _ _ _ _ _ _ _ _ _ _ _ HH i ltac:(lia)) as (C1 & C2 & C3).
  unfold madmissible, mfree_start. split.
  - intros (A1 & A2 & A3). exists (mreq_of chs pks i), (filter (fun c => m3cell (ms i) s c t) (chs i)). split; [apply mreqs_nth; auto|].
    cbn [mq_len mq_dil mq_chs mreq_of]. split; [exact A1|]. split; [exact A2|]. split; [apply NoDup_filter; exact C2|]. split.
    + intros c Hc. apply filter_In in Hc as [Hc1 Hc2]. split; [exact Hc1|]. apply (history_cell o ms chs pks i s c t HH Hi A1 (C3 c Hc1) A2). exact Hc2.
    + cbn [nleb nmul nofZ RN] in A3. apply Rleb_true in A3. rewrite C1, Rmult_comm. exact A3.
  - intros (q & free & Hq & A1 & A2 & A3 & A4 & A5). apply mreqs_nth in Hq as [_ ->]. cbn [mq_len mq_dil mq_chs mreq_of] in *.
    split; [exact A1|]. split; [exact A2|]. cbn [nleb nmul nofZ RN]. apply Rleb_true. rewrite Rmult_comm, <- C1. eapply Rle_trans; [exact A5|]. apply IZR_le. unfold count.
    apply inj_le. apply NoDup_incl_length; [exact A3|]. intros c Hc. destruct (A4 c Hc) as [B1 B2]. apply filter_In. split; [exact B1|].
    apply (history_cell o ms chs pks i s c t HH Hi A1 (C3 c B1) A2). exact B2.
Qed.

Lemma mdistances_nonempty ph nm k x chs vs l d : 0 < nwin ph k l d -> mdistances RN ph nm k x chs vs l d <> [].
Proof.
  intros H E. unfold mdistances in E. apply map_eq_nil in E. assert (HI : In 0 (zrange 0 (nwin ph k l d))) by (apply in_zrange; lia). rewrite E in HI. destruct HI.
Qed.

Lemma mnwin_pos i s : 0 <= i < n -> 0 <= s < nsamp -> 0 < nwin (g_phase P) (nlen s) (dlen dr i) (ddil dr i).
Proof.
  intros Hi Hs. pose proof (Hnl s Hs). pose proof (do_fit _ _ _ _ _ HD i Hi) as (D1 & D2 & _). pose proof (Hsz _ (do_size _ _ _ _ _ HD i Hi)).
  unfold nwin. destruct (g_phase P); nia.
Qed.

Lemma mhistory_account o ms chs pks : hist o ms chs pks -> acc (mreqs chs pks).
Proof.
  intros HH. pose proof (do_len _ _ _ _ _ HD) as HZ. pose proof (zlen_nonneg (dr_len dr)). split.
  - unfold mreqs. rewrite zlen_map, zlen_zrange. lia.
  - intros i q Hq. apply mreqs_nth in Hq as [Hi ->]. cbn [mq_len mq_dil mq_chs mreq_of]. split; [apply (do_size _ _ _ _ _ HD); exact Hi|]. split; [apply (do_fit _ _ _ _ _ HD); exact Hi|].
    destruct (mh_chs _ _ _ _ _ _ _ _ _ _ _ _ _ _ _ HH i ltac:(lia)) as (C1 & C2 & C3). split; [|auto]. rewrite C1. apply Hnc. unfold dnch. apply (nthZ_In _ i). apply nthZ_nthd. lia.
  - intros i q o' Hq Ho. apply mreqs_nth in Hq as [Hi ->]. cbn [mq_origin mreq_of] in Ho. destruct (pks i) as [pk|] eqn:Epk; [|discriminate]. cbn [option_map] in Ho.
    assert (Eo : o' = origin_of pk) by congruence. rewrite Eo. clear Ho Eo. unfold origin_of. cbn [o_series o_start o_test o_thr].
    destruct (mh_some _ _ _ _ _ _ _ _ _ _ _ _ _ _ _ HH i pk ltac:(lia) Epk) as (_ & _ & _ & _ & Ec & (Hch & HA & Hv & T1 & T2 & T3 & Hd & Hth)).
    split; [apply (history_mfree _ _ _ _ _ _ _ HH Hi); rewrite Ec; exact HA|]. split; [split; [exact T1|split; [exact T2|exact T3]]|].
    exists (map (ch_val RN srs P dr i (mp_sample pk) (mp_index pk)) (mp_chs pk)). split.
    { unfold mq_values. cbn [mq_origin mreq_of]. rewrite Epk. cbn [option_map o_series o_start mq_len mq_dil mq_norm mq_chs mreq_of origin_of]. rewrite Ec. reflexivity. }
    cbn [mq_len mq_dil mq_norm mq_chs mreq_of]. rewrite Ec, <- Hd. destruct Hth as (a & b & s & Hp & ->). pose proof (percentiles_range _ _ _ _ Hp) as [R1 R2].
    destruct (percentiles_R (mp_dist pk) _ _ R1 R2) as (p & Hp' & HS). rewrite Hp' in Hp. assert (p = (a, b)) by congruence. subst p.
    destruct HS as [S1 S2]; [rewrite Hd; apply mdistances_nonempty; apply mnwin_pos; assumption|]. cbn [fst snd] in *.
    exists a, b, (fst (r_unif rng s)). split; [exact S1|]. split; [exact S2|]. split; [apply RngLaws_R; exact L|]. reflexivity.
  - intros i q Hq Ho. apply mreqs_nth in Hq as [Hi ->]. cbn [mq_origin mreq_of] in Ho. destruct (pks i) as [pk|] eqn:Epk; [discriminate|].
    destruct (mh_none _ _ _ _ _ _ _ _ _ _ _ _ _ _ _ HH i ltac:(lia) Epk) as (_ & _ & _ & HN). intros s t HF. apply (HN s t). apply (history_mfree _ _ _ _ _ _ _ HH Hi). exact HF.
Qed.

(** what the call returns: the sampled requests, in order, packed *)
Definition mreturned (hs : list mrequest) (T : mshp R) : Prop :=
  let k := filter mkept hs in
  ms_len T = map mq_len k /\ ms_dil T = map mq_dil k /\ ms_norm T = map mq_norm k /\ ms_thr T = map mthr_of k /\
  ms_nch T = map (fun q => zlen (mq_chs q)) k /\ ms_chan T = concat (map mq_chs k) /\
  ms_values T = concat (map (fun q => concat (mval_of (g_phase P) srs q)) k).

Lemma mhistory_returned o ms chs pks st : hist o ms chs pks -> out_shape dr nch o ->
  m_thr st = out_thr o -> m_ret st = out_ret o -> m_val st = concat (out_val o) -> m_chan st = concat (out_chan o) ->
  exists T, M_finish RN dr nch st = Ok T /\ mreturned (mreqs chs pks) T.
Proof.
  intros HH (O1 & O2 & O3 & O4) E1 E2 E3 E4.
  pose proof (do_len _ _ _ _ _ HD) as HZ1. pose proof (do_dil _ _ _ _ _ HD) as HZ2. pose proof (do_norm _ _ _ _ _ HD) as HZ3.
  destruct (mh_len _ _ _ _ _ _ _ _ _ _ _ _ _ _ _ HH) as (Z1 & Z2 & Z3 & Z4).
  rewrite (M_finish_ok RN dr nch st (out_val o) (out_chan o)); [|unfold wf_m, wf_drawn; split; [split|]; lia|rewrite E2; lia|exact E3|exact E4|exact O3|exact O4].
  eexists. split; [reflexivity|]. unfold mreturned. cbn [ms_len ms_dil ms_norm ms_thr ms_nch ms_chan ms_values]. rewrite E1, E2.
  set (hs := mreqs chs pks).
  assert (SEL : forall A B (d : A) (f : A -> B) (l : list A) (g : mrequest -> B), zlen l = n -> (forall i, 0 <= i < n -> mkept (mreq_of chs pks i) = true -> f (nthd d l i) = g (mreq_of chs pks i)) ->
     map f (mask_select (map mkept hs) l) = map g (filter mkept hs)).
  { intros A B d f l g Hl Hf. rewrite <- (map_nthd_zrange d l), Hl. unfold hs, mreqs. rewrite map_map.
    assert (HR : forall i, In i (zrange 0 n) -> 0 <= i < n) by (intros i Hi; apply in_zrange in Hi; exact Hi). revert HR. generalize (zrange 0 n). unfold mask_select.
    induction l0 as [|i r IH]; intros HR; [reflexivity|]. cbn [map combine filter fst]. destruct (mkept (mreq_of chs pks i)) eqn:Ek.
    - cbn [map snd]. f_equal; [apply Hf; [apply HR; left; reflexivity|exact Ek]|]. apply IH. intros j Hj. apply HR. right. exact Hj.
    - apply IH. intros j Hj. apply HR. right. exact Hj. }
  assert (SELI : forall A (d : A) (l : list A) (g : mrequest -> A), zlen l = n -> (forall i, 0 <= i < n -> mkept (mreq_of chs pks i) = true -> nthd d l i = g (mreq_of chs pks i)) ->
     mask_select (map mkept hs) l = map g (filter mkept hs)).
  { intros A d l g Hl Hf. rewrite <- (map_id (mask_select _ l)). apply (SEL A A d (fun x => x)); assumption. }
  assert (ER : out_ret o = map mkept hs).
  { rewrite <- (map_nthd_zrange false (out_ret o)), Z4, HZ1. unfold hs, mreqs. apply map_nth_eq. intros i Hi. unfold mkept. cbn [mq_origin mreq_of].
    destruct (pks i) as [pk|] eqn:Epk; cbn [option_map]; apply nthd_some.
    - apply (mh_some _ _ _ _ _ _ _ _ _ _ _ _ _ _ _ HH i pk ltac:(lia) Epk).
    - apply (mh_none _ _ _ _ _ _ _ _ _ _ _ _ _ _ _ HH i ltac:(lia) Epk). }
  rewrite ER. repeat split.
  - apply (SELI _ 0); [lia|]. reflexivity.
  - apply (SELI _ 0); [lia|]. reflexivity.
  - apply (SELI _ false); [lia|]. reflexivity.
  - apply (SELI _ 0%R); [lia|]. intros i Hi Hk. unfold mkept in Hk. cbn [mq_origin mreq_of] in Hk. unfold mthr_of. cbn [mq_origin mreq_of]. destruct (pks i) as [pk|] eqn:Epk; [|discriminate].
    cbn [option_map origin_of o_thr]. apply nthd_some. apply (mh_some _ _ _ _ _ _ _ _ _ _ _ _ _ _ _ HH i pk ltac:(lia) Epk).
  - apply (SELI _ 0); [lia|]. intros i Hi _. symmetry. apply (mh_chs _ _ _ _ _ _ _ _ _ _ _ _ _ _ _ HH i ltac:(lia)).
  - f_equal. apply (SELI _ []); [lia|]. intros i Hi Hk. unfold mkept in Hk. cbn [mq_origin mreq_of] in Hk. cbn [mq_chs mreq_of]. destruct (pks i) as [pk|] eqn:Epk; [|discriminate].
    apply nthd_some. destruct (mh_some _ _ _ _ _ _ _ _ _ _ _ _ _ _ _ HH i pk ltac:(lia) Epk) as (_ & _ & _ & A & B & _). congruence.
  - f_equal. apply (SELI _ []); [lia|]. intros i Hi Hk. unfold mkept in Hk. cbn [mq_origin mreq_of] in Hk. unfold mval_of, mq_values. cbn [mq_origin mreq_of]. destruct (pks i) as [pk|] eqn:Epk; [|discriminate].
    cbn [option_map]. apply nthd_some. destruct (mh_some _ _ _ _ _ _ _ _ _ _ _ _ _ _ _ HH i pk ltac:(lia) Epk) as (_ & _ & A & _ & B & (_ & _ & Hv & _)). rewrite A, Hv. cbn [mq_chs mq_norm mq_len mq_dil mreq_of origin_of o_series o_start]. rewrite B. reflexivity.
Qed.
End H.
