(** Univariate shapelet generation: account of a whole call. *)
From Coq Require Import ZArith Znumtheory List Bool Reals Lra Lia Permutation.
From Verif Require Import Prelude Num Kernel Spec KernelProofs RealBase Apply ApplyUni TransformProofs TransformLaws Gen GenSched GenBase GenUni
  GenULoop GenTrace GenURun GenDraw GenSpec.
Import ListNotations.
Open Scope Z_scope.

Lemma alpha_size_R alpha l ml : alpha_size RN alpha l ml = l - Z.max 1 (Rfloor ((1 - alpha) * IZR ml)).
Proof.
  unfold alpha_size. cbn [nmul nsub n1 nofZ nltb ntrunc RN]. f_equal. set (t := ((1 - alpha) * IZR ml)%R).
  destruct (Rltb 1 t) eqn:E.
  - apply Rltb_true in E. rewrite Rtrunc_nonneg by lra. pose proof (Rfloor_le 1 t ltac:(lra)) as H. rewrite (Rfloor_IZR 1) in H. lia.
  - apply Rltb_false in E. rewrite Rtrunc_nonneg by lra. rewrite (Rfloor_IZR 1). pose proof (Rfloor_le t 1 E) as H. rewrite (Rfloor_IZR 1) in H. lia.
Qed.

Lemma mask_select_filter {A B} (f : A -> bool) (g : A -> B) (l : list A) : mask_select (map f l) (map g l) = map g (filter f l).
Proof.
  unfold mask_select. induction l as [|x t IH]; cbn [map combine filter fst snd]; [reflexivity|]. destruct (f x); cbn [map snd]; rewrite IH; reflexivity.
Qed.

Lemma map_nth_eq {A B} (f : Z -> B) (g : A -> B) (h : Z -> A) n : (forall i, 0 <= i < n -> f i = g (h i)) -> map f (zrange 0 n) = map g (map h (zrange 0 n)).
Proof. intros H. rewrite map_map. apply map_ext_in. intros i Hi. apply in_zrange in Hi. apply H. exact Hi. Qed.

Section H.
Context {S : Type} (rng : Rng R S) (L : RngLaws RN rng).
Context (nsamp wd : Z) (nlen : Z -> Z) (srs : Z -> list R) (y : list Z) (P : gparams R) (dr : drawn) (m0 : list (list bool)) (W : Z) (n_ts n : Z).
Hypothesis HD : drawn_ok n (g_sizes P) n_ts (g_prime P) dr.
Hypothesis Hsl : forall s, 0 <= s < nsamp -> zlen (srs s) = nlen s.
Hypothesis Hm0 : forall s t, mcell m0 s t = true <-> 0 <= s < nsamp /\ 0 <= t < nlen s.
Hypothesis Hsz : forall l, In l (g_sizes P) -> 2 <= l.
Hypothesis Hnl : forall s, 0 <= s < nsamp -> n_ts <= nlen s.
Notation acc := (account (g_phase P) (g_alpha P) (g_pmin P) (g_pmax P) (g_prime P) (g_sizes P) n_ts n nsamp srs y).

Definition req_of (pks : Z -> option (pick R)) (i : Z) : request :=
  mkReq (dlen dr i) (ddil dr i) (dnorm dr i) (option_map (fun pk => mkO (pk_sample pk) (pk_index pk) (pk_test pk) (pk_thr pk)) (pks i)).
Definition reqs pks := map (req_of pks) (zrange 0 n).

Lemma reqs_nth pks i q : nthZ (reqs pks) i = Some q <-> 0 <= i < n /\ q = req_of pks i.
Proof.
  unfold reqs. rewrite nthZ_map. split.
  - destruct (nthZ (zrange 0 n) i) as [j|] eqn:E; [|discriminate]. cbn [option_map]. intros H. pose proof (nthZ_range _ _ _ E) as Ri. rewrite zlen_zrange in Ri.
    rewrite nthZ_zrange in E by lia. assert (0 + i = j) by congruence. replace j with i in H by lia. split; [lia|congruence].
  - intros [Hi ->]. rewrite nthZ_zrange by lia. reflexivity.
Qed.

Lemma reqs_min pks i ml : 0 <= i < n -> is_min_len dr i ml <-> min_len_at (reqs pks) (ddil dr i) ml.
Proof.
  intros Hi. pose proof (do_len _ _ _ _ _ HD) as HZ. unfold is_min_len, min_len_at. rewrite HZ.
  assert (HI : forall q, In q (reqs pks) <-> exists j, 0 <= j < n /\ q = req_of pks j).
  { intros q. unfold reqs. rewrite in_map_iff. split; intros (j & A & B); exists j; rewrite in_zrange in *; auto. }
  split; intros [A B]; split.
  - destruct A as (j & A1 & A2 & A3). exists (req_of pks j). split; [apply HI; eauto|]. cbn. auto.
  - intros q Hq Hd. apply HI in Hq as (j & Hj & ->). cbn in *. apply B; auto.
  - destruct A as (q & A1 & A2 & A3). apply HI in A1 as (j & Hj & ->). exists j. auto.
  - intros j Hj Hd. apply (B (req_of pks j)); [apply HI; eauto|exact Hd].
Qed.

Lemma history_free thr' val' ms pks i s t : u_history RN rng nsamp nlen srs y P dr m0 W thr' val' ms pks -> 0 <= i < n ->
  admissible nsamp nlen P dr i (ms i) s t <-> free_start (g_phase P) (g_alpha P) nsamp srs (reqs pks) i s t.
Proof.
  intros HH Hi. pose proof (do_len _ _ _ _ _ HD) as HZ.
  assert (HQ : nthZ (reqs pks) i = Some (req_of pks i)) by (apply reqs_nth; auto).
  assert (HC : forall j pk, 0 <= j < i -> pks j = Some pk -> ddil dr j = ddil dr i -> dnorm dr j = dnorm dr i -> 0 <= s < nsamp -> s = pk_sample pk ->
    (forall ml, is_min_len dr i ml -> ~ masked_at (pk_index pk) (ddil dr i) (nlen s) (alpha_size RN (g_alpha P) (dlen dr j) ml) t) <->
    ~ too_close (g_alpha P) srs (reqs pks) (req_of pks j) (mkO (pk_sample pk) (pk_index pk) (pk_test pk) (pk_thr pk)) t).
  { intros j pk Hj Hpk Hd Hnm Hs Es. unfold too_close, masked_at. cbn [o_start o_series q_dil q_len req_of]. rewrite <- Es, (Hsl s Hs). split.
    - intros A (ml & k & B1 & B2 & B3). rewrite Hd in *. apply (A ml); [apply (reqs_min pks); auto|]. rewrite alpha_size_R. exists k. auto.
    - intros A ml B (k & B1 & B2). rewrite alpha_size_R in B1. apply A. exists ml, k. rewrite Hd. split; [apply (reqs_min pks); auto|]. auto. }
  unfold admissible, free_start. split.
  - intros (A1 & A2 & A3). exists (req_of pks i). split; [exact HQ|]. split; [exact A1|]. cbn [q_len q_dil q_norm req_of]. rewrite (Hsl s A1). split; [exact A2|].
    intros j q' o Hj Hq' Ho Hd Hnm Es. apply reqs_nth in Hq' as [Hj' ->]. cbn [q_origin req_of] in Ho. destruct (pks j) as [pk|] eqn:Epk; [|discriminate]. cbn [option_map] in Ho.
    assert (o = mkO (pk_sample pk) (pk_index pk) (pk_test pk) (pk_thr pk)) by congruence. subst o. cbn [o_series] in Es.
    apply (HC j pk Hj Epk Hd Hnm A1 (eq_sym Es)). intros ml Hml. apply (uh_mask _ _ _ _ _ _ _ _ _ _ _ _ _ _ HH i s t) in A3 as [_ A3]; [|lia].
    intros HM. eapply (A3 j pk Hj Epk Hnm Hd ml Hml). auto.
  - intros (q & Hq & A1 & A2 & A3). apply reqs_nth in Hq as [_ ->]. cbn [q_len q_dil q_norm req_of] in *. rewrite (Hsl s A1) in A2.
    split; [exact A1|]. split; [exact A2|]. apply (uh_mask _ _ _ _ _ _ _ _ _ _ _ _ _ _ HH i s t); [lia|]. split.
    + apply Hm0. split; [exact A1|]. pose proof (do_fit _ _ _ _ _ HD i Hi) as (D1 & D2 & _). pose proof (Hsz _ (do_size _ _ _ _ _ HD i Hi)).
      unfold nwin in A2. destruct (g_phase P); [lia|]. nia.
    + intros j pk Hj Hpk Hnm Hd ml Hml [Es HM]. assert (HCj := proj2 (HC j pk Hj Hpk Hd Hnm A1 Es)).
      eapply HCj; [|exact Hml|exact HM]. apply (A3 j (req_of pks j)); auto.
      * apply reqs_nth. split; [lia|reflexivity].
      * cbn. rewrite Hpk. reflexivity.
Qed.

Lemma distances_nonempty ph nm X v l d : 0 < nwin ph (zlen X) l d -> distances RN ph nm X v l d <> [].
Proof.
  intros H E. unfold distances in E. apply map_eq_nil in E. assert (In 0 (zrange 0 (nwin ph (zlen X) l d))) by (apply in_zrange; lia). rewrite E in H0. destruct H0.
Qed.

Lemma nwin_pos i s : 0 <= i < n -> 0 <= s < nsamp -> 0 < nwin (g_phase P) (zlen (srs s)) (dlen dr i) (ddil dr i).
Proof.
  intros Hi Hs. rewrite (Hsl s Hs). pose proof (Hnl s Hs). pose proof (do_fit _ _ _ _ _ HD i Hi) as (D1 & D2 & _). pose proof (Hsz _ (do_size _ _ _ _ _ HD i Hi)).
  unfold nwin. destruct (g_phase P); nia.
Qed.

Lemma history_account thr' val' ms pks : u_history RN rng nsamp nlen srs y P dr m0 W thr' val' ms pks -> acc (reqs pks).
Proof.
  intros HH. pose proof (do_len _ _ _ _ _ HD) as HZ. pose proof (zlen_nonneg (dr_len dr)). split.
  - unfold reqs. rewrite zlen_map, zlen_zrange. lia.
  - intros i q Hq. apply reqs_nth in Hq as [Hi ->]. cbn [q_len q_dil req_of]. split; [apply (do_size _ _ _ _ _ HD); exact Hi|apply (do_fit _ _ _ _ _ HD); exact Hi].
  - intros i q o Hq Ho. apply reqs_nth in Hq as [Hi ->]. cbn [q_origin req_of] in Ho. destruct (pks i) as [pk|] eqn:Epk; [|discriminate]. cbn [option_map] in Ho.
    assert (o = mkO (pk_sample pk) (pk_index pk) (pk_test pk) (pk_thr pk)) by congruence. subst o. cbn [o_series o_start o_test o_thr].
    destruct (uh_some _ _ _ _ _ _ _ _ _ _ _ _ _ _ HH i pk ltac:(lia) Epk) as (_ & _ & (HA & Hl & Hv & T1 & T2 & T3 & Hd & Hth)).
    split; [apply (history_free _ _ _ _ _ _ _ HH Hi); exact HA|]. split; [split; [exact T1|split; [exact T2|exact T3]]|].
    exists (pk_v pk). split; [unfold q_values; cbn [q_origin req_of]; rewrite Epk; cbn [option_map o_series o_start q_len q_dil q_norm req_of]; rewrite Hv; reflexivity|].
    cbn [q_len q_dil q_norm req_of]. rewrite <- Hd. destruct Hth as (a & b & s & Hp & ->). pose proof (percentiles_range _ _ _ _ Hp) as [R1 R2].
    destruct (percentiles_R (pk_dist pk) _ _ R1 R2) as (p & Hp' & HS). rewrite Hp' in Hp. assert (p = (a, b)) by congruence. subst p.
    destruct HS as [S1 S2]; [rewrite Hd; apply distances_nonempty; apply nwin_pos; assumption|]. cbn [fst snd] in *.
    exists a, b, (fst (r_unif rng s)). split; [exact S1|]. split; [exact S2|]. split; [apply RngLaws_R; exact L|]. reflexivity.
  - intros i q Hq Ho. apply reqs_nth in Hq as [Hi ->]. cbn [q_origin req_of] in Ho. destruct (pks i) as [pk|] eqn:Epk; [discriminate|].
    destruct (uh_none _ _ _ _ _ _ _ _ _ _ _ _ _ _ HH i ltac:(lia) Epk) as (_ & _ & HN). intros s t HF. apply (HN s t). apply (history_free _ _ _ _ _ _ _ HH Hi). exact HF.
Qed.

(** what the call returns *)
Definition returned (W : Z) (hs : list request) (S : ushp R) : Prop :=
  let k := filter (kept (g_phase P) srs) hs in
  us_len S = map q_len k /\ us_dil S = map q_dil k /\ us_norm S = map q_norm k /\ us_thr S = map thr_of k /\
  us_values S = map (fun q => val_of (g_phase P) srs q ++ repeat 0%R (Z.to_nat (W - q_len q))) k.

Lemma forallb_zeros k : forallb (fun x => Reqb x 0) (repeat 0%R k) = true.
Proof. apply forallb_forall. intros x Hx. apply repeat_spec in Hx. subst. apply Reqb_true. reflexivity. Qed.

Lemma history_returned M' thr' val' ms pks : (forall i, 0 <= i < n -> 0 <= dlen dr i <= W) ->
  u_history RN rng nsamp nlen srs y P dr m0 W thr' val' ms pks -> returned W (reqs pks) (U_finish RN dr (mkUst M' thr' val')).
Proof.
  intros HW HH. pose proof (do_len _ _ _ _ _ HD) as HZ1. pose proof (do_dil _ _ _ _ _ HD) as HZ2. pose proof (do_norm _ _ _ _ _ HD) as HZ3.
  pose proof (uh_thr _ _ _ _ _ _ _ _ _ _ _ _ _ _ HH) as HZ4. pose proof (uh_val _ _ _ _ _ _ _ _ _ _ _ _ _ _ HH) as HZ5.
  assert (ROW : forall i, 0 <= i < n -> nthd [] val' i = (match q_values (g_phase P) srs (req_of pks i) with Some v => v ++ repeat 0%R (Z.to_nat (W - dlen dr i)) | None => repeat 0%R (Z.to_nat W) end) /\
     nthd 0%R thr' i = thr_of (req_of pks i)).
  { intros i Hi. unfold q_values, thr_of. cbn [q_origin req_of q_norm q_len q_dil]. destruct (pks i) as [pk|] eqn:Epk; cbn [option_map].
    - destruct (uh_some _ _ _ _ _ _ _ _ _ _ _ _ _ _ HH i pk ltac:(lia) Epk) as (A & B & (_ & _ & Hv & _)). cbn [o_series o_start o_thr]. split; [|apply nthd_some; exact A].
      rewrite (nthd_some [] _ _ _ B), Hv. reflexivity.
    - destruct (uh_none _ _ _ _ _ _ _ _ _ _ _ _ _ _ HH i ltac:(lia) Epk) as (A & B & _). split; [apply nthd_some; exact B|apply nthd_some; exact A]. }
  set (full_row := fun q => match q_values (g_phase P) srs q with Some v => v ++ repeat 0%R (Z.to_nat (W - q_len q)) | None => repeat 0%R (Z.to_nat W) end).
  assert (EV : val' = map full_row (reqs pks)).
  { rewrite <- (map_nthd_zrange [] val'). rewrite HZ5, HZ1. apply map_nth_eq. intros i Hi. apply (ROW i Hi). }
  assert (ET : thr' = map thr_of (reqs pks)).
  { rewrite <- (map_nthd_zrange 0%R thr'). rewrite HZ4, HZ1. apply map_nth_eq. intros i Hi. apply (ROW i Hi). }
  assert (EL : dr_len dr = map q_len (reqs pks)) by (rewrite <- (map_nthd_zrange 0 (dr_len dr)); rewrite HZ1; apply map_nth_eq; reflexivity).
  assert (ED : dr_dil dr = map q_dil (reqs pks)) by (rewrite <- (map_nthd_zrange 0 (dr_dil dr)); rewrite HZ2; apply map_nth_eq; reflexivity).
  assert (EN : dr_norm dr = map q_norm (reqs pks)) by (rewrite <- (map_nthd_zrange false (dr_norm dr)); rewrite HZ3; apply map_nth_eq; reflexivity).
  unfold U_finish. cbn [u_val u_thr neqb n0 RN].
  assert (EM : map (fun row => negb (forallb (fun x => Reqb x 0) row)) val' = map (kept (g_phase P) srs) (reqs pks)).
  { rewrite EV, map_map. apply map_ext. intros q. unfold full_row, kept. destruct (q_values (g_phase P) srs q) as [v|]; [|rewrite forallb_zeros; reflexivity].
    rewrite forallb_app, forallb_zeros, andb_true_r. reflexivity. }
  rewrite EM. unfold returned. cbn [us_len us_dil us_norm us_thr us_values].
  rewrite EL, ED, EN, ET, EV, !mask_select_filter. repeat split; try reflexivity.
  apply map_ext_in. intros q Hq. apply filter_In in Hq as [_ Hq]. unfold kept, full_row, val_of in *. destruct (q_values (g_phase P) srs q); [reflexivity|discriminate].
Qed.
End H.
