(** Shapelet generation with any arithmetic: what a fit returns and why it does not fail, from the ranges of the random
    draws, of the dilations and of the percentiles alone.  Over the reals those ranges are theorems (GenDraw); for
    binary64 they are in FitFloat. *)
From Coq Require Import ZArith Znumtheory List Bool Lia Permutation.
From Verif Require Import Prelude Num Kernel Spec KernelProofs Apply ApplyUni ApplyMulti TransformProofs TransformLaws Gen GenSched GenBase GenUni
  GenULoop GenTrace GenURun GenMulti GenMLoop GenMRun GenDraw GenSpec GenUFinal GenUTop GenULaws GenMFinal GenMTop GenMLaws.
Import ListNotations.
Open Scope Z_scope.

(** ** Draws *)

(** Dilations are drawn for all lengths up to the common number of points [n_ts], and windows of that dilation fit. *)
Definition dilation_law {F S} (N : NumOps F) (rng : Rng F S) (n_ts : Z) : Prop :=
  forall n lengths prime_scheme s, (forall l, In l lengths -> 2 <= l <= n_ts) -> (prime_scheme = true -> lengths <> []) ->
    exists dils s', draw_dilations N rng n n_ts lengths prime_scheme s = Ok (dils, s') /\ Forall2 (dil_ok prime_scheme n_ts) lengths dils.

Section D.
Context {F : Type} (N : NumOps F) {S : Type} (rng : Rng F S) (L : RngLaws N rng).

Lemma any_dilations n n_ts lengths prime_scheme s dils s' : dilation_law N rng n_ts -> (forall l, In l lengths -> 2 <= l <= n_ts) ->
  draw_dilations N rng n n_ts lengths prime_scheme s = Ok (dils, s') -> Forall2 (dil_ok prime_scheme n_ts) lengths dils.
Proof.
  intros HDL HL H. destruct (HDL n lengths prime_scheme s HL) as (d2 & s2 & E & Q).
  - intros -> ->. unfold draw_dilations in H. cbn in H. discriminate.
  - rewrite E in H. assert (d2 = dils) by congruence. subst. exact Q.
Qed.

Lemma any_norm n p s : 0 <= n -> exists nm s', draw_norm N rng n p s = Ok (nm, s') /\ zlen nm = n.
Proof.
  intros Hn. unfold draw_norm. destruct (mapG_total (fun _ : Z => let! u := draw_unif rng in retG (nltb N u p)) (zrange 0 n)) with (s := s) as (nm & s' & E).
  - intros x s0 _. unfold bindG, draw_unif, retG. cbn [bind fst snd]. eauto.
  - exists nm, s'. split; [exact E|]. apply mapG_inv in E. apply Forall2_length in E. rewrite zrange_length in E. unfold zlen. lia.
Qed.

Lemma any_U_init_inv n sizes n_ts p prime_scheme s values dr thr s' : dilation_law N rng n_ts -> (forall l, In l sizes -> 2 <= l <= n_ts) ->
  U_init N rng n sizes n_ts p prime_scheme s = Ok (values, dr, thr, s') ->
  0 <= n /\ drawn_ok n sizes n_ts prime_scheme dr /\ exists W, (forall l, In l sizes -> l <= W) /\ In W sizes /\
    thr = repeat (n0 N) (Z.to_nat n) /\ values = repeat (repeat (n0 N) (Z.to_nat W)) (Z.to_nat n).
Proof.
  intros HDL HS H. unfold U_init in H. apply bindG_inv in H as (lens & s1 & H1 & H). apply choice_n_inv in H1 as (Hn & Hz & HF).
  apply bindG_inv in H as (dils & s2 & H2 & H). rewrite Forall_forall in HF.
  apply any_dilations in H2; [|exact HDL|intros l Hl; apply HS; apply HF; exact Hl].
  apply bind_liftG in H as (th & H3 & H). apply bind_liftG in H as (w & H4 & H). apply bind_liftG in H as (row & H5 & H). apply bind_liftG in H as (vs & H6 & H).
  apply bindG_inv in H as (nm & s3 & H7 & H). destruct (any_norm n p s2 Hn) as (nm' & s3' & E7 & Z7). rewrite E7 in H7. assert (nm' = nm) by congruence. subst nm'.
  unfold retG in H. assert (E : values = vs /\ dr = mkDrawn lens dils nm /\ thr = th) by (split; [|split]; congruence). destruct E as (-> & -> & ->). clear H.
  split; [exact Hn|]. split.
  - apply drawn_ok_intro; auto. apply Forall_forall. exact HF.
  - apply max_list_spec in H4 as [M1 M2]. exists w. split; [exact M2|]. split; [exact M1|]. unfold full in *.
    destruct (n <? 0) eqn:En; [apply Z.ltb_lt in En; lia|]. destruct (w <? 0) eqn:Ew; [discriminate|]. split; congruence.
Qed.

Lemma any_U_init_total n sizes n_ts p prime_scheme s : dilation_law N rng n_ts -> sizes <> [] -> (forall l, In l sizes -> 2 <= l <= n_ts) -> 1 <= n ->
  exists r, U_init N rng n sizes n_ts p prime_scheme s = Ok r.
Proof.
  intros HDL Hne HS Hn. unfold U_init. destruct (choice_n_total N rng L sizes n s Hne ltac:(lia)) as (lens & s1 & E1). unfold bindG at 1. rewrite E1. cbn [bind fst snd].
  apply choice_n_inv in E1 as (_ & Hz & HF). rewrite Forall_forall in HF.
  destruct (HDL n lens prime_scheme s1) as (dils & s2 & E2 & _).
  { intros l Hl. apply HS, HF, Hl. } { intros _ ->. change (zlen (@nil Z)) with 0 in Hz. lia. }
  unfold bindG at 1. rewrite E2. cbn [bind fst snd]. destruct (max_list_ok sizes Hne) as (w & Ew). pose proof (max_list_spec _ _ Ew) as [M1 _]. pose proof (HS w M1).
  assert (Hf : forall A (x : A) k, 0 <= k -> full k x = Ok (repeat x (Z.to_nat k))).
  { intros A x k Hk. unfold full. destruct (Z.ltb_spec k 0); [lia|reflexivity]. }
  rewrite (liftG_ok _ _ _ _ (Hf _ _ n ltac:(lia))), (liftG_ok _ _ _ _ Ew), (liftG_ok _ _ _ _ (Hf _ _ w ltac:(lia))), (liftG_ok _ _ _ _ (Hf _ _ n ltac:(lia))).
  destruct (any_norm n p s2 ltac:(lia)) as (nm & s3 & E3 & _). unfold bindG. rewrite E3. cbn [bind fst snd]. unfold retG. eauto.
Qed.

Lemma any_M_init_inv n sizes n_ts p mc prime_scheme s values dr thr nch chan s' : dilation_law N rng n_ts -> (forall l, In l sizes -> 2 <= l <= n_ts) ->
  M_init N rng n sizes n_ts p mc prime_scheme s = Ok (values, dr, thr, nch, chan, s') ->
  0 <= n /\ drawn_ok n sizes n_ts prime_scheme dr /\ zlen nch = n /\ (forall c, In c nch -> 1 <= c <= mc) /\
    thr = repeat (n0 N) (Z.to_nat n) /\ chan = repeat 0 (Z.to_nat (zsum nch)) /\
    values = repeat (n0 N) (Z.to_nat (zsum (Apply.zmul_list (dr_len dr) nch))).
Proof.
  intros HDL HS H. unfold M_init in H. apply bindG_inv in H as (lens & s1 & H1 & H). apply choice_n_inv in H1 as (Hn & Hz & HF).
  apply bindG_inv in H as (dils & s2 & H2 & H). rewrite Forall_forall in HF.
  apply any_dilations in H2; [|exact HDL|intros l Hl; apply HS; apply HF; exact Hl].
  apply bind_liftG in H as (th & H3 & H). apply bindG_inv in H as (ch & s3 & H4 & H). apply choice_n_inv in H4 as (_ & Hzc & HFc). rewrite Forall_forall in HFc.
  apply bind_liftG in H as (ci & H5 & H). apply bind_liftG in H as (vs & H6 & H).
  apply bindG_inv in H as (nm & s4 & H7 & H). destruct (any_norm n p s3 Hn) as (nm' & s3' & E7 & Z7). rewrite E7 in H7. assert (nm' = nm) by congruence. subst nm'.
  unfold retG in H. assert (E : values = vs /\ dr = mkDrawn lens dils nm /\ thr = th /\ nch = map (fun c => c + 1) ch /\ chan = ci) by (repeat split; congruence).
  destruct E as (-> & -> & -> & -> & ->). clear H.
  split; [exact Hn|]. split; [apply drawn_ok_intro; auto; apply Forall_forall; exact HF|]. split; [rewrite zlen_map; exact Hzc|]. split.
  { intros c Hc. apply in_map_iff in Hc as (c' & <- & Hc). apply HFc in Hc. apply in_zrange in Hc. lia. }
  cbn [dr_len]. unfold full in *. destruct (n <? 0) eqn:En; [apply Z.ltb_lt in En; lia|].
  destruct (zsum (map (fun c : Z => c + 1) ch) <? 0); [discriminate|].
  destruct (zsum (Apply.zmul_list lens (map (fun c : Z => c + 1) ch)) <? 0); [discriminate|]. split; [|split]; congruence.
Qed.

Lemma any_M_init_total n sizes n_ts p mc prime_scheme s : dilation_law N rng n_ts -> sizes <> [] -> (forall l, In l sizes -> 2 <= l <= n_ts) -> 1 <= n -> 1 <= mc ->
  exists r, M_init N rng n sizes n_ts p mc prime_scheme s = Ok r.
Proof.
  intros HDL Hne HS Hn Hmc. unfold M_init. destruct (choice_n_total N rng L sizes n s Hne ltac:(lia)) as (lens & s1 & E1). unfold bindG at 1. rewrite E1. cbn [bind fst snd].
  apply choice_n_inv in E1 as (_ & Hz & HF). rewrite Forall_forall in HF.
  destruct (HDL n lens prime_scheme s1) as (dils & s2 & E2 & _).
  { intros l Hl. apply HS, HF, Hl. } { intros _ ->. change (zlen (@nil Z)) with 0 in Hz. lia. }
  unfold bindG at 1. rewrite E2. cbn [bind fst snd].
  assert (Hf : forall A (x : A) k, 0 <= k -> full k x = Ok (repeat x (Z.to_nat k))).
  { intros A x k Hk. unfold full. destruct (Z.ltb_spec k 0); [lia|reflexivity]. }
  rewrite (liftG_ok _ _ _ _ (Hf _ _ n ltac:(lia))).
  destruct (choice_n_total N rng L (zrange 0 mc) n s2) as (ch & s3 & E3); [|lia|].
  { intros E. assert (Hin : In 0 (zrange 0 mc)) by (apply in_zrange; lia). rewrite E in Hin. destruct Hin. }
  unfold bindG at 1. rewrite E3. cbn [bind fst snd]. apply choice_n_inv in E3 as (_ & Hzc & HFc). rewrite Forall_forall in HFc.
  assert (HC : forall c, In c (map (fun c => c + 1) ch) -> 1 <= c).
  { intros c Hc. apply in_map_iff in Hc as (c' & <- & Hc). apply HFc in Hc. apply in_zrange in Hc. lia. }
  assert (N1 : 0 <= zsum (map (fun c => c + 1) ch)) by (apply zsum_nonneg; intros c Hc; specialize (HC c Hc); lia).
  assert (N2 : 0 <= zsum (Apply.zmul_list lens (map (fun c => c + 1) ch))).
  { apply zsum_nonneg. intros x Hx. apply in_zmul in Hx as (u & v & Hu & Hv & ->). specialize (HC v Hv). specialize (HS u (HF u Hu)). nia. }
  rewrite (liftG_ok _ _ _ _ (Hf _ _ _ N1)), (liftG_ok _ _ _ _ (Hf _ _ _ N2)).
  destruct (any_norm n p s3 ltac:(lia)) as (nm & s4 & E4 & _). unfold bindG. rewrite E4. cbn [bind fst snd]. unfold retG. eauto.
Qed.

End D.

(** ** What a fit returns *)

(** One returned shapelet: its channels and the values on each of them. *)
Record lot (F : Type) := mkLot { lt_len : Z; lt_dil : Z; lt_norm : bool; lt_chs : list Z; lt_vals : list (list F); lt_thr : F }.
Arguments mkLot {F}. Arguments lt_len {F}. Arguments lt_dil {F}. Arguments lt_norm {F}. Arguments lt_chs {F}. Arguments lt_vals {F}. Arguments lt_thr {F}.

Section Lot.
Context {F : Type} (N : NumOps F) {S : Type} (rng : Rng F S) (P : gparams F) (n_ts mc nf nsamp : Z) (nlen : Z -> Z) (chan : Z -> Z -> list F) (y : list Z).
(** distances of a shapelet to the windows of series [i] *)
Context (dists : Z -> bool -> list Z -> list (list F) -> Z -> Z -> list F).

Record lot_ok (k : lot F) : Prop := {
  lo_size : In (lt_len k) (g_sizes P);
  lo_dil : dil_ok (g_prime P) n_ts (lt_len k) (lt_dil k);
  lo_chs : 1 <= zlen (lt_chs k) <= mc /\ NoDup (lt_chs k) /\ forall c, In c (lt_chs k) -> 0 <= c < nf;
  lo_from : exists i t i', 0 <= i < nsamp /\ 0 <= t < nwin (g_phase P) (nlen i) (lt_len k) (lt_dil k) /\
    lt_vals k = map (fun c => seen N (lt_norm k) (window N (g_phase P) (chan i c) (lt_len k) (lt_dil k) t)) (lt_chs k) /\
    same_class nsamp y i i' /\
    threshold_of N rng (dists i' (lt_norm k) (lt_chs k) (lt_vals k) (lt_len k) (lt_dil k)) (g_pmin P) (g_pmax P) (lt_thr k)
}.
End Lot.

Definition lots_U {F} (N : NumOps F) (W : Z) (ks : list (lot F)) (T : ushp F) : Prop :=
  us_len T = map lt_len ks /\ us_dil T = map lt_dil ks /\ us_norm T = map lt_norm ks /\ us_thr T = map lt_thr ks /\
  us_values T = map (fun k => nthd [] (lt_vals k) 0 ++ repeat (n0 N) (Z.to_nat (W - lt_len k))) ks.

Definition lots_M {F} (ks : list (lot F)) (T : mshp F) : Prop :=
  ms_len T = map lt_len ks /\ ms_dil T = map lt_dil ks /\ ms_norm T = map lt_norm ks /\ ms_thr T = map lt_thr ks /\
  ms_nch T = map (fun k => zlen (lt_chs k)) ks /\ ms_chan T = concat (map lt_chs ks) /\ ms_values T = concat (map (fun k => concat (lt_vals k)) ks).

(** selecting with a mask *)
Lemma select_map {A B} (msk : Z -> bool) (d : A) (l : list A) (g : Z -> B) (f : A -> B) n : zlen l = n ->
  (forall i, 0 <= i < n -> msk i = true -> f (nthd d l i) = g i) ->
  map f (mask_select (map msk (zrange 0 n)) l) = map g (filter msk (zrange 0 n)).
Proof.
  intros Hl Hf. rewrite <- (map_nthd_zrange d l), Hl.
  assert (HR : forall i, In i (zrange 0 n) -> 0 <= i < n) by (intros i Hi; apply in_zrange in Hi; exact Hi). revert HR. generalize (zrange 0 n). unfold mask_select.
  induction l0 as [|i r IH]; intros HR; [reflexivity|]. cbn [map combine filter fst]. destruct (msk i) eqn:Ek.
  - cbn [map snd]. f_equal; [apply Hf; [apply HR; left; reflexivity|exact Ek]|]. apply IH. intros j Hj. apply HR. right. exact Hj.
  - apply IH. intros j Hj. apply HR. right. exact Hj.
Qed.

Lemma select_id {A} (msk : Z -> bool) (d : A) (l : list A) (g : Z -> A) n : zlen l = n ->
  (forall i, 0 <= i < n -> msk i = true -> nthd d l i = g i) ->
  mask_select (map msk (zrange 0 n)) l = map g (filter msk (zrange 0 n)).
Proof. intros Hl Hf. rewrite <- (map_id (mask_select _ l)). apply (select_map msk d l g (fun x => x)); assumption. Qed.

Lemma map_at {A B} (f : A -> B) (d : A) (l : list A) : map f l = map (fun i => f (nthd d l i)) (zrange 0 (zlen l)).
Proof. rewrite <- (map_map (nthd d l) f), map_nthd_zrange. reflexivity. Qed.

(** ** Univariate runs *)

Section UCore.
Context {F : Type} (N : NumOps F) {S : Type} (rng : Rng F S).
Hypothesis H00 : neqb N (n0 N) (n0 N) = true.
Context (nsamp wd : Z) (nlen : Z -> Z) (srs : Z -> list F) (y : list Z) (P : gparams F) (n_ts : Z) (m0 : list (list bool)).
Hypothesis HDL : dilation_law N rng n_ts.
Context (iter : drawn -> ust F -> Z * Z -> G S (ust F)).
Context (localG : drawn -> Z * Z -> list (list bool) -> G S (list (list bool) * option (pick F))).
Hypothesis Hstep : forall dr rs st e sched, wf_drawn dr -> is_schedule (dr_dil dr) sched -> In e sched ->
  (let* p := iter dr st e (rs (snd e)) in Ok (u_enc (fst p))) = u_step rs (localG dr) dr (u_enc st) e.
Hypothesis Hinv : forall dr g i m s r, mask_ok nsamp wd m -> draw_fits nsamp nlen dr i -> localG dr (g, i) m s = Ok r ->
  iter_ok N rng nsamp wd nlen srs y P dr (g, i) m (fst (fst r)) (snd (fst r)).
Hypothesis Hm0k : mask_ok nsamp wd m0.
Hypothesis Hsz : forall l, In l (g_sizes P) -> 2 <= l <= n_ts.
Hypothesis Hnl : forall s, 0 <= s < nsamp -> n_ts <= nlen s.
Notation init := (U_init N rng (g_n P) (g_sizes P) n_ts (g_pnorm P) (g_prime P) (r_seed rng (g_seed P))).
Notation good := (lot_ok N rng P n_ts 1 1 nsamp nlen (fun i _ => srs i) y (fun i nm _ vs l d => distances N (g_phase P) nm (srs i) (nthd [] vs 0) l d)).

Lemma au_wf dr : drawn_ok (g_n P) (g_sizes P) n_ts (g_prime P) dr -> wf_drawn dr.
Proof. intros H. unfold wf_drawn. rewrite (do_len _ _ _ _ _ H), (do_dil _ _ _ _ _ H), (do_norm _ _ _ _ _ H). auto. Qed.

Lemma au_fits dr sched g i : drawn_ok (g_n P) (g_sizes P) n_ts (g_prime P) dr -> is_schedule (dr_dil dr) sched -> In (g, i) sched -> draw_fits nsamp nlen dr i.
Proof.
  intros H HS Hin. apply (sched_event _ _ g i HS) in Hin. rewrite (do_dil _ _ _ _ _ H) in Hin.
  pose proof (do_size _ _ _ _ _ H i ltac:(lia)) as H1. pose proof (do_fit _ _ _ _ _ H i ltac:(lia)) as (H2 & H3 & _). specialize (Hsz _ H1).
  split; [lia|]. split; [exact H2|]. intros s Hs. specialize (Hnl s Hs). lia.
Qed.

Lemma au_state values dr thr s1 : init = Ok (values, dr, thr, s1) ->
  drawn_ok (g_n P) (g_sizes P) n_ts (g_prime P) dr /\
  exists W, (forall l, In l (g_sizes P) -> l <= W) /\
    (forall i, 0 <= i < zlen (dr_len dr) -> 0 <= dlen dr i <= W) /\
    u_enc (mkUst (mask0 dr m0) thr values) = (mask0 dr m0, (thr0 N dr, val0 N dr W)).
Proof.
  intros H. destruct (any_U_init_inv N rng _ _ _ _ _ _ _ _ _ _ HDL Hsz H) as (Hn & HD & W & HW & HWin & -> & ->). split; [exact HD|].
  exists W. split; [exact HW|]. rewrite (do_len _ _ _ _ _ HD). split.
  - intros i Hi. pose proof (do_size _ _ _ _ _ HD i Hi) as Hin. specialize (HW _ Hin). specialize (Hsz _ Hin). lia.
  - unfold u_enc, thr0, val0. cbn [u_mask u_thr u_val]. rewrite (do_len _ _ _ _ _ HD). reflexivity.
Qed.

Lemma au_sound values dr thr s1 rs sched st' : init = Ok (values, dr, thr, s1) -> is_schedule (dr_dil dr) sched ->
  run_sched (iter dr) rs sched (mkUst (mask0 dr m0) thr values) = Ok st' ->
  exists ks W, (forall k, In k ks -> good k) /\ zlen ks <= g_n P /\ (forall l, In l (g_sizes P) -> l <= W) /\ lots_U N W ks (U_finish N dr st').
Proof.
  intros Hi HS H. destruct (au_state _ _ _ _ Hi) as (HD & W & HW & HWl & E).
  assert (HR := run_enc (iter dr) u_enc (u_step rs (localG dr) dr) rs sched
     (fun st e He => Hstep dr rs st e sched (au_wf dr HD) HS He) (mkUst (mask0 dr m0) thr values)).
  rewrite E, H in HR. cbn [bind] in HR. symmetry in HR.
  destruct st' as [M' thr' val']. unfold u_enc in HR at 1. cbn [u_mask u_thr u_val] in HR.
  destruct (u_run_history N rng nsamp wd nlen srs y P dr (localG dr) m0 W rs sched (au_wf dr HD) HS Hm0k HWl) with (2 := HR) as (ms & pks & HH).
  { intros [g i] m s r He HM HL. apply (Hinv dr g i m s r HM); [|exact HL]. eapply au_fits; eauto. }
  pose proof (do_len _ _ _ _ _ HD) as HZ1. pose proof (do_dil _ _ _ _ _ HD) as HZ2. pose proof (do_norm _ _ _ _ _ HD) as HZ3.
  pose proof (uh_thr _ _ _ _ _ _ _ _ _ _ _ _ _ _ HH) as HZ4. pose proof (uh_val _ _ _ _ _ _ _ _ _ _ _ _ _ _ HH) as HZ5.
  set (n := g_n P) in *.
  set (msk := fun i => negb (forallb (fun x => neqb N x (n0 N)) (nthd [] val' i))).
  set (mk := fun i => mkLot (dlen dr i) (ddil dr i) (dnorm dr i) [0] [match pks i with Some pk => pk_v pk | None => [] end] (nthd (n0 N) thr' i)).
  assert (Z0 : forall k, forallb (fun x => neqb N x (n0 N)) (repeat (n0 N) k) = true) by (induction k; cbn [repeat forallb]; rewrite ?H00; auto).
  assert (KEPT : forall i, 0 <= i < n -> msk i = true -> exists pk, pks i = Some pk).
  { intros i Hi' Hm. destruct (pks i) as [pk|] eqn:Epk; [eauto|]. destruct (uh_none _ _ _ _ _ _ _ _ _ _ _ _ _ _ HH i ltac:(lia) Epk) as (_ & B & _).
    unfold msk in Hm. rewrite (nthd_some [] _ _ _ B), Z0 in Hm. discriminate. }
  exists (map mk (filter msk (zrange 0 n))), W. split.
  { intros k Hk. apply in_map_iff in Hk as (i & <- & Hin). apply filter_In in Hin as [Hr Hm]. apply in_zrange in Hr.
    destruct (KEPT i Hr Hm) as (pk & Epk). destruct (uh_some _ _ _ _ _ _ _ _ _ _ _ _ _ _ HH i pk ltac:(lia) Epk) as (A & B & (HA & Hl & Hv & T1 & T2 & T3 & Hd & Hth)).
    unfold mk. rewrite Epk. split; cbn [lt_len lt_dil lt_norm lt_chs lt_vals lt_thr].
    - apply (do_size _ _ _ _ _ HD i Hr).
    - apply (do_fit _ _ _ _ _ HD i Hr).
    - split; [cbn; lia|]. split; [constructor; [intros []|constructor]|]. intros c [<-|[]]. lia.
    - exists (pk_sample pk), (pk_index pk), (pk_test pk). destruct HA as (A1 & A2 & _). split; [exact A1|]. split; [exact A2|].
      split; [cbn [map]; rewrite Hv; reflexivity|]. split; [split; [exact T1|split; [exact T2|exact T3]]|].
      rewrite (nthd_some _ _ _ _ A). change (nthd [] [pk_v pk] 0) with (pk_v pk). rewrite <- Hd. exact Hth. }
  split; [rewrite zlen_map; pose proof (filter_zlen msk (zrange 0 n)); rewrite zlen_zrange in *; pose proof (zlen_nonneg (dr_len dr)); lia|].
  split; [exact HW|].
  assert (EM : map (fun row => negb (forallb (fun x => neqb N x (n0 N)) row)) val' = map msk (zrange 0 n)).
  { rewrite (map_at _ []), HZ5, HZ1. reflexivity. }
  unfold U_finish, lots_U. cbn [u_val u_thr us_len us_dil us_norm us_thr us_values]. rewrite EM, !map_map.
  repeat split.
  - apply (select_id msk 0); [lia|]. reflexivity.
  - apply (select_id msk 0); [lia|]. reflexivity.
  - apply (select_id msk false); [lia|]. reflexivity.
  - apply (select_id msk (n0 N)); [lia|]. reflexivity.
  - apply (select_id msk []); [lia|]. intros i Hi' Hm. destruct (KEPT i Hi' Hm) as (pk & Epk).
    destruct (uh_some _ _ _ _ _ _ _ _ _ _ _ _ _ _ HH i pk ltac:(lia) Epk) as (_ & B & _). rewrite (nthd_some [] _ _ _ B). unfold mk. rewrite Epk. reflexivity.
Qed.

Hypothesis Htot : forall dr g i m s, mask_ok nsamp wd m -> draw_fits nsamp nlen dr i -> exists r, localG dr (g, i) m s = Ok r.

Lemma au_total values dr thr s1 rs sched : init = Ok (values, dr, thr, s1) -> is_schedule (dr_dil dr) sched ->
  exists st', run_sched (iter dr) rs sched (mkUst (mask0 dr m0) thr values) = Ok st'.
Proof.
  intros Hi HS. destruct (au_state _ _ _ _ Hi) as (HD & W & HW & HWl & E).
  assert (HR := run_enc (iter dr) u_enc (u_step rs (localG dr) dr) rs sched
     (fun st e He => Hstep dr rs st e sched (au_wf dr HD) HS He) (mkUst (mask0 dr m0) thr values)).
  rewrite E in HR.
  destruct (u_run_total N rng nsamp wd nlen srs y P dr (localG dr) m0 W rs sched (au_wf dr HD) HS Hm0k HWl) as (M' & o' & HF).
  - intros [g i] m s r He HM HL. apply (Hinv dr g i m s r HM); [|exact HL]. eapply au_fits; eauto.
  - intros [g i] m s He HM. apply Htot; [exact HM|]. eapply au_fits; eauto.
  - rewrite HF in HR. destruct (run_sched (iter dr) rs sched (mkUst (mask0 dr m0) thr values)) as [st'|er]; [eauto|discriminate].
Qed.
End UCore.

(** ** Univariate, same length *)

Section AnySL.
Context {F : Type} (N : NumOps F) {S : Type} (rng : Rng F S) (L : RngLaws N rng).
Hypothesis H00 : neqb N (n0 N) (n0 N) = true.

Context (X : dataset F) (y : list Z) (n : Z) (P : gparams F).
Hypothesis HX : train_u n X y.
Hypothesis Hsz : forall l, In l (g_sizes P) -> 2 <= l <= n.
Hypothesis HDL : dilation_law N rng n.
Notation good := (lot_ok N rng P n 1 1 (zlen X) (fun _ => n) (fun i _ => (ser X) i) y (fun i nm _ vs l d => distances N (g_phase P) nm ((ser X) i) (nthd [] vs 0) l d)).

Lemma any_SL_parts : has_ft X /\ 0 < n /\ (forall i, 0 <= i < zlen X -> zlen (ser X i) = n) /\ zlen y = zlen X /\ n_timestamps X = n.
Proof.
  pose proof HX as (_ & A & B & _ & D). split; [exact A|]. split; [exact B|]. split; [intros i Hi; eapply train_u_ser; eauto|]. split; [exact D|eapply train_u_nts; eauto].
Qed.

Lemma any_SL_start dr values thr : U_SL_start X dr values thr = mkUst (mask0 dr (m0_SL n X)) thr values.
Proof. destruct any_SL_parts as (_ & _ & _ & _ & E). unfold U_SL_start, mask0, m0_SL. rewrite E. reflexivity. Qed.

Lemma any_SL_par_inv rs sched T : U_SL_generate_par N rng rs sched X y P = Ok T ->
  exists values dr thr s1 st', U_init N rng (g_n P) (g_sizes P) n (g_pnorm P) (g_prime P) (r_seed rng (g_seed P)) = Ok (values, dr, thr, s1) /\
    run_sched (U_SL_iter N rng X y n P dr) rs (sched (dr_dil dr)) (mkUst (mask0 dr (m0_SL n X)) thr values) = Ok st' /\ T = U_finish N dr st'.
Proof.
  unfold U_SL_generate_par, U_SL_generate_with. destruct any_SL_parts as (_ & _ & _ & _ & E). rewrite E. intros H. apply bind_inv in H as ([[[values dr] thr] s1] & Hi & H).
  apply bind_inv in H as ([st' s2] & Hq & H). cbn [fst] in H. rewrite any_SL_start in Hq. unfold exec_par in Hq. apply liftG_inv in Hq as [Hq _].
  exists values, dr, thr, s1, st'. split; [exact Hi|]. split; [exact Hq|congruence].
Qed.

Theorem any_SL_sound rs sched T : scheduler sched -> U_SL_generate_par N rng rs sched X y P = Ok T ->
  exists ks W, (forall k, In k ks -> good k) /\ zlen ks <= g_n P /\ (forall l, In l (g_sizes P) -> l <= W) /\ lots_U N W ks T.
Proof.
  intros HS H. apply any_SL_par_inv in H as (values & dr & thr & s1 & st' & Hi & Hr & ->). destruct any_SL_parts as (A & B & D & E & _).
  eapply (au_sound N rng H00 (zlen X) n (fun _ => n) (ser X) y P n (m0_SL n X) HDL (U_SL_iter N rng X y n P) (U_SL_localG N rng X y n P)); eauto.
  - intros. eapply U_SL_iter_step; eauto.
  - intros. apply (SL_local_inv N rng X y n P dr0 A B D E g i m s r); assumption.
  - apply m0_SL_ok; exact B.
  - intros; lia.
Qed.

Hypothesis Hq : forall a, zlen a <= n -> exists p, percentiles N a (g_pmin P) (g_pmax P) = Ok p.

Lemma any_SL_run_total values dr thr s1 rs sched : U_init N rng (g_n P) (g_sizes P) n (g_pnorm P) (g_prime P) (r_seed rng (g_seed P)) = Ok (values, dr, thr, s1) ->
  is_schedule (dr_dil dr) sched -> exists st', run_sched (U_SL_iter N rng X y n P dr) rs sched (mkUst (mask0 dr (m0_SL n X)) thr values) = Ok st'.
Proof.
  intros Hi HS. destruct any_SL_parts as (A & B & D & E & _).
  eapply (au_total N rng (zlen X) n (fun _ => n) (ser X) y P n (m0_SL n X) HDL (U_SL_iter N rng X y n P) (U_SL_localG N rng X y n P)); eauto.
  - intros. eapply U_SL_iter_step; eauto.
  - intros. apply (SL_local_inv N rng X y n P dr0 A B D E g i m s r); assumption.
  - apply m0_SL_ok; exact B.
  - intros; lia.
  - intros. apply (SL_local_total N rng X y n P dr0 A B D E L); assumption.
Qed.

Theorem any_SL_total rs sched : scheduler sched -> g_sizes P <> [] -> 1 <= g_n P -> exists T, U_SL_generate_par N rng rs sched X y P = Ok T.
Proof.
  intros HS Hne Hn. destruct (any_U_init_total N rng L (g_n P) (g_sizes P) n (g_pnorm P) (g_prime P) (r_seed rng (g_seed P)) HDL Hne Hsz Hn) as ([[[values dr] thr] s1] & Hi).
  unfold U_SL_generate_par, U_SL_generate_with. destruct any_SL_parts as (_ & _ & _ & _ & E). rewrite E, Hi. cbn [bind]. rewrite any_SL_start.
  destruct (any_SL_run_total values dr thr s1 rs (sched (dr_dil dr)) Hi (HS _)) as (st' & Hr). unfold exec_par, liftG. rewrite Hr. cbn [bind]. eauto.
Qed.

Theorem any_SL_total_seq : g_sizes P <> [] -> 1 <= g_n P -> exists T, U_SL_generate N rng X y P = Ok T.
Proof.
  intros Hne Hn. destruct (any_U_init_total N rng L (g_n P) (g_sizes P) n (g_pnorm P) (g_prime P) (r_seed rng (g_seed P)) HDL Hne Hsz Hn) as ([[[values dr] thr] s1] & Hi).
  unfold U_SL_generate, U_SL_generate_with. destruct any_SL_parts as (_ & _ & _ & _ & E). rewrite E, Hi. cbn [bind]. rewrite any_SL_start.
  unfold exec_seq. edestruct (foldG_par_total (U_SL_iter N rng X y n P dr) (seq_sched (dr_dil dr))) as (r & Hr).
  - apply (sched_shp_NoDup (dr_dil dr)). apply seq_sched_ok.
  - intros rs. apply (any_SL_run_total values dr thr s1 rs _ Hi). apply seq_sched_ok.
  - rewrite Hr. cbn [bind]. eauto.
Qed.


End AnySL.


(** ** Univariate, variable length *)

Section AnyVL.
Context {F : Type} (N : NumOps F) {S : Type} (rng : Rng F S) (L : RngLaws N rng).
Hypothesis H00 : neqb N (n0 N) (n0 N) = true.

Context (X : dataset F) (X_len y : list Z) (n : Z) (P : gparams F).
Hypothesis HX : train_uv n X X_len y.
Hypothesis Hsz : forall l, In l (g_sizes P) -> 2 <= l <= n.
Hypothesis HDL : dilation_law N rng n.
Notation good := (lot_ok N rng P n 1 1 (zlen X) (nthd 0 X_len) (fun i _ => (ser_vl X X_len) i) y (fun i nm _ vs l d => distances N (g_phase P) nm ((ser_vl X X_len) i) (nthd [] vs 0) l d)).
Notation wd := (maxlen X_len).

Lemma any_VL_parts : has_ft X /\ zlen X_len = zlen X /\ zlen y = zlen X /\ (forall s, 0 <= s < zlen X -> 0 < nthd 0 X_len s <= wd) /\
  (forall i, 0 <= i < zlen X -> wd <= zlen (ser X i)).
Proof.
  pose proof HX as (_ & A & B & C & D & _). split; [exact A|]. split; [exact C|]. split; [exact D|].
  split; [intros s Hs; pose proof (VL_nlen n X X_len y HX s Hs); lia|apply (VL_series n X X_len y HX)].
Qed.

Lemma any_VL_par_inv rs sched T : U_VL_generate_par N rng rs sched X X_len y n P = Ok T ->
  exists values dr thr s1 st', U_init N rng (g_n P) (g_sizes P) n (g_pnorm P) (g_prime P) (r_seed rng (g_seed P)) = Ok (values, dr, thr, s1) /\
    run_sched (U_VL_iter N rng X X_len y P dr) rs (sched (dr_dil dr)) (mkUst (mask0 dr (m0_VL X_len)) thr values) = Ok st' /\ T = U_finish N dr st'.
Proof.
  unfold U_VL_generate_par, U_VL_generate_with. intros H. apply bind_inv in H as ([[[values dr] thr] s1] & Hi & H).
  rewrite (VL_start n X X_len y HX) in H. cbn [bind] in H.
  apply bind_inv in H as ([st' s2] & Hq & H). cbn [fst] in H. unfold exec_par in Hq. apply liftG_inv in Hq as [Hq _].
  exists values, dr, thr, s1, st'. split; [exact Hi|]. split; [exact Hq|congruence].
Qed.

Theorem any_VL_sound rs sched T : scheduler sched -> U_VL_generate_par N rng rs sched X X_len y n P = Ok T ->
  exists ks W, (forall k, In k ks -> good k) /\ zlen ks <= g_n P /\ (forall l, In l (g_sizes P) -> l <= W) /\ lots_U N W ks T.
Proof.
  intros HS H. apply any_VL_par_inv in H as (values & dr & thr & s1 & st' & Hi & Hr & ->). destruct any_VL_parts as (A & B & D & E & E').
  eapply (au_sound N rng H00 (zlen X) wd (nthd 0 X_len) (ser_vl X X_len) y P n (m0_VL X_len) HDL (U_VL_iter N rng X X_len y P) (U_VL_localG N rng X X_len y P)); eauto.
  - intros. eapply U_VL_iter_step; eauto.
  - intros. apply (VL_local_inv N rng X X_len y wd P dr0 A B D E E' g i m s r); assumption.
  - apply (m0_VL_ok n X X_len y HX).
  - intros s Hs. apply (VL_nlen n X X_len y HX). exact Hs.
Qed.

Hypothesis Hq : forall a, zlen a <= wd -> exists p, percentiles N a (g_pmin P) (g_pmax P) = Ok p.

Lemma any_VL_run_total values dr thr s1 rs sched : U_init N rng (g_n P) (g_sizes P) n (g_pnorm P) (g_prime P) (r_seed rng (g_seed P)) = Ok (values, dr, thr, s1) ->
  is_schedule (dr_dil dr) sched -> exists st', run_sched (U_VL_iter N rng X X_len y P dr) rs sched (mkUst (mask0 dr (m0_VL X_len)) thr values) = Ok st'.
Proof.
  intros Hi HS. destruct any_VL_parts as (A & B & D & E & E').
  eapply (au_total N rng (zlen X) wd (nthd 0 X_len) (ser_vl X X_len) y P n (m0_VL X_len) HDL (U_VL_iter N rng X X_len y P) (U_VL_localG N rng X X_len y P)); eauto.
  - intros. eapply U_VL_iter_step; eauto.
  - intros. apply (VL_local_inv N rng X X_len y wd P dr0 A B D E E' g i m s r); assumption.
  - apply (m0_VL_ok n X X_len y HX).
  - intros s Hs. apply (VL_nlen n X X_len y HX). exact Hs.
  - intros. apply (VL_local_total N rng X X_len y wd P dr0 A B D E E' L); assumption.
Qed.

Theorem any_VL_total rs sched : scheduler sched -> g_sizes P <> [] -> 1 <= g_n P -> exists T, U_VL_generate_par N rng rs sched X X_len y n P = Ok T.
Proof.
  intros HS Hne Hn. destruct (any_U_init_total N rng L (g_n P) (g_sizes P) n (g_pnorm P) (g_prime P) (r_seed rng (g_seed P)) HDL Hne Hsz Hn) as ([[[values dr] thr] s1] & Hi).
  unfold U_VL_generate_par, U_VL_generate_with. rewrite Hi. cbn [bind]. rewrite (VL_start n X X_len y HX). cbn [bind].
  destruct (any_VL_run_total values dr thr s1 rs (sched (dr_dil dr)) Hi (HS _)) as (st' & Hr). unfold exec_par, liftG. rewrite Hr. cbn [bind]. eauto.
Qed.

Theorem any_VL_total_seq : g_sizes P <> [] -> 1 <= g_n P -> exists T, U_VL_generate N rng X X_len y n P = Ok T.
Proof.
  intros Hne Hn. destruct (any_U_init_total N rng L (g_n P) (g_sizes P) n (g_pnorm P) (g_prime P) (r_seed rng (g_seed P)) HDL Hne Hsz Hn) as ([[[values dr] thr] s1] & Hi).
  unfold U_VL_generate, U_VL_generate_with. rewrite Hi. cbn [bind]. rewrite (VL_start n X X_len y HX). cbn [bind].
  unfold exec_seq. edestruct (foldG_par_total (U_VL_iter N rng X X_len y P dr) (seq_sched (dr_dil dr))) as (r & Hr).
  - apply (sched_shp_NoDup (dr_dil dr)). apply seq_sched_ok.
  - intros rs. apply (any_VL_run_total values dr thr s1 rs _ Hi). apply seq_sched_ok.
  - rewrite Hr. cbn [bind]. eauto.
Qed.


End AnyVL.

(** ** Multivariate runs *)

Section MCore.
Context {F : Type} (N : NumOps F) {S : Type} (rng : Rng F S).
Context (nsamp nf wd : Z) (nlen : Z -> Z) (srs : Z -> list (list F)) (y : list Z) (P : gparams F) (n_ts mc : Z) (m0 : list (list (list bool))).
Context (iter : drawn -> list Z -> mst F -> Z * Z -> G S (mst F)).
Context (localG : drawn -> list Z -> Z * Z -> list (list (list bool)) -> G S (list (list (list bool)) * option (mpick F))).
Record a_mcore : Prop := {
  ac_sim : forall dr nch rs st q e sched, wf_m dr nch -> is_schedule (dr_dil dr) sched -> In e sched -> reads dr nch st q ->
    sim (reads dr nch) (let* p := iter dr nch st e (rs (snd e)) in Ok (fst p)) (m_step rs (localG dr nch) dr q e);
  ac_inv : forall dr nch g i m s r, 1 <= dnch nch i -> mask_ok3 nsamp nf wd m -> draw_fits nsamp nlen dr i -> localG dr nch (g, i) m s = Ok r ->
    miter_ok N rng nsamp nf wd nlen srs y P dr nch (g, i) m (fst (fst r)) (snd (fst r));
  ac_m0k : mask_ok3 nsamp nf wd m0;
  ac_m0 : forall s c t, m3cell m0 s c t = true <-> 0 <= s < nsamp /\ 0 <= c < nf /\ 0 <= t < nlen s;
  ac_sz : forall l, In l (g_sizes P) -> 2 <= l <= n_ts;
  ac_nl : forall s, 0 <= s < nsamp -> n_ts <= nlen s }.
Hypothesis C : a_mcore.
Notation init := (M_init N rng (g_n P) (g_sizes P) n_ts (g_pnorm P) mc (g_prime P) (r_seed rng (g_seed P))).
Hypothesis HDL : dilation_law N rng n_ts.
Notation good := (lot_ok N rng P n_ts mc nf nsamp nlen (fun i c => nthd [] (srs i) c) y (fun i nm chs vs l d => mdistances N (g_phase P) nm (nlen i) (srs i) chs vs l d)).
Notation start dr thr values chan := (mkMst (mask0m dr m0) thr values chan (repeat true (length (dr_len dr)))).

Record a_minit (dr : drawn) (nch : list Z) : Prop := {
  ami_drawn : drawn_ok (g_n P) (g_sizes P) n_ts (g_prime P) dr;
  ami_wf : wf_m dr nch;
  ami_nz : zlen nch = g_n P;
  ami_nc : forall c, In c nch -> 1 <= c <= mc;
  ami_len : forall i, 0 <= i < zlen (dr_len dr) -> 1 <= dlen dr i;
  ami_ch : forall i, 0 <= i < zlen (dr_len dr) -> 1 <= dnch nch i <= mc }.

Lemma a_init_minit values dr thr nch chan s1 : init = Ok (values, dr, thr, nch, chan, s1) ->
  a_minit dr nch /\ reads dr nch (start dr thr values chan) (mask0m dr m0, out_start N dr nch).
Proof.
  intros H. destruct (any_M_init_inv N rng _ _ _ _ _ _ _ _ _ _ _ _ _ HDL (ac_sz C) H) as (Hn & HD & HZ & HC & Et & Ec & Ev).
  pose proof (do_len _ _ _ _ _ HD) as HL. pose proof (do_dil _ _ _ _ _ HD) as HDl. pose proof (do_norm _ _ _ _ _ HD) as HNm.
  assert (I : a_minit dr nch).
  { split; auto.
    - unfold wf_m, wf_drawn. split; [split|]; lia.
    - intros i Hi. rewrite HL in Hi. pose proof (do_size _ _ _ _ _ HD i Hi) as Q. apply (ac_sz C) in Q. lia.
    - intros i Hi. apply HC. unfold dnch. apply (nthZ_In _ i). apply nthZ_nthd. lia. }
  split; [exact I|].
  destruct (out_start_shape N dr nch (ami_wf _ _ I) (ami_len _ _ I)) as (A1 & A2 & A3 & A4); [intros i Hi; apply (ami_ch _ _ I i Hi)|].
  assert (NV : forall k, In k (zmul_list nch (dr_len dr)) -> 0 <= k) by (rewrite <- A3; intros k Hk; apply in_map_iff in Hk as (g & <- & _); apply zlen_nonneg).
  assert (NC : forall k, In k nch -> 0 <= k) by (intros k Hk; specialize (HC k Hk); lia).
  split; cbn [fst snd m_mask m_thr m_ret m_val m_chan]; auto.
  - rewrite Et. unfold out_start. cbn [out_thr]. rewrite HL. reflexivity.
  - unfold out_start. cbn [out_ret]. unfold zlen. rewrite Nat2Z.id. reflexivity.
  - rewrite Ev. unfold out_start. cbn [out_val]. rewrite concat_repeat by exact NV. rewrite (zmul_comm (dr_len dr)). reflexivity.
  - rewrite Ec. unfold out_start. cbn [out_chan]. rewrite concat_repeat by exact NC. reflexivity.
Qed.

Lemma a_m_event_fits dr nch sched g i : a_minit dr nch -> is_schedule (dr_dil dr) sched -> In (g, i) sched -> 0 <= i < zlen (dr_len dr) /\ draw_fits nsamp nlen dr i.
Proof.
  intros I HS Hin. pose proof (ami_drawn _ _ I) as HD. apply (sched_event _ _ g i HS) in Hin. rewrite (do_dil _ _ _ _ _ HD) in Hin. rewrite (do_len _ _ _ _ _ HD). split; [lia|].
  pose proof (do_size _ _ _ _ _ HD i ltac:(lia)) as H1. pose proof (do_fit _ _ _ _ _ HD i ltac:(lia)) as (H2 & H3 & _). pose proof (ac_sz C _ H1).
  split; [lia|]. split; [exact H2|]. intros s Hs. pose proof (ac_nl C s Hs). lia.
Qed.

Lemma a_m_run_sim dr nch rs sched st q : a_minit dr nch -> is_schedule (dr_dil dr) sched -> reads dr nch st q ->
  sim (reads dr nch) (run_sched (iter dr nch) rs sched st) (foldM (m_step rs (localG dr nch) dr) sched q).
Proof. intros I HS HR. apply run_sim; [|exact HR]. intros st1 q1 e He Hr. apply (ac_sim C dr nch rs st1 q1 e sched); auto. apply (ami_wf _ _ I). Qed.


Lemma am_sound values dr thr nch chan s1 rs sched st' : init = Ok (values, dr, thr, nch, chan, s1) -> is_schedule (dr_dil dr) sched ->
  run_sched (iter dr nch) rs sched (start dr thr values chan) = Ok st' ->
  exists ks T, (forall k, In k ks -> good k) /\ zlen ks <= g_n P /\ M_finish N dr nch st' = Ok T /\ lots_M ks T.
Proof.
  intros Hi HS H. destruct (a_init_minit _ _ _ _ _ _ Hi) as (I & HR0). pose proof (ami_drawn _ _ I) as HD.
  pose proof (a_m_run_sim dr nch rs sched _ _ I HS HR0) as HSim. rewrite H in HSim. destruct (foldM _ sched _) as [[M' o']|er] eqn:EF; [|destruct HSim]. cbn [sim] in HSim.
  destruct (m_run_history N rng nsamp nf wd nlen srs y P dr nch (localG dr nch) m0 rs sched (ami_wf _ _ I) HS (ac_m0k C) (ami_len _ _ I)) with (3 := EF) as (ms & chs & pks & HH).
  { intros i Hi'. apply (ami_ch _ _ I i Hi'). }
  { intros [g i] m s r He HM HL. destruct (a_m_event_fits dr nch sched g i I HS He) as [Hi' Hf]. apply (ac_inv C dr nch g i m s r); auto. apply (ami_ch _ _ I i Hi'). }
  destruct (mh_len _ _ _ _ _ _ _ _ _ _ _ _ _ _ _ HH) as (Z1 & Z2 & Z3 & Z4).
  pose proof (do_len _ _ _ _ _ HD) as HZ1. pose proof (do_dil _ _ _ _ _ HD) as HZ2. pose proof (do_norm _ _ _ _ _ HD) as HZ3.
  pose proof (re_thr _ _ _ _ HSim) as E1. pose proof (re_ret _ _ _ _ HSim) as E2. pose proof (re_val _ _ _ _ HSim) as E3. pose proof (re_chan _ _ _ _ HSim) as E4.
  cbn [snd] in E1, E2, E3, E4. pose proof (ami_nz _ _ I) as HZn. set (n := g_n P) in *.
  rewrite (M_finish_ok N dr nch st' (out_val o') (out_chan o')); [|apply (ami_wf _ _ I)|rewrite E2; lia|exact E3|exact E4|apply (re_vl _ _ _ _ HSim)|apply (re_cl _ _ _ _ HSim)].
  set (msk := fun i => match pks i with Some _ => true | None => false end).
  set (vals := fun i (pk : mpick F) => map (ch_val N srs P dr i (mp_sample pk) (mp_index pk)) (mp_chs pk)).
  set (mk := fun i => mkLot (dlen dr i) (ddil dr i) (dnorm dr i) (chs i) (match pks i with Some pk => vals i pk | None => [] end) (nthd (n0 N) (out_thr o') i)).
  exists (map mk (filter msk (zrange 0 n))). eexists. split.
  { intros k Hk. apply in_map_iff in Hk as (i & <- & Hin). apply filter_In in Hin as [Hr Hm]. apply in_zrange in Hr. unfold msk in Hm.
    destruct (pks i) as [pk|] eqn:Epk; [|discriminate].
    destruct (mh_some _ _ _ _ _ _ _ _ _ _ _ _ _ _ _ HH i pk ltac:(lia) Epk) as (_ & At & _ & _ & Ec & (Hch & HA & Hv & T1 & T2 & T3 & Hd & Hth)).
    destruct Hch as (C1 & C2 & C3). unfold mk. rewrite Epk. split; cbn [lt_len lt_dil lt_norm lt_chs lt_vals lt_thr].
    - apply (do_size _ _ _ _ _ HD i Hr).
    - apply (do_fit _ _ _ _ _ HD i Hr).
    - rewrite Ec. split; [rewrite C1; apply (ami_ch _ _ I i); lia|]. split; [exact C2|exact C3].
    - exists (mp_sample pk), (mp_index pk), (mp_test pk). destruct HA as (A1 & A2 & _). split; [exact A1|]. split; [exact A2|].
      split; [rewrite Ec; reflexivity|]. split; [split; [exact T1|split; [exact T2|exact T3]]|].
      rewrite (nthd_some _ _ _ _ At), Ec. unfold vals. rewrite <- Hd. exact Hth. }
  split; [rewrite zlen_map; pose proof (filter_zlen msk (zrange 0 n)); rewrite zlen_zrange in *; pose proof (zlen_nonneg (dr_len dr)); lia|].
  split; [reflexivity|].
  assert (ER : out_ret o' = map msk (zrange 0 n)).
  { rewrite <- (map_nthd_zrange false (out_ret o')), Z4, HZ1. apply map_ext_in. intros i Hin. apply in_zrange in Hin. unfold msk.
    destruct (pks i) as [pk|] eqn:Epk; apply nthd_some.
    - apply (mh_some _ _ _ _ _ _ _ _ _ _ _ _ _ _ _ HH i pk ltac:(lia) Epk).
    - apply (mh_none _ _ _ _ _ _ _ _ _ _ _ _ _ _ _ HH i ltac:(lia) Epk). }
  unfold lots_M. cbn [ms_len ms_dil ms_norm ms_thr ms_nch ms_chan ms_values]. rewrite E1, E2, ER, !map_map.
  repeat split.
  - apply (select_id msk 0); [lia|]. reflexivity.
  - apply (select_id msk 0); [lia|]. reflexivity.
  - apply (select_id msk false); [lia|]. reflexivity.
  - apply (select_id msk (n0 N)); [lia|]. reflexivity.
  - apply (select_id msk 0); [lia|]. intros i Hr _. symmetry. apply (mh_chs _ _ _ _ _ _ _ _ _ _ _ _ _ _ _ HH i ltac:(lia)).
  - f_equal. apply (select_id msk []); [lia|]. intros i Hr Hm. unfold msk in Hm. destruct (pks i) as [pk|] eqn:Epk; [|discriminate].
    apply nthd_some. destruct (mh_some _ _ _ _ _ _ _ _ _ _ _ _ _ _ _ HH i pk ltac:(lia) Epk) as (_ & _ & _ & A & B & _). unfold mk. cbn [lt_chs]. congruence.
  - f_equal. apply (select_id msk []); [lia|]. intros i Hr Hm. unfold msk in Hm. destruct (pks i) as [pk|] eqn:Epk; [|discriminate].
    apply nthd_some. destruct (mh_some _ _ _ _ _ _ _ _ _ _ _ _ _ _ _ HH i pk ltac:(lia) Epk) as (_ & _ & A & _ & _ & (_ & _ & Hv & _)). unfold mk. cbn [lt_vals]. rewrite Epk, A, Hv. reflexivity.
Qed.

Lemma am_total (Hmc : mc <= nf) (Htot : forall dr nch g i m s, 1 <= dnch nch i <= nf -> mask_ok3 nsamp nf wd m -> draw_fits nsamp nlen dr i -> exists r, localG dr nch (g, i) m s = Ok r)
  values dr thr nch chan s1 rs sched : init = Ok (values, dr, thr, nch, chan, s1) -> is_schedule (dr_dil dr) sched ->
  exists st', run_sched (iter dr nch) rs sched (start dr thr values chan) = Ok st' /\ exists T, M_finish N dr nch st' = Ok T.
Proof.
  intros Hi HS. destruct (a_init_minit _ _ _ _ _ _ Hi) as (I & HR0). pose proof (ami_drawn _ _ I) as HD.
  pose proof (a_m_run_sim dr nch rs sched _ _ I HS HR0) as HSim.
  destruct (m_run_total N rng nsamp nf wd nlen srs y P dr nch (localG dr nch) m0 rs sched (ami_wf _ _ I) HS (ac_m0k C) (ami_len _ _ I)) as (M' & o' & HF).
  - intros i Hi'. apply (ami_ch _ _ I i Hi').
  - intros [g i] m s r He HM HL. destruct (a_m_event_fits dr nch sched g i I HS He) as [Hi' Hf]. apply (ac_inv C dr nch g i m s r); auto. apply (ami_ch _ _ I i Hi').
  - intros [g i] m s He HM. destruct (a_m_event_fits dr nch sched g i I HS He) as [Hi' Hf]. apply Htot; auto. pose proof (ami_ch _ _ I i Hi'). lia.
  - rewrite HF in HSim. destruct (run_sched (iter dr nch) rs sched (start dr thr values chan)) as [st'|er] eqn:ER; [|destruct HSim]. exists st'. split; [reflexivity|].
    destruct (am_sound _ _ _ _ _ _ rs sched st' Hi HS ER) as (ks & T & _ & _ & HT & _). eauto.
Qed.


End MCore.


(** ** Multivariate, same length *)

Section AnyMSL.
Context {F : Type} (N : NumOps F) {S : Type} (rng : Rng F S) (L : RngLaws N rng).
Context (X : dataset F) (y : list Z) (nf n mc : Z) (P : gparams F).
Hypothesis HX : train_m nf n X y.
Hypothesis Hsz : forall l, In l (g_sizes P) -> 2 <= l <= n.
Hypothesis HDL : dilation_law N rng n.
Notation good := (lot_ok N rng P n mc nf (zlen X) (fun _ => n) (fun i c => nthd [] (nthd [] X i) c) y (fun i nm chs vs l d => mdistances N (g_phase P) nm n (nthd [] X i) chs vs l d)).
Notation init := (M_init N rng (g_n P) (g_sizes P) n (g_pnorm P) mc (g_prime P) (r_seed rng (g_seed P))).

Lemma any_MSL_core : a_mcore N rng (zlen X) nf n (fun _ => n) (nthd [] X) y P n (m0_MSL nf n X) (fun dr nch => M_SL_iter N rng X y nf n P dr nch) (fun dr nch => M_SL_localG N rng X y nf n P dr nch).
Proof.
  destruct (train_m_shape _ _ _ _ HX) as (_ & _ & HP). pose proof HX as (_ & HM & Hn & Hy). split.
  - intros. eapply M_SL_iter_sim; eauto.
  - intros. eapply (MSL_local_inv N rng L X y nf n P dr nch HM Hn Hy); eauto.
  - apply m0_MSL_ok; [exact Hn|apply HM].
  - intros. apply m0_MSL_cell; [exact Hn|apply HM].
  - exact Hsz.
  - intros; lia.
Qed.

Lemma any_MSL_start dr values thr chan : M_SL_start X dr values thr chan = mkMst (mask0m dr (m0_MSL nf n X)) thr values chan (repeat true (length (dr_len dr))).
Proof. destruct (train_m_shape _ _ _ _ HX) as (E1 & E2 & _). unfold M_SL_start, mask0m, m0_MSL. rewrite E1, E2. reflexivity. Qed.

Lemma any_MSL_par_inv rs sched T : M_SL_generate_par N rng rs sched X y mc P = Ok T ->
  exists values dr thr nch chan s1 st', init = Ok (values, dr, thr, nch, chan, s1) /\
    run_sched (M_SL_iter N rng X y nf n P dr nch) rs (sched (dr_dil dr)) (mkMst (mask0m dr (m0_MSL nf n X)) thr values chan (repeat true (length (dr_len dr)))) = Ok st' /\
    M_finish N dr nch st' = Ok T.
Proof.
  unfold M_SL_generate_par, M_SL_generate_with. destruct (train_m_shape _ _ _ _ HX) as (E1 & E2 & _). rewrite E1, E2. intros H.
  apply bind_inv in H as ([[[[[values dr] thr] nch] chan] s1] & Hi & H).
  apply bind_inv in H as ([st' s2] & Hq & H). cbn [fst] in H. rewrite any_MSL_start in Hq. unfold exec_par in Hq. apply liftG_inv in Hq as [Hq _].
  exists values, dr, thr, nch, chan, s1, st'. auto.
Qed.

Theorem any_MSL_sound rs sched T : scheduler sched -> M_SL_generate_par N rng rs sched X y mc P = Ok T ->
  exists ks, (forall k, In k ks -> good k) /\ zlen ks <= g_n P /\ lots_M ks T.
Proof.
  intros HS H. apply any_MSL_par_inv in H as (values & dr & thr & nch & chan & s1 & st' & Hi & Hr & HT).
  destruct (am_sound N rng _ _ _ _ _ _ _ _ mc _ _ _ any_MSL_core HDL values dr thr nch chan s1 rs (sched (dr_dil dr)) st' Hi (HS _) Hr) as (ks & T' & A1 & A2 & A3 & A4).
  assert (T' = T) by congruence. subst T'. exists ks. auto.
Qed.

Hypothesis Hq : forall a, zlen a <= n -> exists p, percentiles N a (g_pmin P) (g_pmax P) = Ok p.
Hypothesis Hmc : mc <= nf.

Lemma any_MSL_run_total values dr thr nch chan s1 rs sched : init = Ok (values, dr, thr, nch, chan, s1) -> is_schedule (dr_dil dr) sched ->
  exists st', run_sched (M_SL_iter N rng X y nf n P dr nch) rs sched (mkMst (mask0m dr (m0_MSL nf n X)) thr values chan (repeat true (length (dr_len dr)))) = Ok st' /\
    exists T, M_finish N dr nch st' = Ok T.
Proof.
  intros Hi HS. destruct (train_m_shape _ _ _ _ HX) as (_ & _ & HP). pose proof HX as (_ & HM & Hn & Hy).
  eapply (am_total N rng _ _ _ _ _ _ _ _ mc _ _ _ any_MSL_core HDL Hmc); eauto.
  intros. apply (MSL_local_total N rng L X y nf n P dr0 nch0 HM Hn Hy); auto.
Qed.

Theorem any_MSL_total rs sched : scheduler sched -> g_sizes P <> [] -> 1 <= g_n P -> 1 <= mc -> exists T, M_SL_generate_par N rng rs sched X y mc P = Ok T.
Proof.
  intros HS Hne Hn H1. destruct (any_M_init_total N rng L (g_n P) (g_sizes P) n (g_pnorm P) mc (g_prime P) (r_seed rng (g_seed P)) HDL Hne Hsz Hn H1) as ([[[[[values dr] thr] nch] chan] s1] & Hi).
  unfold M_SL_generate_par, M_SL_generate_with. destruct (train_m_shape _ _ _ _ HX) as (E1 & E2 & _). rewrite E1, E2, Hi. cbn [bind]. rewrite any_MSL_start.
  destruct (any_MSL_run_total values dr thr nch chan s1 rs (sched (dr_dil dr)) Hi (HS _)) as (st' & Hr & HT). unfold exec_par, liftG. rewrite Hr. cbn [bind]. exact HT.
Qed.

Theorem any_MSL_total_seq : g_sizes P <> [] -> 1 <= g_n P -> 1 <= mc -> exists T, M_SL_generate N rng X y mc P = Ok T.
Proof.
  intros Hne Hn H1. destruct (any_M_init_total N rng L (g_n P) (g_sizes P) n (g_pnorm P) mc (g_prime P) (r_seed rng (g_seed P)) HDL Hne Hsz Hn H1) as ([[[[[values dr] thr] nch] chan] s1] & Hi).
  unfold M_SL_generate, M_SL_generate_with. destruct (train_m_shape _ _ _ _ HX) as (E1 & E2 & _). rewrite E1, E2, Hi. cbn [bind]. rewrite any_MSL_start.
  destruct (exec_seq dr (M_SL_iter N rng X y nf n P dr nch) (mkMst (mask0m dr (m0_MSL nf n X)) thr values chan (repeat true (length (dr_len dr)))) s1) as [q|er] eqn:Eq.
  - cbn [bind]. destruct (exec_seq_par _ _ _ _ _ Eq) as (rs & Hrs). unfold exec_par in Hrs. apply liftG_inv in Hrs as [Hrs _].
    destruct (any_MSL_run_total values dr thr nch chan s1 rs (seq_sched (dr_dil dr)) Hi (seq_sched_ok _)) as (st' & Hr & HT). assert (st' = fst q) by congruence. subst st'. exact HT.
  - exfalso. unfold exec_seq in Eq. edestruct (foldG_par_total (M_SL_iter N rng X y nf n P dr nch) (seq_sched (dr_dil dr))) as (r & Hr).
    + apply (sched_shp_NoDup (dr_dil dr)). apply seq_sched_ok.
    + intros rs. destruct (any_MSL_run_total values dr thr nch chan s1 rs _ Hi (seq_sched_ok _)) as (st' & Hr & _). eauto.
    + rewrite Hr in Eq. discriminate.
Qed.

End AnyMSL.


(** ** Multivariate, variable length *)

Section AnyMVL.
Context {F : Type} (N : NumOps F) {S : Type} (rng : Rng F S) (L : RngLaws N rng).
Context (X : dataset F) (X_len y : list Z) (nf n mc : Z) (P : gparams F).
Hypothesis HX : train_mv nf n X X_len y.
Hypothesis Hsz : forall l, In l (g_sizes P) -> 2 <= l <= n.
Hypothesis HDL : dilation_law N rng n.
Notation good := (lot_ok N rng P n mc nf (zlen X) (nthd 0 X_len) (fun i c => nthd [] (mser_vl X X_len i) c) y (fun i nm chs vs l d => mdistances N (g_phase P) nm (nthd 0 X_len i) (mser_vl X X_len i) chs vs l d)).
Notation init := (M_init N rng (g_n P) (g_sizes P) n (g_pnorm P) mc (g_prime P) (r_seed rng (g_seed P))).
Notation wd := (maxlen X_len).

Lemma any_MVL_pos s : 0 <= s < zlen X -> 0 < nthd 0 X_len s <= wd.
Proof. intros Hs. pose proof (MVL_nlen nf n X X_len y HX s Hs). pose proof HX as (_ & _ & H0 & _). lia. Qed.

Lemma any_MVL_core : a_mcore N rng (zlen X) nf wd (nthd 0 X_len) (mser_vl X X_len) y P n (m0_MVL nf X_len) (fun dr nch => M_VL_iter N rng X X_len y nf P dr nch) (fun dr nch => M_VL_localG N rng X X_len y nf P dr nch).
Proof.
  pose proof HX as (_ & HM & Hn & HL & Hy & _). split.
  - intros. eapply M_VL_iter_sim; eauto.
  - intros. eapply (MVL_local_inv N rng L X X_len y nf _ wd P dr nch HM HL Hy any_MVL_pos (MVL_wd nf n X X_len y HX)); eauto.
  - apply (m0_MVL_ok nf n X X_len y HX).
  - apply (m0_MVL_cell nf n X X_len y HX).
  - exact Hsz.
  - intros s Hs. apply (MVL_nlen nf n X X_len y HX s Hs).
Qed.

Lemma any_MVL_par_inv rs sched T : M_VL_generate_par N rng rs sched X X_len y mc n P = Ok T ->
  exists values dr thr nch chan s1 st', init = Ok (values, dr, thr, nch, chan, s1) /\
    run_sched (M_VL_iter N rng X X_len y nf P dr nch) rs (sched (dr_dil dr)) (mkMst (mask0m dr (m0_MVL nf X_len)) thr values chan (repeat true (length (dr_len dr)))) = Ok st' /\
    M_finish N dr nch st' = Ok T.
Proof.
  unfold M_VL_generate_par, M_VL_generate_with. destruct (MVL_shape nf n X X_len y HX) as (E1 & _). rewrite E1. intros H.
  apply bind_inv in H as ([[[[[values dr] thr] nch] chan] s1] & Hi & H). rewrite (MVL_start nf n X X_len y HX) in H. cbn [bind] in H.
  apply bind_inv in H as ([st' s2] & Hq & H). cbn [fst] in H. unfold exec_par in Hq. apply liftG_inv in Hq as [Hq _].
  exists values, dr, thr, nch, chan, s1, st'. auto.
Qed.

Theorem any_MVL_sound rs sched T : scheduler sched -> M_VL_generate_par N rng rs sched X X_len y mc n P = Ok T ->
  exists ks, (forall k, In k ks -> good k) /\ zlen ks <= g_n P /\ lots_M ks T.
Proof.
  intros HS H. apply any_MVL_par_inv in H as (values & dr & thr & nch & chan & s1 & st' & Hi & Hr & HT).
  destruct (am_sound N rng _ _ _ _ _ _ _ _ mc _ _ _ any_MVL_core HDL values dr thr nch chan s1 rs (sched (dr_dil dr)) st' Hi (HS _) Hr) as (ks & T' & A1 & A2 & A3 & A4).
  assert (T' = T) by congruence. subst T'. exists ks. auto.
Qed.

Hypothesis Hq : forall a, zlen a <= wd -> exists p, percentiles N a (g_pmin P) (g_pmax P) = Ok p.
Hypothesis Hmc : mc <= nf.

Lemma any_MVL_run_total values dr thr nch chan s1 rs sched : init = Ok (values, dr, thr, nch, chan, s1) -> is_schedule (dr_dil dr) sched ->
  exists st', run_sched (M_VL_iter N rng X X_len y nf P dr nch) rs sched (mkMst (mask0m dr (m0_MVL nf X_len)) thr values chan (repeat true (length (dr_len dr)))) = Ok st' /\
    exists T, M_finish N dr nch st' = Ok T.
Proof.
  intros Hi HS. pose proof HX as (_ & HM & Hn & HL & Hy & _).
  eapply (am_total N rng _ _ _ _ _ _ _ _ mc _ _ _ any_MVL_core HDL Hmc); eauto.
  intros. apply (MVL_local_total N rng L X X_len y nf _ wd P dr0 nch0 HM HL Hy any_MVL_pos (MVL_wd nf n X X_len y HX)); auto.
Qed.

Theorem any_MVL_total rs sched : scheduler sched -> g_sizes P <> [] -> 1 <= g_n P -> 1 <= mc -> exists T, M_VL_generate_par N rng rs sched X X_len y mc n P = Ok T.
Proof.
  intros HS Hne Hn H1. destruct (any_M_init_total N rng L (g_n P) (g_sizes P) n (g_pnorm P) mc (g_prime P) (r_seed rng (g_seed P)) HDL Hne Hsz Hn H1) as ([[[[[values dr] thr] nch] chan] s1] & Hi).
  unfold M_VL_generate_par, M_VL_generate_with. destruct (MVL_shape nf n X X_len y HX) as (E1 & _). rewrite E1, Hi. cbn [bind]. rewrite (MVL_start nf n X X_len y HX). cbn [bind].
  destruct (any_MVL_run_total values dr thr nch chan s1 rs (sched (dr_dil dr)) Hi (HS _)) as (st' & Hr & HT). unfold exec_par, liftG. rewrite Hr. cbn [bind]. exact HT.
Qed.

Theorem any_MVL_total_seq : g_sizes P <> [] -> 1 <= g_n P -> 1 <= mc -> exists T, M_VL_generate N rng X X_len y mc n P = Ok T.
Proof.
  intros Hne Hn H1. destruct (any_M_init_total N rng L (g_n P) (g_sizes P) n (g_pnorm P) mc (g_prime P) (r_seed rng (g_seed P)) HDL Hne Hsz Hn H1) as ([[[[[values dr] thr] nch] chan] s1] & Hi).
  unfold M_VL_generate, M_VL_generate_with. destruct (MVL_shape nf n X X_len y HX) as (E1 & _). rewrite E1, Hi. cbn [bind]. rewrite (MVL_start nf n X X_len y HX). cbn [bind].
  destruct (exec_seq dr (M_VL_iter N rng X X_len y nf P dr nch) (mkMst (mask0m dr (m0_MVL nf X_len)) thr values chan (repeat true (length (dr_len dr)))) s1) as [q|er] eqn:Eq.
  - cbn [bind]. destruct (exec_seq_par _ _ _ _ _ Eq) as (rs & Hrs). unfold exec_par in Hrs. apply liftG_inv in Hrs as [Hrs _].
    destruct (any_MVL_run_total values dr thr nch chan s1 rs (seq_sched (dr_dil dr)) Hi (seq_sched_ok _)) as (st' & Hr & HT). assert (st' = fst q) by congruence. subst st'. exact HT.
  - exfalso. unfold exec_seq in Eq. edestruct (foldG_par_total (M_VL_iter N rng X X_len y nf P dr nch) (seq_sched (dr_dil dr))) as (r & Hr).
    + apply (sched_shp_NoDup (dr_dil dr)). apply seq_sched_ok.
    + intros rs. destruct (any_MVL_run_total values dr thr nch chan s1 rs _ Hi (seq_sched_ok _)) as (st' & Hr & _). eauto.
    + rewrite Hr in Eq. discriminate.
Qed.

End AnyMVL.
