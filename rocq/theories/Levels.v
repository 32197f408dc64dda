(** Other percentiles: the same code run with two settings of the percentiles.  Runs are compared step by step. *)
From Coq Require Import ZArith String List Bool Reals Lra Lia.
From Verif Require Import Prelude Num Kernel Spec KernelProofs KernelLaws RealBase RealProofs Parallel Apply TransformProofs ChoiceProofs Gen GenSched GenBase GenUni GenDraw GenSpec GenUTop NumbaUtilsProofs Checks Estimator Units UnitsU.
Import ListNotations.
Open Scope Z_scope.

Section L.
Context {F : Type} (N : NumOps F) {S : Type} (rng : Rng F S) (Q : F -> F -> Prop) (P P' : gparams F).
(** the two settings differ in the percentiles only *)
Hypothesis HP : exists a b, P' = mkG (g_n P) (g_sizes P) (g_seed P) (g_pnorm P) a b (g_alpha P) (g_phase P) (g_prime P).
Hypothesis HQ : forall a, rG Q (draw_threshold N rng a (g_pmin P) (g_pmax P)) (draw_threshold N rng a (g_pmin P') (g_pmax P')).
Hypothesis H0 : Q (n0 N) (n0 N).

Definition uthr (st st' : ust F) : Prop := u_mask st' = u_mask st /\ u_val st' = u_val st /\ Forall2 Q (u_thr st) (u_thr st').
Definition mthr (st st' : mst F) : Prop :=
  m_mask st' = m_mask st /\ m_val st' = m_val st /\ m_chan st' = m_chan st /\ m_ret st' = m_ret st /\ Forall2 Q (m_thr st) (m_thr st').
Definition shapelets_thr (T T' : ushp F) : Prop :=
  us_values T' = us_values T /\ us_len T' = us_len T /\ us_dil T' = us_dil T /\ us_norm T' = us_norm T /\ Forall2 Q (us_thr T) (us_thr T').
Definition mshapelets_thr (T T' : mshp F) : Prop :=
  ms_values T' = ms_values T /\ ms_len T' = ms_len T /\ ms_dil T' = ms_dil T /\ ms_norm T' = ms_norm T /\ ms_nch T' = ms_nch T /\ ms_chan T' = ms_chan T /\ Forall2 Q (ms_thr T) (ms_thr T').

Lemma same_rest : g_n P' = g_n P /\ g_sizes P' = g_sizes P /\ g_seed P' = g_seed P /\ g_pnorm P' = g_pnorm P /\ g_alpha P' = g_alpha P /\ g_phase P' = g_phase P /\ g_prime P' = g_prime P.
Proof. destruct HP as (a & b & ->). cbn. auto 10. Qed.

Ltac same := eapply rG_bind; [apply rG_refl|]; let a := fresh "a" in let b := fresh "b" in intros a b <-.

Lemma U_SL_iter_thr X y n_ts dr st st' e : uthr st st' -> rG uthr (U_SL_iter N rng X y n_ts P dr st e) (U_SL_iter N rng X y n_ts P' dr st' e).
Proof.
  intros HU. pose proof HU as (E1 & E2 & E3). destruct e as [i_d i]. unfold U_SL_iter. destruct same_rest as (_ & _ & _ & _ & -> & -> & _). rewrite E1, E2.
  do 5 same. destruct (0 <? _); [|apply rG_ret; exact HU]. do 8 same. eapply rG_bind; [apply HQ|]. intros t t' Ht.
  eapply rG_bind; [apply rG_lift; apply (set_F2 Q); [exact E3|exact Ht]|]. intros ts ts' Hts. same. apply rG_ret. split; [reflexivity|]. split; [reflexivity|exact Hts].
Qed.

Lemma U_VL_iter_thr X X_len y dr st st' e : uthr st st' -> rG uthr (U_VL_iter N rng X X_len y P dr st e) (U_VL_iter N rng X X_len y P' dr st' e).
Proof.
  intros HU. pose proof HU as (E1 & E2 & E3). destruct e as [i_d i]. unfold U_VL_iter. destruct same_rest as (_ & _ & _ & _ & -> & -> & _). rewrite E1, E2.
  do 6 same. destruct (0 <? _); [|apply rG_ret; exact HU]. do 10 same. eapply rG_bind; [apply HQ|]. intros t t' Ht.
  eapply rG_bind; [apply rG_lift; apply (set_F2 Q); [exact E3|exact Ht]|]. intros ts ts' Hts. same. apply rG_ret. split; [reflexivity|]. split; [reflexivity|exact Hts].
Qed.

Lemma mask_F2 (m : list bool) l l' : Forall2 Q l l' -> Forall2 Q (mask_select m l) (mask_select m l').
Proof. intros H. revert m. induction H as [|a b l l' Ha H IH]; intros [|[] m]; cbn; try constructor; auto; apply IH. Qed.

Lemma finish_thr dr st st' : uthr st st' -> shapelets_thr (U_finish N dr st) (U_finish N dr st').
Proof.
  intros (E1 & E2 & E3). unfold U_finish. rewrite E2. split; [reflexivity|]. split; [reflexivity|]. split; [reflexivity|]. split; [reflexivity|]. cbn [us_thr]. apply mask_F2. exact E3.
Qed.

Lemma zeros_thr n v : full n (n0 N) = Ok v -> Forall2 Q v v.
Proof.
  unfold full. destruct (n <? 0); [discriminate|]. intros E. injection E as <-. induction (Z.to_nat n) as [|k IH]; cbn [repeat]; constructor; auto.
Qed.

Lemma U_init_thr n sizes n_ts p pr s values dr thr s1 : U_init N rng n sizes n_ts p pr s = Ok (values, dr, thr, s1) -> Forall2 Q thr thr.
Proof.
  intros H. unfold U_init in H. apply bindG_inv in H as (lens & t1 & H1 & H). apply bindG_inv in H as (dils & t2 & H2 & H).
  apply bind_liftG in H as (th & H3 & H). apply bind_liftG in H as (w & H4 & H). apply bind_liftG in H as (row & H5 & H). apply bind_liftG in H as (vs & H6 & H).
  apply bindG_inv in H as (nm & t3 & H7 & H). unfold retG in H. assert (thr = th) by congruence. subst th. eapply zeros_thr; eauto.
Qed.

Lemma M_SL_iter_thr X y nf n_ts dr nch st st' e : mthr st st' -> rG mthr (M_SL_iter N rng X y nf n_ts P dr nch st e) (M_SL_iter N rng X y nf n_ts P' dr nch st' e).
Proof.
  intros HU. pose proof HU as (E1 & E2 & E3 & E4 & E5). destruct e as [i_d i]. unfold M_SL_iter. destruct same_rest as (_ & _ & _ & _ & Ea & Eph & _). rewrite Ea, Eph, E1, E4.
  do 9 same. destruct (0 <? _).
  - do 4 same. eapply rG_bind with (P := eq); [unfold M_channels; rewrite Eph; apply rG_refl|]. intros [[mk xd] vs] ? <-.
    eapply rG_bind with (P := eq); [unfold M_store; rewrite E2, E3; apply rG_refl|]. intros vc ? <-. eapply rG_bind; [apply HQ|]. intros t t' Ht.
    eapply rG_bind; [apply rG_lift; apply (set_F2 Q); [exact E5|exact Ht]|]. intros ts ts' Hts. apply rG_ret. repeat (split; [reflexivity|]). exact Hts.
  - same. apply rG_ret. split; [reflexivity|]. split; [exact E2|]. split; [exact E3|]. split; [reflexivity|exact E5].
Qed.

Lemma M_VL_iter_thr X X_len y nf dr nch st st' e : mthr st st' -> rG mthr (M_VL_iter N rng X X_len y nf P dr nch st e) (M_VL_iter N rng X X_len y nf P' dr nch st' e).
Proof.
  intros HU. pose proof HU as (E1 & E2 & E3 & E4 & E5). destruct e as [i_d i]. unfold M_VL_iter. destruct same_rest as (_ & _ & _ & _ & Ea & Eph & _). rewrite Ea, Eph, E1, E4.
  do 9 same. destruct (0 <? _).
  - do 8 same. eapply rG_bind with (P := eq); [unfold M_channels; rewrite Eph; apply rG_refl|]. intros [[mk xd] vs] ? <-.
    eapply rG_bind with (P := eq); [unfold M_store; rewrite E2, E3; apply rG_refl|]. intros vc ? <-. eapply rG_bind; [apply HQ|]. intros t t' Ht.
    eapply rG_bind; [apply rG_lift; apply (set_F2 Q); [exact E5|exact Ht]|]. intros ts ts' Hts. apply rG_ret. repeat (split; [reflexivity|]). exact Hts.
  - same. apply rG_ret. split; [reflexivity|]. split; [exact E2|]. split; [exact E3|]. split; [reflexivity|exact E5].
Qed.

Lemma M_finish_thr dr nch st st' : mthr st st' -> rres mshapelets_thr (M_finish N dr nch st) (M_finish N dr nch st').
Proof.
  intros (E1 & E2 & E3 & E4 & E5). unfold M_finish. cbv zeta. rewrite E2, E3, E4. do 2 (eapply rres_bind; [apply rres_refl|]; intros ? ? <-).
  eapply rres_bind; [apply rres_refl|]. intros [[[c1 c2] mv] mc] ? <-. cbn [rres]. unfold mshapelets_thr. cbn. repeat (split; [reflexivity|]). apply mask_F2. exact E5.
Qed.

Lemma M_init_thr n sizes n_ts p mc pr s values dr thr nch chan s1 : M_init N rng n sizes n_ts p mc pr s = Ok (values, dr, thr, nch, chan, s1) -> Forall2 Q thr thr.
Proof.
  intros H. unfold M_init in H. apply bindG_inv in H as (lens & t1 & H1 & H). apply bindG_inv in H as (dils & t2 & H2 & H).
  apply bind_liftG in H as (th & H3 & H). apply bindG_inv in H as (ch & t3 & H4 & H). apply bind_liftG in H as (ci & H5 & H). apply bind_liftG in H as (vs & H6 & H).
  apply bindG_inv in H as (nm & t4 & H7 & H). unfold retG in H. assert (thr = th) by congruence. subst th. eapply zeros_thr; eauto.
Qed.

(** ** The generators *)
Context (ex : forall ST : Type, @drawn -> (ST -> Z * Z -> G S ST) -> ST -> G S ST) (HE : plain ex).

Lemma U_SL_thr X y : rres shapelets_thr (U_SL_generate_with N rng X y P (ex _)) (U_SL_generate_with N rng X y P' (ex _)).
Proof.
  unfold U_SL_generate_with. destruct same_rest as (-> & -> & -> & -> & _ & _ & ->). destruct (U_init _ _ _ _ _ _ _ _) as [[[[values dr] thr] s1]|e] eqn:EI; [|reflexivity]. cbn [bind].
  eapply rres_bind; [apply (HE _ _ uthr dr) with (s := s1)|].
  - split; [reflexivity|]. split; [reflexivity|]. cbn. eapply U_init_thr; eauto.
  - intros t t' e _ HU. apply U_SL_iter_thr. exact HU.
  - intros p p' [HU _]. cbn [rres]. apply finish_thr. exact HU.
Qed.
Lemma U_VL_thr X X_len y m : rres shapelets_thr (U_VL_generate_with N rng X X_len y m P (ex _)) (U_VL_generate_with N rng X X_len y m P' (ex _)).
Proof.
  unfold U_VL_generate_with. destruct same_rest as (-> & -> & -> & -> & _ & _ & ->). destruct (U_init _ _ _ _ _ _ _ _) as [[[[values dr] thr] s1]|e] eqn:EI; [|reflexivity]. cbn [bind].
  destruct (U_VL_start X X_len dr values thr) as [st0|] eqn:E0; [|reflexivity]. cbn [bind].
  eapply rres_bind; [apply (HE _ _ uthr dr) with (s := s1)|].
  - split; [reflexivity|]. split; [reflexivity|]. unfold U_VL_start in E0. apply bind_inv in E0 as (ml & _ & E0). apply bind_inv in E0 as (sl & _ & E0). injection E0 as <-. cbn [u_thr]. eapply U_init_thr; eauto.
  - intros t t' e _ HU. apply U_VL_iter_thr. exact HU.
  - intros p p' [HU _]. cbn [rres]. apply finish_thr. exact HU.
Qed.
Lemma M_SL_thr X y mc : rres mshapelets_thr (M_SL_generate_with N rng X y mc P (ex _)) (M_SL_generate_with N rng X y mc P' (ex _)).
Proof.
  unfold M_SL_generate_with. destruct same_rest as (-> & -> & -> & -> & _ & _ & ->). destruct (M_init _ _ _ _ _ _ _ _ _) as [[[[[[values dr] thr] nch] chan] s1]|e] eqn:EI; [|reflexivity]. cbn [bind].
  eapply rres_bind; [apply (HE _ _ mthr dr) with (s := s1)|].
  - unfold mthr. cbn. repeat (split; [reflexivity|]). eapply M_init_thr; eauto.
  - intros t t' e _ HU. apply M_SL_iter_thr. exact HU.
  - intros p p' [HU _]. apply M_finish_thr. exact HU.
Qed.
Lemma M_VL_thr X X_len y mc m : rres mshapelets_thr (M_VL_generate_with N rng X X_len y mc m P (ex _)) (M_VL_generate_with N rng X X_len y mc m P' (ex _)).
Proof.
  unfold M_VL_generate_with. destruct same_rest as (-> & -> & -> & -> & _ & _ & ->). destruct (M_init _ _ _ _ _ _ _ _ _) as [[[[[[values dr] thr] nch] chan] s1]|e] eqn:EI; [|reflexivity]. cbn [bind].
  destruct (M_VL_start X X_len dr values thr chan) as [st0|] eqn:E0; [|reflexivity]. cbn [bind].
  eapply rres_bind; [apply (HE _ _ mthr dr) with (s := s1)|].
  - unfold M_VL_start in E0. apply bind_inv in E0 as (ml & _ & E0). apply bind_inv in E0 as (sl & _ & E0). injection E0 as <-. unfold mthr. cbn [m_thr m_mask m_val m_chan m_ret]. repeat (split; [reflexivity|]). eapply M_init_thr; eauto.
  - intros t t' e _ HU. apply M_VL_iter_thr. exact HU.
  - intros p p' [HU _]. apply M_finish_thr. exact HU.
Qed.

Definition fitted_thr (f f' : @fitted F) : Prop := match f, f' with FU T, FU T' => shapelets_thr T T' | FM T, FM T' => mshapelets_thr T T' | _, _ => False end.

Lemma run_fitter_thr q q' : q_P q = P -> q' = mkReq (q_kind q) (q_X q) (q_y q) P' (q_max_channels q) (q_min_len q) (q_X_len q) ->
  rres fitted_thr (run_fitter N rng ex q) (run_fitter N rng ex q').
Proof.
  intros EP ->. unfold run_fitter. cbn [q_kind q_X q_y q_P q_max_channels q_min_len q_X_len]. rewrite EP. destruct (q_kind q).
  - eapply rres_bind; [apply U_SL_thr|]. intros T T' HT. exact HT.
  - eapply rres_bind; [apply M_SL_thr|]. intros T T' HT. exact HT.
  - eapply rres_bind; [apply U_VL_thr|]. intros T T' HT. exact HT.
  - eapply rres_bind; [apply M_VL_thr|]. intros T T' HT. exact HT.
Qed.
End L.
