(** Change of units: R_DST.fit and R_DST.transform. *)
From Coq Require Import ZArith String List Bool Reals Lra Lia.
From Verif Require Import Prelude Num Kernel Spec KernelProofs KernelLaws RealBase Parallel Apply ApplyProofs ApplyUni ApplyMulti TransformProofs TransformLaws
  RealProofs SampleLaws Gen GenSched GenBase GenUni GenDraw GenSpec GenUTop GenULaws GenUCase GenMTop GenMLaws Checks ChecksProofs Estimator
  EstimatorNum EstimatorLaws FitAny EndToEnd PropsGenU PropsGenM PropsNames Units UnitsU UnitsM.
Import ListNotations.
Open Scope Z_scope.

Lemma real_plain {S} (ex : @executor S) : real_executor ex -> plain ex.
Proof. intros [->|(rs & sched & HS & ->)]; [apply plain_seq|apply plain_par; exact HS]. Qed.
Lemma real_counted {S} (ex : @executor S) : real_executor ex -> counted ex.
Proof. intros [->|(rs & sched & HS & ->)]; [apply counted_seq|apply counted_par; exact HS]. Qed.

(** given in the same kind of container: when both are arrays, of the same dtype *)
Definition same_form {F} (X X' : pyv F) : Prop := match X, X' with VArr _ dt _, VArr _ dt' _ => dt' = dt | _, _ => True end.

Section P.
Context {F : Type} (N : NumOps F) {RS : Type} (V : pyenv RS) (X X' : pyv F) (n nf : Z) (cols : Z -> Z) (v v' : Z -> Z -> Z -> F) (vl : bool).
Hypothesis HX : FitAny.passes (N := N) X n nf cols v vl.
Hypothesis HX' : FitAny.passes (N := N) X' n nf cols v' vl.
Hypothesis HF : same_form X X'.
Hypothesis Hn : 1 <= n.
Hypothesis Hf : 1 <= nf.

Lemma auto_units : auto_class N X' = auto_class N X.
Proof.
  destruct HX as [dt t cells EX Hdt Ht Hl Hc H|items HI Hi Hs]; inversion HX' as [dt' t' cells' EX' Hdt' Ht' Hl' Hc' H' E|items' HI' Hi' Hs' E].
  - subst X X'. cbn [same_form] in HF. subst dt'. assert (t' = t) by (rewrite <- (Hc 0), <- (Hc' 0) by lia; reflexivity). subst t'. unfold auto_class.
    replace (dtype_eqb dt DObject) with false by (destruct dt; try reflexivity; congruence). destruct (_ || _); [|reflexivity]. unfold check_array_3D. cbn [check_is_numpy_or_pd bind shape].
    destruct (check_shape_3D _ _ _); reflexivity.
  - assert (K : forall items0 X0 v0, (X0 = VList items0 \/ X0 = VArr [zlen items0] DObject items0) -> zlen items0 = n -> (forall i x, nthZ items0 i = Some x -> series N x nf (cols i) (v0 i)) -> auto_class N X0 = Ok (TKind (if 1 <? nf then KMV else KUV))).
    { intros it0 X0 v0 HI0 Hi0 Hs0. assert (E' : auto_class N X0 = (let* x0 := py_item X0 0 in let* m := py_len x0 in Ok (TKind (if 1 <? m then KMV else KUV)))) by (destruct HI0 as [-> | ->]; reflexivity). rewrite E'.
      assert (HC : collection X0 it0) by (destruct HI0 as [-> | ->]; [apply collection_list|apply collection_objects]).
      destruct (nthZ_some it0 0) as (x & Hx); [lia|]. rewrite (proj2 HC 0 x Hx). cbn [bind]. destruct (Hs0 0 x Hx) as (_ & _ & dt & cells & -> & _). reflexivity. }
    rewrite (K items' X' v' HI' Hi' Hs'), (K items X v HI Hi Hs). reflexivity.
Qed.

Definition ready_for (s : @est F) : Prop := e_n_samples s = VNone /\ forall k, e_type s = TKind k -> kind_vl k = vl.

Lemma alike2_lift2 {A B} (Q : @est F -> Prop) (P : A -> B -> Prop) (x : res A) x' : rres P x x' -> alike2 (RS := RS) Q P (liftE x) (liftE x').
Proof. intros H s h HQ. do 4 eexists. repeat split; eauto. Qed.

Lemma prepare_units y : exists D D' w, padded N D n nf w cols v /\ padded N D' n nf w cols v' /\ (forall i, 0 <= i < n -> 0 <= cols i <= w) /\
  alike2 ready_for (fun q q' => q_X q = D /\ q' = mkReq (q_kind q) D' (q_y q) (q_P q) (q_max_channels q) (q_min_len q) (q_X_len q)) (prepare N V X y) (prepare N V X' y).
Proof.
  destruct (passes_data _ _ _ _ _ _ HX Hn Hf) as (D & w & HP & Hc & (i0 & Hi0 & Ew) & HR). destruct (passes_data _ _ _ _ _ _ HX' Hn Hf) as (D' & w' & HP' & Hc' & (i0' & Hi0' & Ew') & HR').
  assert (w' = w) by (specialize (Hc i0' Hi0'); specialize (Hc' i0 Hi0); lia). clear Ew Ew'. subst w'.
  exists D, D', w. split; [exact HP|]. split; [exact HP'|]. split; [exact Hc|].
  assert (HQ : forall f, (forall s, e_n_samples (f s) = e_n_samples s) -> (forall s, e_type (f s) = e_type s) -> forall s, ready_for s -> ready_for (f s)) by (intros f H1 H2 s [E1 E2]; split; [rewrite H1; exact E1|rewrite H2; exact E2]).
  unfold prepare. eapply (alike2_bind _ eq).
  { unfold set_fit_transform. apply alike2_self. intros s HS. eapply (alike2_bind _ eq).
    - destruct (e_type s); try (apply alike2_ret; reflexivity). eapply alike2_bind with (P := fun a a' => a' = a /\ auto_class N X = Ok a).
      + apply alike2_lift2. rewrite auto_units. destruct (auto_class N X); cbn; auto.
      + intros ty ty' [-> Hty]. eapply alike2_bind; [apply alike2_put|intros; apply alike2_ret; reflexivity]. intros s0 [E1 E2]. split; [exact E1|]. intros k Ek. cbn in Ek. subst ty. apply (passes_auto _ _ _ _ _ _ _ HX Hn) in Hty. apply Hty.
    - intros ty ty' <-. destruct ty; [apply alike2_lift|apply alike2_put; apply HQ; reflexivity|apply alike2_lift]. }
  intros _ _ _. apply alike2_self. intros s HS. eapply (alike2_bind _ (fun a a' => a' = a /\ kind_vl a = vl)).
  { destruct (e_type s) eqn:ET; [apply alike2_lift2; reflexivity|apply alike2_ret; split; [reflexivity|apply HS; exact ET]|apply alike2_lift2; reflexivity]. }
  intros k k' [-> Hk]. eapply (alike2_bind _ (fun r r' => fst (fst r) = D /\ fst (fst r') = D' /\ snd (fst r') = snd (fst r) /\ snd r' = snd r)).
  { unfold read_X. rewrite Hk. destruct vl.
    - eapply (alike2_bind _ (fun r r' => r = (D, [n; nf; w], map cols (zrange 0 n)) /\ r' = (D', [n; nf; w], map cols (zrange 0 n)))); [apply alike2_lift2; rewrite HR, HR'; cbn; auto|]. intros r r' [-> ->].
      eapply alike2_bind; [apply alike2_lift|]. intros _ _ _. apply alike2_self. intros s0 _. eapply (alike2_bind _ eq); [|intros _ _ _; apply alike2_ret; cbn; auto].
      destruct (e_min_len s0); [apply alike2_ret; reflexivity|]. eapply alike2_bind; [apply alike2_lift|]. intros m m' <-. apply alike2_put. apply HQ; reflexivity.
    - destruct HR as (R1 & R2 & R3 & R4). destruct HR' as (R1' & R2' & R3' & R4'). eapply (alike2_bind _ (fun a a' => a = X /\ a' = X')).
      + apply alike2_lift2. rewrite R4, R4'. destruct (check_shape_3D _ _ _); cbn; auto.
      + intros a a' [-> ->]. rewrite R2, R2', R3, R3'. eapply (alike2_bind _ (fun a a' => a = D /\ a' = D')); [apply alike2_lift2; cbn; auto|]. intros a a' [-> ->].
        eapply alike2_bind; [apply alike2_put; apply HQ; reflexivity|]. intros _ _ _. apply alike2_ret. cbn. auto. }
  intros [[D0 sh] lens] [[D0' sh'] lens'] (E1 & E2 & E3 & E4). cbn [fst snd] in *. subst D0 D0' sh' lens'.
  eapply (alike2_bind _ (fun p p' => p = (D, y) /\ p' = (D', y))). { unfold subsample. apply alike2_self. intros s0 [E0 _]. rewrite E0. apply alike2_ret. auto. }
  intros p p' [-> ->]. apply alike2_self. intros s1 _. eapply (alike2_bind _ eq).
  { destruct (e_max_channels s1); [apply alike2_ret; reflexivity|apply alike2_put; apply HQ; reflexivity]. }
  intros _ _ _. apply alike2_self. intros s2 _. cbn zeta. eapply alike2_bind; [apply alike2_lift|]. intros ls ls' <-. eapply alike2_bind; [apply alike2_put; apply HQ; reflexivity|]. intros _ _ _.
  eapply alike2_bind; [apply alike2_lift|]. intros sizes sizes' <-. eapply alike2_bind; [apply alike2_draw|]. intros seed seed' <-. apply alike2_self. intros s3 _.
  eapply alike2_bind; [apply alike2_lift|]. intros pc pc' <-. eapply alike2_bind; [apply alike2_lift|]. intros al al' <-. eapply alike2_bind; [apply alike2_lift|]. intros pn pn' <-.
  apply alike2_ret. split; reflexivity.
Qed.
End P.

(** ** The series read by the fitter *)
Section D.
Context (c : R) (b : Z -> R) (n nf w : Z) (cols : Z -> Z) (v v' : Z -> Z -> Z -> R) (D D' : dataset R).
Hypothesis HP : padded RN D n nf w cols v.
Hypothesis HP' : padded RN D' n nf w cols v'.
Hypothesis Hn : 1 <= n.
Hypothesis Hf : 1 <= nf.
Hypothesis Hc : forall i, 0 <= i < n -> 0 <= cols i <= w.
Hypothesis Hv : forall i ch t, 0 <= i < n -> 0 <= ch < nf -> 0 <= t < cols i -> v' i ch t = (c * v i ch t + b ch)%R.

Lemma get_data i : rres (fun x x' => 0 <= wrap n i < n /\ nthZ D (wrap n i) = Some x /\ nthZ D' (wrap n i) = Some x') (get D i) (get D' i).
Proof.
  unfold get. rewrite (proj1 HP), (proj1 HP'). destruct (nthZ D (wrap n i)) as [x|] eqn:E.
  - pose proof (nthZ_range _ _ _ E) as Q. rewrite (proj1 HP) in Q. destruct (nthZ_some D' (wrap n i)) as (x' & E'); [rewrite (proj1 HP'); exact Q|]. rewrite E'. cbn. auto.
  - destruct (nthZ D' (wrap n i)) as [x'|] eqn:E'; [|reflexivity]. pose proof (nthZ_range _ _ _ E') as Q. rewrite (proj1 HP') in Q. destruct (nthZ_some D (wrap n i)) as (x & E2); [rewrite (proj1 HP); exact Q|congruence].
Qed.

Lemma rows_units i ch x x' : 0 <= i < n -> 0 <= ch < nf -> nthZ D i = Some x -> nthZ D' i = Some x' ->
  exists r r', get x ch = Ok r /\ get x' ch = Ok r' /\ slice r 0 (cols i) = points v i ch (cols i) /\ slice r' 0 (cols i) = map (fun z : R => (c * z + b ch)%R) (points v i ch (cols i)) /\
    zlen r = w /\ zlen r' = w.
Proof.
  intros Hi Hch Hx Hx'. destruct (proj2 HP i Hi) as (y & E & Zy & HR). destruct (proj2 HP' i Hi) as (y' & E' & Zy' & HR'). assert (y = x) by congruence. assert (y' = x') by congruence. subst y y'.
  destruct (HR ch Hch) as (r & R1 & R2 & R3 & R4). destruct (HR' ch Hch) as (r' & R1' & R2' & R3' & R4'). exists r, r'. pose proof (Hc i Hi) as Q.
  split; [apply get_nthZ; [lia|assumption]|]. split; [apply get_nthZ; [lia|assumption]|].
  assert (SL : forall (q : list R) (u : Z -> R), zlen q = w -> (forall j, 0 <= j < cols i -> nthZ q j = Some (u j)) -> slice q 0 (cols i) = map u (zrange 0 (cols i))).
  { intros q u Zq Hu. apply nthZ_ext. { rewrite slice_length by lia. rewrite zlen_map, zlen_zrange. lia. } intros j Hj. rewrite slice_length in Hj by lia.
    rewrite nthZ_slice by lia. rewrite Z.add_0_l, Hu, nthZ_map, nthZ_zrange by lia. reflexivity. }
  split; [apply SL; assumption|]. split; [|split; assumption]. unfold points. rewrite map_map. rewrite (SL r' (v' i ch) R2' R3'). apply map_ext_in. intros t Ht. apply in_zrange in Ht. apply Hv; lia.
Qed.

Lemma slice_whole {A} (q : list A) : slice q 0 (zlen q) = q.
Proof. pose proof (zlen_nonneg q). rewrite slice_ok by lia. rewrite Z.sub_0_r. unfold zlen. rewrite Nat2Z.id. cbn [Z.to_nat skipn]. apply firstn_all. Qed.

Lemma ch_series_units i ch : (forall i, 0 <= i < n -> cols i = w) -> 0 <= ch < nf -> rres (fun x x' => x' = map (fun x : R => (c * x + b ch)%R) x /\ exists i, 0 <= i < n /\ x = points v i ch (cols i)) (ch_series D i ch) (ch_series D' i ch).
Proof.
  intros HW Hch. unfold ch_series. eapply rres_bind; [apply get_data|]. intros x x' (Ri & Hx & Hx'). destruct (rows_units _ ch x x' Ri Hch Hx Hx') as (r & r' & -> & -> & S1 & S2 & Z1 & Z2). cbn [rres].
  rewrite (HW _ Ri) in S1, S2. rewrite <- Z1 in S1 at 1. rewrite <- Z2 in S2 at 1. rewrite slice_whole in S1, S2. split; [congruence|]. eexists. split; [exact Ri|]. rewrite (HW _ Ri). exact S1.
Qed.

Lemma get_lens i : get (map cols (zrange 0 n)) i = if (0 <=? wrap n i) && (wrap n i <? n) then Ok (cols (wrap n i)) else get (map cols (zrange 0 n)) i.
Proof.
  destruct (_ && _) eqn:E; [|reflexivity]. unfold get. rewrite zlen_map, zlen_zrange, Z.sub_0_r, Z.max_r by lia. rewrite nthZ_map, nthZ_zrange by lia. reflexivity.
Qed.

Lemma ch_series_vl_units i ch : 0 <= ch < nf -> rres (fun x x' => x' = map (fun x : R => (c * x + b ch)%R) x /\ exists i, 0 <= i < n /\ x = points v i ch (cols i)) (ch_series_vl D (map cols (zrange 0 n)) i ch) (ch_series_vl D' (map cols (zrange 0 n)) i ch).
Proof.
  intros Hch. unfold ch_series_vl. eapply rres_bind; [apply get_data|]. intros x x' (Ri & Hx & Hx'). destruct (rows_units _ ch x x' Ri Hch Hx Hx') as (r & r' & -> & -> & S1 & S2 & _). cbn [bind].
  rewrite get_lens. replace ((0 <=? wrap n i) && (wrap n i <? n)) with true by lia. cbn [bind rres]. rewrite S1, S2. split; [reflexivity|eauto].
Qed.
End D.

(** ** fit *)
Definition units_of (c : R) (b : Z -> R) (f f' : @Estimator.fitted R) : Prop :=
  match f, f' with FU T, FU T' => fitted_units c (b 0) T T' | FM T, FM T' => fitted_munits c b T T' | _, _ => False end.

(** only univariate shapelets whose values are all zero are dropped after the generation *)
Definition multivariate (s : @est R) (nf : Z) : Prop := e_type s = TKind KM \/ e_type s = TKind KMV \/ (e_type s = TAuto /\ 1 < nf).

Section F.
Context {S : Type} (rng : Rng R S) (L : RngLaws RN rng) {RS : Type} (V : pyenv RS) (ex : @executor S) (HE : real_executor ex).
Context (c : R) (b : Z -> R) (X X' : pyv R) (n nf : Z) (cols : Z -> Z) (v v' : Z -> Z -> Z -> R) (vl : bool) (y : list Z) (s : @est R) (h : list RS) (p : R).
Hypothesis Hc0 : c <> 0%R.
Hypothesis HX : passes X n nf cols v vl.
Hypothesis HX' : passes X' n nf cols v' vl.
Hypothesis HF : same_form X X'.
Hypothesis Hv : forall i ch t, 0 <= i < n -> 0 <= ch < nf -> 0 <= t < cols i -> v' i ch t = (c * v i ch t + b ch)%R.
Hypothesis Hn : 1 <= n.
Hypothesis Hf : 1 <= nf.
Hypothesis Hy : zlen y = n.
Hypothesis Hns : e_n_samples s = VNone.
Hypothesis Hty : forall k, e_type s = TKind k -> kind_vl k = vl.
Hypothesis H4 : forall i, 0 <= i < n -> 4 <= cols i.
Hypothesis Hml : vl = true -> forall m, e_min_len s = Some m -> 4 <= m /\ forall i, 0 <= i < n -> m <= cols i.
Hypothesis Hp : as_F RN (e_proba_norm s) = Ok p.
Hypothesis Hnorm : c = 1%R \/ (p <= 0)%R.
Hypothesis HZ : multivariate s nf \/ (1 <= p)%R \/ b 0 = 0%R \/ forall i t, 0 <= i < n -> 0 <= t < cols i -> v i 0 t <> 0%R /\ v' i 0 t <> 0%R.

Lemma pn_of X0 q s1 h1 : prepare RN V X0 y s h = (Ok q, s1, h1) -> g_pnorm (q_P q) = p.
Proof.
  intros E. destruct (prepare_ok _ _ _ _ _ _ _ _ _ E) as (k & D0 & sh & lens & m & ls & D' & y' & sizes & seed & pc & al & pn & H1 & H2 & H3 & H5 & H6 & H7 & H8 & H9 & H10 & H11 & Hq & _). subst q. cbn [q_P g_pnorm].
  assert (Q : as_F RN (e_proba_norm s) = Ok pn) by assumption. congruence.
Qed.

Lemma kind_multi q s1 h1 k : prepare RN V X y s h = (Ok q, s1, h1) -> q_kind q = k -> multi k = false -> multivariate s nf -> False.
Proof.
  intros E Ek Hm HM. destruct (prepare_facts _ _ _ _ _ _ _ _ _ _ _ _ HX Hn Hf Hy Hns Hty H4 Hml E) as (k' & D & w & m & [_ Hauto _ _ _ _ _ _ (sizes & seed & pn & pc & al & _ & _ & Hq) _]).
  assert (k' = k) by (rewrite Hq in Ek; exact Ek). subst k'. destruct (prepare_ok _ _ _ _ _ _ _ _ _ E) as (k2 & D0 & sh & lens & m2 & ls & D' & y' & sizes2 & seed2 & pc2 & al2 & pn2 & HT & H1).
  assert (k2 = k). { destruct H1 as (_ & _ & _ & _ & _ & _ & _ & _ & _ & Hq2 & _). rewrite Hq2 in Ek. exact Ek. } subst k2.
  destruct HM as [Q|[Q|[Q1 Q2]]]; [|  |specialize (Hauto Q1 Hm); lia]; (destruct HT as [HT|[HT _]]; [|congruence]; rewrite Q in HT; injection HT as <-; discriminate).
Qed.

Lemma fit_units : forall r s1 h1 r' s1' h1', fit RN rng V ex X y s h = (r, s1, h1) -> fit RN rng V ex X' y s h = (r', s1', h1') ->
  r' = r /\ h1' = h1 /\ match r with Ok _ => exists s0 f f', s1 = set_shapelets f s0 /\ s1' = set_shapelets f' s0 /\ units_of c b f f' | Err _ => s1' = s1 end.
Proof.
  intros r s1 h1 r' s1' h1' E E'. unfold fit, bindE in E, E'.
  destruct (prepare_units RN V X X' n nf cols v v' vl HX HX' HF Hn Hf y) as (D & D' & w & HP & HP' & Hcw & HA).
  destruct (HA s h (conj Hns Hty)) as (q & q' & s0 & h0 & P & P' & _ & HQ). rewrite P in E. rewrite P' in E'.
  destruct q as [q|e], q' as [q'|e']; try contradiction; [|injection E as <- <- <-; injection E' as <- <- <-; subst e'; auto]. destruct HQ as [HD HQ].
  pose proof (pn_of _ _ _ _ P) as Hpn.
  destruct (prepare_facts _ _ _ _ _ _ _ _ _ _ _ _ HX Hn Hf Hy Hns Hty H4 Hml P) as (k & D0 & w0 & m & [Hk Hauto HP0 Hcw0 Hcp Hmc Hm4 Hsl (sizes & seed & pn & pc & al & Hpc & Hsz & Hq) _]).
  assert (D0 = D) by (rewrite Hq in HD; exact HD). subst D0.
  assert (w0 = w). { destruct (proj2 HP 0 ltac:(lia)) as (x0 & E0 & _ & R0). destruct (proj2 HP0 0 ltac:(lia)) as (x1 & E1 & _ & R1). assert (x1 = x0) by congruence. subst x1.
    destruct (R0 0 ltac:(lia)) as (r0 & G0 & Z0 & _). destruct (R1 0 ltac:(lia)) as (r1 & G1 & Z1 & _). congruence. } subst w0.
  assert (Hnz : multi k = false -> (1 <= pn)%R \/ forall i t, 0 <= i < n -> 0 <= t < cols i -> nz c (b 0) (v i 0 t)).
  { intros Hm. rewrite Hq in Hpn. cbn in Hpn. subst pn. destruct HZ as [Q|[Q|[Q|Q]]].
    - exfalso. eapply (kind_multi q s0 h0 k P); [rewrite Hq; reflexivity|exact Hm|exact Q].
    - left. exact Q.
    - right. intros i t _ _. unfold nz. rewrite Q. split; intros Z0; [rewrite Z0; ring|]. apply Rmult_integral with (r1 := c) in Z0 as [Z0|Z0] || (assert (Z1 : (c * v i 0 t)%R = 0%R) by lra; apply Rmult_integral in Z1 as [Z1|Z1]; [contradiction|exact Z1]).
    - right. intros i t Hi Ht. destruct (Q i t Hi Ht) as [Q1 Q2]. unfold nz. rewrite <- (Hv i 0 t Hi ltac:(lia) Ht). tauto. }
  assert (Hno : c = 1%R \/ (g_pnorm (q_P q) <= 0)%R) by (rewrite Hpn; exact Hnorm).
  assert (Hrun : rres (units_of c b) (run_fitter RN rng ex q) (run_fitter RN rng ex q')).
  { subst q'. rewrite Hq. unfold run_fitter. cbn [q_kind q_X q_y q_P q_max_channels q_min_len q_X_len]. rewrite Hq in Hno. cbn [q_P] in Hno.
    destruct (pad_nf D n nf w cols v HP Hn Hf Hcw) as [NF NT]. destruct (pad_nf D' n nf w cols v' HP' Hn Hf Hcw) as [NF' NT'].
    assert (EL : zlen D' = zlen D) by (rewrite (proj1 HP), (proj1 HP'); reflexivity). assert (EL' : Datatypes.length D' = Datatypes.length D) by (unfold zlen in EL; lia).
    set (P0 := mkG (e_n_shapelets s) sizes seed pn (fst pc) (snd pc) al (e_phase s) (e_prime s)) in *.
    assert (HFA : multi k = false -> forall i x, 0 <= i < n -> x = points v i 0 (cols i) -> (1 <= g_pnorm P0)%R \/ Forall (nz c (b 0)) x).
    { intros Hm i x Hi ->. destruct (Hnz Hm) as [Q|Q]; [left; exact Q|right]. apply Forall_forall. intros z Hz. unfold points in Hz. apply in_map_iff in Hz as (t & <- & Ht). apply in_zrange in Ht. apply Q; assumption. }
    pose proof (real_plain ex HE) as HPl. pose proof (real_counted ex HE) as HCo.
    destruct k; cbn [multi kind_vl] in *; subst vl.
    - eapply rres_bind; [|intros a a' H; exact H]. apply (U_SL_units c (b 0) Hc0 rng L P0 y Hno ex D D' HPl); [congruence|exact EL'|].
      intros i. eapply rres_impl; [|apply (ch_series_units c b n nf w cols v v' D D' HP HP' Hcw Hv i 0); [apply Hsl; reflexivity|lia]]. intros x x' [E1 (j & Hj & Ej)]. split; [exact E1|]. eapply HFA; eauto.
    - eapply rres_bind; [|intros a a' H; exact H]. apply (M_SL_units c b nf Hc0 rng L P0 y _ Hno ex D D' HCo); [|congruence|exact NF|exact NF'|exact EL'|].
      + rewrite NT. destruct (Hsl eq_refl) as [<- _]. intros l Hl. apply Hsz. exact Hl.
      + intros i ch Hch. eapply rres_impl; [|apply (ch_series_units c b n nf w cols v v' D D' HP HP' Hcw Hv i ch); [apply Hsl; reflexivity|exact Hch]]. intros x x' [E1 _]. exact E1.
    - eapply rres_bind; [|intros a a' H; exact H]. apply (U_VL_units c (b 0) Hc0 rng L P0 y Hno ex D D' _ m HPl); [exact EL|].
      intros i. eapply rres_impl; [|apply (ch_series_vl_units c b n nf w cols v v' D D' HP HP' Hn Hcw Hv i 0); lia]. intros x x' [E1 (j & Hj & Ej)]. split; [exact E1|]. eapply HFA; eauto.
    - eapply rres_bind; [|intros a a' H; exact H]. apply (M_VL_units c b nf Hc0 rng L P0 y _ Hno ex D D' _ m HCo); [|exact NF|exact NF'|exact EL|].
      + intros l Hl. apply Hsz. exact Hl.
      + intros i ch Hch. eapply rres_impl; [|apply (ch_series_vl_units c b n nf w cols v v' D D' HP HP' Hn Hcw Hv i ch); exact Hch]. intros x x' [E1 _]. exact E1. }
  destruct (run_fitter RN rng ex q) as [f|e], (run_fitter RN rng ex q') as [f'|e']; cbn in Hrun; try contradiction; cbn in E, E'; injection E as <- <- <-; injection E' as <- <- <-; [|subst e'; auto].
  split; [reflexivity|]. split; [reflexivity|]. exists s0, f, f'. auto.
Qed.
End F.

(** no normalised shapelet when proba_norm is 0 *)
Lemma fit_flags {S} (rng : Rng R S) {RS} (V : pyenv RS) ex X y s h s' h' n nf cols v vl p : RngLaws RN rng -> real_executor ex -> passes X n nf cols v vl ->
  1 <= n -> 1 <= nf -> zlen y = n -> e_n_samples s = VNone -> (forall k, e_type s = TKind k -> kind_vl k = vl) ->
  (forall i, 0 <= i < n -> 4 <= cols i) -> (vl = true -> forall m, e_min_len s = Some m -> 4 <= m /\ forall i, 0 <= i < n -> m <= cols i) ->
  as_F RN (e_proba_norm s) = Ok p -> (p <= 0)%R ->
  fit RN rng V ex X y s h = (Ok tt, s', h') -> forall f, e_shapelets s' = Some f -> forall j chs vs l d thr nm, shapelet_of f j chs vs l d thr nm -> nm = false.
Proof.
  intros L HE HX Hn Hf Hy Hns Hty H4 Hml Hp Hp0 H f0 Ef0 j chs vs l d thr nm HK. destruct (fit_ok _ _ _ _ _ _ _ _ _ _ _ H) as (q & s1 & f & E1 & E2 & ->).
  assert (f = f0) by (cbn in Ef0; congruence). subst f0. clear Ef0.
  pose proof (pn_of V y s h p Hp _ _ _ _ E1) as Hpn.
  destruct (prepare_facts _ _ _ _ _ _ _ _ _ _ _ _ HX Hn Hf Hy Hns Hty H4 Hml E1) as (k & D & w & m & [Hk Hauto HP Hc Hcp Hmc Hm4 Hsl (sizes & seed & pn & pc & al & Hpc & Hsz & Hq) (S1 & S2 & S3 & S4)]).
  pose proof (run_fitted ex q f HE E2) as HF. rewrite Hq in HF, Hpn. cbn [q_kind q_X q_y q_P q_min_len q_X_len q_max_channels] in HF, Hpn.
  set (P := mkG (e_n_shapelets s) sizes seed pn (fst pc) (snd pc) al (e_phase s) (e_prime s)) in *.
  pose proof (train_ok D n nf w cols v y m k HP Hn Hf Hy Hc Hmc Hm4 ltac:(rewrite Hk; exact Hsl)) as HO. cbv zeta in HO.
  assert (HL : forall m', m' = m -> lengths_ok P m') by (intros m' -> l0 Hl; apply Hsz; exact Hl). rewrite <- Hpn in Hp0. subst vl.
  destruct k; cbn [kind_vl] in HF; destruct HF as (T & Ef & HF); subst f.
  - destruct HO as (O1 & O2 & _). apply shapelet_FU in HK as (u & _ & _ & (_ & _ & _ & _ & HK)).
    eapply (proj1 (C61_normalisation_proportion_ends S rng (TrSL D y) P T L O1 (HL _ O2) HF)); [exact Hp0|]. eapply nthZ_In; exact HK.
  - destruct HO as (O1 & O2 & _). apply shapelet_FM in HK as (nc & _ & _ & _ & _ & HK & _).
    eapply (proj1 (C61_multivariate_normalisation_proportion_ends S rng _ P _ T L O1 (HL _ O2) HF)); [exact Hp0|]. eapply nthZ_In; exact HK.
  - destruct HO as (O1 & O2 & _). apply shapelet_FU in HK as (u & _ & _ & (_ & _ & _ & _ & HK)).
    eapply (proj1 (C61_normalisation_proportion_ends S rng _ P T L O1 (HL _ O2) HF)); [exact Hp0|]. eapply nthZ_In; exact HK.
  - destruct HO as (O1 & O2 & _). apply shapelet_FM in HK as (nc & _ & _ & _ & _ & HK & _).
    eapply (proj1 (C61_multivariate_normalisation_proportion_ends S rng _ P _ T L O1 (HL _ O2) HF)); [exact Hp0|]. eapply nthZ_In; exact HK.
Qed.

(** ** distances and features *)
Section T.
Context (c : R) (b : Z -> R).
Hypothesis Hc0 : c <> 0%R.
Notation f ch := (fun x : R => (c * x + b ch)%R).
Notation g := (Rmult (Rabs c)).

Lemma pt_map ch (x : list R) i : 0 <= i < zlen x -> pt RN (map (f ch) x) i = f ch (pt RN x i).
Proof. intros Hi. unfold pt, nthd. rewrite nthZ_map. rewrite (nthZ_nthd 0%R x) by exact Hi. reflexivity. Qed.

Lemma window_units ph ch (x : list R) l d i : fits ph (zlen x) l d -> 0 <= i < nwin ph (zlen x) l d ->
  window RN ph (map (f ch) x) l d i = map (f ch) (window RN ph x l d i).
Proof.
  intros Hf Hi. unfold window. rewrite map_map, zlen_map. apply map_ext_in. intros j Hj. apply in_zrange in Hj.
  apply pt_map. apply (window_index ph _ l d i j); assumption.
Qed.

Lemma l1_units ch (x y : list R) : zlen y = zlen x -> l1 RN (map (f ch) x) (map (f ch) y) = g (l1 RN x y).
Proof.
  intros E. unfold l1. rewrite !sumF_rsum. rewrite <- rsum_map_scal. rewrite zlen_map. apply rsum_map_ext. intros j Hj. apply in_zrange in Hj. rewrite !pt_map by lia.
  change (Rabs ((c * pt RN x j + b ch) - (c * pt RN y j + b ch)) = Rabs c * Rabs (pt RN x j - pt RN y j))%R. rewrite <- Rabs_mult. f_equal. ring.
Qed.

Lemma mdistances_units ph nm n x x' chs vs l d : (nm = true -> c = 1%R) -> fits ph n l d -> zlen vs = zlen chs -> (forall u, In u vs -> zlen u = l) -> 
  (forall ch, In ch chs -> zlen (nthd [] x ch) = n /\ nthd [] x' ch = map (f ch) (nthd [] x ch)) ->
  mdistances RN ph nm n x' chs (fvs c b nm chs vs) l d = map g (mdistances RN ph nm n x chs vs l d).
Proof.
  intros Hnm Hf Hz Hl H. unfold mdistances. rewrite map_map. apply map_ext_in. intros i Hi. apply in_zrange in Hi. rewrite !sumF_rsum, <- rsum_map_scal.
  assert (0 <= l) by (unfold fits in Hf; destruct ph; lia).
  assert (EC : forall (chs : list Z) (vs : list (list R)), combine chs (map (fun p : Z * list R => fv c (b (fst p)) nm (snd p)) (combine chs vs)) = map (fun p : Z * list R => (fst p, fv c (b (fst p)) nm (snd p))) (combine chs vs)).
  { intros ch0. induction ch0 as [|q ch0 IH]; intros [|v0 vs0]; cbn; try reflexivity. f_equal. apply IH. }
  unfold fvs. rewrite EC, map_map. apply rsum_map_ext. intros [ch u] Hcu. pose proof (in_combine_l _ _ _ _ Hcu) as Hch. pose proof (in_combine_r _ _ _ _ Hcu) as Hu. cbn [fst snd].
  destruct (H ch Hch) as [E1 E2]. rewrite E2, window_units by (rewrite E1; assumption). unfold seen, fv. destruct nm.
  - specialize (Hnm eq_refl). rewrite Hnm, Rabs_R1, Rmult_1_l. f_equal.
    replace (map (fun x0 : R => (1 * x0 + b ch)%R) (window RN ph (nthd [] x ch) l d i)) with (map (fun x0 : R => (x0 + b ch)%R) (window RN ph (nthd [] x ch) l d i)) by (apply map_ext; intros; ring).
    apply zscore_shift.
  - apply l1_units. rewrite zlen_window by assumption. apply Hl. exact Hu.
Qed.

Lemma features_scale (ds : list R) thr m a cnt : is_features RN ds thr (m, a, cnt) ->
  is_features RN (map g ds) (g thr)%R ((if zlen ds =? 0 then m else g m)%R, a, cnt).
Proof.
  assert (K : (0 < Rabs c)%R) by (apply Rabs_pos_lt; exact Hc0).
  intros [(-> & -> & -> & ->)|(k & H1 & -> & H2 & H3 & ->)]; [left; auto|]. right. exists k.
  pose proof (nthZ_range _ _ _ H1). replace (zlen ds =? 0) with false by lia. rewrite nthZ_map, H1. split; [reflexivity|]. split; [reflexivity|].
  split; [|split].
  - intros i x Hx. rewrite nthZ_map in Hx. destruct (nthZ ds i) as [y|] eqn:E; [|discriminate]. injection Hx as <-. specialize (H2 i y E).
    apply Rleb_true in H2. apply Rleb_true. apply Rmult_le_compat_l; lra.
  - intros i x Hx Hi. rewrite nthZ_map in Hx. destruct (nthZ ds i) as [y|] eqn:E; [|discriminate]. injection Hx as <-. specialize (H3 i y E Hi).
    apply Rltb_true in H3. apply Rltb_true. apply Rmult_lt_compat_l; lra.
  - f_equal. clear -K. induction ds as [|x t IH]; [reflexivity|]. cbn [map filter].
    replace (nleb RN (g x)%R (g thr)%R) with (nleb RN x thr). { destruct (nleb RN x thr); [|exact IH]. rewrite !zlen_cons, IH. reflexivity. }
    apply Bool.eq_iff_eq_true. split; intros Q; apply Rleb_true in Q; apply Rleb_true; [apply Rmult_le_compat_l; lra|]. apply (Rmult_le_reg_l (Rabs c)); lra.
Qed.

Lemma units_shapelet F F' j chs vs l d thr nm : units_of c b F F' -> shapelet_of F j chs vs l d thr nm -> shapelet_of F' j chs (fvs c b nm chs vs) l d (g thr)%R nm /\ zlen vs = zlen chs.
Proof.
  intros HU HK. destruct F as [T|T], F' as [T'|T']; try contradiction.
  - apply shapelet_FU in HK as (u & -> & -> & HK). split; [|reflexivity]. cbn [fvs combine map fst snd]. constructor. apply HU. exact HK.
  - apply shapelet_FM in HK. destruct HU as (_ & _ & _ & _ & _ & _ & HU). destruct (HU _ _ _ _ _ _ _ HK) as [A B]. split; [constructor; exact B|exact A].
Qed.

Lemma units_count F F' : units_of c b F F' -> count_of F' = count_of F.
Proof. intros HU. destruct F as [T|T], F' as [T'|T']; try contradiction; destruct HU as (E & _); cbn [count_of]; rewrite E; reflexivity. Qed.

End T.

(** the tables of features *)
Section G.
Context (c : R) (b : Z -> R) (ph : bool) (n nf : Z) (cols : Z -> Z) (v v' : Z -> Z -> Z -> R) (F F' : @Estimator.fitted R) (T T' : list (list R)).
Hypothesis Hc0 : c <> 0%R.
Hypothesis HU : units_of c b F F'.
Hypothesis HT : features_table ph n nf cols v F T.
Hypothesis HT' : features_table ph n nf cols v' F' T'.
Hypothesis Hfit : all_fit ph n cols F.
Hypothesis Hc : forall i, 0 <= i < n -> 0 <= cols i.
Hypothesis Hv : forall i ch t, 0 <= i < n -> 0 <= ch < nf -> 0 <= t < cols i -> v' i ch t = (c * v i ch t + b ch)%R.
Hypothesis HS : forall j chs vs l d thr nm, shapelet_of F j chs vs l d thr nm ->
  (nm = true -> c = 1%R) /\ (forall u, In u vs -> zlen u = l) /\ (forall ch, In ch chs -> 0 <= ch < nf).

Lemma table_units i j : 0 <= i < n -> 0 <= j < count_of F -> exists m a cnt m' l d chs vs thr nm, shapelet_of F j chs vs l d thr nm /\
  cell3 T i j (m, a, cnt) /\ cell3 T' i j (m', a, cnt) /\ m' = (if nwin ph (cols i) l d <=? 0 then m else (Rabs c * m)%R) /\ (nwin ph (cols i) l d <= 0 -> m = (-1)%R).
Proof.
  intros Hi Hj. destruct HT as (A1 & A2 & A3 & A4). destruct HT' as (B1 & B2 & B3 & _). destruct (A4 j Hj) as (chs & vs & l & d & thr & nm & HK).
  destruct (units_shapelet c b F F' j chs vs l d thr nm HU HK) as [HK' Hz]. destruct (HS _ _ _ _ _ _ _ HK) as (Q1 & Q2 & Q3).
  destruct (A3 i j _ _ _ _ _ _ Hi HK) as ([[m a] cnt] & C1 & F1). destruct (B3 i j _ _ _ _ _ _ Hi HK') as (x & C2 & F2).
  rewrite (mdistances_units c b ph nm (cols i) (channels v nf (cols i) i)) in F2; auto.
  2: { eapply Hfit; eauto. }
  2: { intros ch Hch. rewrite !nthd_channels by auto. rewrite zlen_points by auto. split; [reflexivity|]. unfold points. rewrite map_map. apply map_ext_in. intros t Ht. apply in_zrange in Ht. apply Hv; auto. }
  pose proof (features_scale c b Hc0 _ _ _ _ _ F1) as F3. pose proof (is_features_unique _ _ _ _ F2 F3) as ->.
  assert (Zd : forall x0, zlen (mdistances RN ph nm (cols i) x0 chs vs l d) = Z.max 0 (nwin ph (cols i) l d)) by (intros x0; unfold mdistances; rewrite zlen_map, zlen_zrange; f_equal; lia).
  exists m, a, cnt. eexists. exists l, d, chs, vs, thr, nm. split; [exact HK|]. split; [exact C1|]. split; [exact C2|]. rewrite Zd. split.
  - destruct (nwin ph (cols i) l d <=? 0) eqn:E; [replace (Z.max 0 (nwin ph (cols i) l d) =? 0) with true by lia|replace (Z.max 0 (nwin ph (cols i) l d) =? 0) with false by lia]; reflexivity.
  - intros Hw. destruct F1 as [(_ & -> & _)|(k & H1 & _)]; [reflexivity|]. apply nthZ_range in H1. rewrite Zd in H1. lia.
Qed.

Lemma table_shape_units : zlen T' = zlen T /\ forall i r r', nthZ T i = Some r -> nthZ T' i = Some r' -> zlen r = 3 * count_of F /\ zlen r' = 3 * count_of F.
Proof.
  destruct HT as (A1 & A2 & _). destruct HT' as (B1 & B2 & _). rewrite (units_count c b F F' HU) in B2. split; [lia|]. intros i r r' Hr Hr'. split; [eapply A2|eapply B2]; eapply nthZ_In; eauto.
Qed.
End G.
