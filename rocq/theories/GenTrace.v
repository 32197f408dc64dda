(** The trace of a run of the parallel loop: for each shapelet the part of the mask its iteration found
    and what it chose; the mask is determined by the choices of the earlier shapelets of the
    same dilation and normalisation. *)
From Coq Require Import ZArith List Bool Lia Permutation.
From Verif Require Import Prelude Num Kernel Apply PrimeProofs ChoiceProofs Gen GenSched GenBase.
Import ListNotations.
Open Scope Z_scope.

Lemma incr_split l pre (i : Z) post : incr l -> l = pre ++ i :: post -> forall j, In j l -> (In j pre <-> j < i).
Proof.
  intros H ->. induction pre as [|a t IH]; cbn [app incr In] in *.
  - destruct H as [H _]. intros j [<-|Hj]; [split; [tauto|lia]|]. specialize (H j Hj). split; [tauto|lia].
  - destruct H as [H1 H2]. intros j [->|Hj].
    + split; [intros _|auto]. apply H1. apply in_or_app. right. left. reflexivity.
    + rewrite <- (IH H2 j Hj). split; [|tauto]. intros [->|]; [|assumption]. specialize (H1 j Hj). lia.
Qed.

Lemma filter_filter_and {A} (f g : A -> bool) l : filter f (filter g l) = filter (fun x => g x && f x) l.
Proof. induction l as [|x t IH]; [reflexivity|]. cbn [filter]. destruct (g x); cbn [filter andb]; rewrite ?IH; reflexivity. Qed.

Lemma group_ids_incr dil g : incr (group_ids dil g).
Proof. unfold group_ids. destruct (nthZ (unique dil) g); [apply where_incr|exact I]. Qed.

(** iterations of one part, in order *)
Lemma sched_part_incr dil sched (nrm : Z -> bool) nm g : is_schedule dil sched -> incr (map snd (filter (sel nrm nm g) sched)).
Proof.
  intros H. assert (E : filter (sel nrm nm g) sched = filter (fun e => eqb (nrm (snd e)) nm) (filter (fun e => fst e =? g) sched)).
  { rewrite filter_filter_and. reflexivity. }
  rewrite E, H. pose proof (group_ids_incr dil g) as HI.
  assert (E2 : forall l, map snd (filter (fun e : Z * Z => eqb (nrm (snd e)) nm) (map (fun i => (g, i)) l)) = filter (fun i => eqb (nrm i) nm) l).
  { induction l as [|i t IH]; [reflexivity|]. cbn [map filter snd]. destruct (eqb (nrm i) nm); cbn [map snd]; rewrite IH; reflexivity. }
  rewrite E2. apply incr_filter. exact HI.
Qed.

Section Trace.
Context {MS W Out C : Type}.
Variable nrm : Z -> bool.
Variable local : Z * Z -> MS -> res (MS * W).
Variable put : Z -> W -> Out -> res Out.
Variable inv : MS -> Prop.
Variable cellv : MS -> C -> bool.
Variable blocked : Z * Z -> W -> C -> Prop.
Variable dil : list Z.
Variable sched : list (Z * Z).
Hypothesis HS : is_schedule dil sched.
(** what the iterations of the schedule do to the cells *)
Hypothesis HB : forall e m m' w, In e sched -> inv m -> local e m = Ok (m', w) ->
  inv m' /\ forall c, cellv m' c = true <-> cellv m c = true /\ ~ blocked e w c.

Notation entry := ((Z * Z) * MS * W)%type.

Lemma chain_cells es : (forall e, In e es -> In e sched) -> forall m tr mf, inv m -> chain local es m = Ok (tr, mf) ->
  forall pre t post, tr = pre ++ t :: post ->
    inv (snd (fst t)) /\ (exists m', local (ev t) (snd (fst t)) = Ok (m', snd t)) /\
    forall c, cellv (snd (fst t)) c = true <-> cellv m c = true /\ forall t', In t' pre -> ~ blocked (ev t') (snd t') c.
Proof.
  induction es as [|e es IH]; intros HE m tr mf HI H pre t post E; cbn [chain] in H.
  - assert (Eq : tr = []) by congruence. rewrite Eq in E. destruct pre; discriminate.
  - apply bind_inv in H as ([m' w] & Hl & H). apply bind_inv in H as ([tr' mf'] & H2 & H). cbn [fst snd] in *.
    assert (Eq : (e, m, w) :: tr' = tr) by congruence. rewrite <- Eq in E. clear H Eq tr.
    destruct (HB e m m' w (HE e (or_introl eq_refl)) HI Hl) as [HI' HC].
    destruct pre as [|p pre]; cbn [app] in E; injection E as E1 E2.
    + subst t. cbn [fst snd]. split; [exact HI|]. split; [exists m'; exact Hl|]. intros c. split; [intros Hc; split; [exact Hc|intros t' []]|tauto].
    + destruct (IH (fun e Hin => HE e (or_intror Hin)) m' tr' mf' HI' H2 pre t post E2) as (A & B & D). split; [exact A|]. split; [exact B|].
      intros c. rewrite D, HC. subst p. split.
      * intros [[X1 X2] X3]. split; [exact X1|]. intros t' [<-|Ht']; [exact X2|auto].
      * intros [X1 X2]. split; [split; [exact X1|]|]; [apply (X2 (e, m, w)); left; reflexivity|]. intros t' Ht'. apply X2. right. exact Ht'.
Qed.

(** ** The run *)

Definition entry_at (tr : list entry) (i : Z) : option entry := find (fun t => snd (ev t) =? i) tr.

Lemma entry_at_some (tr : list entry) i t : entry_at tr i = Some t -> In t tr /\ snd (ev t) = i.
Proof. intros H. apply find_some in H as [H1 H2]. apply Z.eqb_eq in H2. auto. Qed.

Lemma entry_at_in (tr : list entry) t : NoDup (map snd (map ev tr)) -> In t tr -> entry_at tr (snd (ev t)) = Some t.
Proof.
  unfold entry_at. induction tr as [|a r IH]; intros HN Hin; [destruct Hin|]. cbn [map] in HN. inversion HN as [|? ? Hn HN']; subst. cbn [find].
  destruct Hin as [->|Hin]; [rewrite Z.eqb_refl; reflexivity|]. destruct (Z.eqb_spec (snd (ev a)) (snd (ev t))) as [E|]; [|apply IH; assumption].
  exfalso. apply Hn. rewrite E. apply in_map, in_map. exact Hin.
Qed.

Lemma entry_at_ex (tr : list entry) i : map ev tr = sched -> 0 <= i < zlen dil ->
  exists g t, entry_at tr i = Some t /\ ev t = (g, i) /\ In (g, i) sched.
Proof.
  intros E Hi. destruct (sched_shapelet dil sched i HS Hi) as (g & Hg & _). pose proof Hg as Hin. rewrite <- E in Hin.
  apply in_map_iff in Hin as (t & Et & Ht). exists g, t. split; [|auto].
  assert (Ei : snd (ev t) = i) by (rewrite Et; reflexivity). rewrite <- Ei. apply entry_at_in; [|exact Ht].
  rewrite E. eapply sched_shp_NoDup. exact HS.
Qed.

Lemma same_group g g' i j d : In (g, i) sched -> In (g', j) sched -> nthZ dil i = Some d -> nthZ dil j = Some d -> g = g'.
Proof.
  intros H1 H2 Hi Hj. apply (sched_in dil sched _ _ HS) in H1, H2. apply group_ids_in in H1 as (d1 & A & B), H2 as (d2 & A' & B').
  assert (d1 = d) by congruence. assert (d2 = d) by congruence. subst. eapply nthZ_inj; eauto. apply unique_NoDup.
Qed.

Lemma group_dil g i : In (g, i) sched -> nthZ dil i = nthZ (unique dil) g.
Proof. intros H. apply (sched_in dil sched _ _ HS) in H. apply group_ids_in in H as (d & A & B). congruence. Qed.

Lemma run_cells M o M' o' m0 : inv m0 -> (forall e, In e sched -> part M (nrm (snd e)) (fst e) = Some m0) ->
  foldM (step nrm local put) sched (M, o) = Ok (M', o') ->
  exists tr, map ev tr = sched /\ puts put tr o = Ok o' /\
    forall i t, entry_at tr i = Some t ->
      inv (snd (fst t)) /\ (exists m', local (ev t) (snd (fst t)) = Ok (m', snd t)) /\
      forall c, cellv (snd (fst t)) c = true <-> cellv m0 c = true /\
        forall j t', entry_at tr j = Some t' -> j < i -> nrm j = nrm i -> nthZ dil j = nthZ dil i -> ~ blocked (ev t') (snd t') c.
Proof.
  intros HI HM H. destruct (run_trace nrm local put sched M o M' o' (sched_nonneg dil sched HS) H) as (tr & T1 & T2 & T3).
  exists tr. split; [exact T1|]. split; [exact T2|]. intros i t Ht. apply entry_at_some in Ht as [Hin Hi].
  assert (Hev : In (ev t) sched) by (rewrite <- T1; apply in_map; exact Hin).
  set (nm := nrm i). set (g := fst (ev t)).
  assert (HP : part M nm g = Some m0) by (unfold nm, g; rewrite <- Hi; apply HM; exact Hev).
  destruct (T3 nm g m0 HP) as (mf & HC & _).
  assert (Hin' : In t (filter (fun t => sel nrm nm g (ev t)) tr)).
  { apply filter_In. split; [exact Hin|]. unfold sel, nm, g. rewrite Z.eqb_refl, Hi, eqb_reflx. reflexivity. }
  destruct (in_split _ _ Hin') as (pre & post & Esp).
  assert (HE : forall e, In e (filter (sel nrm nm g) sched) -> In e sched) by (intros e He; apply filter_In in He; tauto).
  destruct (chain_cells _ HE m0 _ mf HI HC pre t post Esp) as (A & B & D). split; [exact A|]. split; [exact B|].
  intros c. rewrite D. clear D.
  assert (Hinc : incr (map snd (map ev (filter (fun t => sel nrm nm g (ev t)) tr)))).
  { rewrite (chain_events local _ _ _ _ HC). eapply sched_part_incr. exact HS. }
  rewrite Esp in Hinc. rewrite !map_app in Hinc. cbn [map] in Hinc.
  assert (Hpre : forall t', In t' (filter (fun t => sel nrm nm g (ev t)) tr) -> (In t' pre <-> snd (ev t') < i)).
  { intros t' Ht'. pose proof (incr_split _ _ _ _ Hinc eq_refl (snd (ev t'))) as Hs. rewrite Hi in Hs.
    assert (Hin2 : In (snd (ev t')) (map snd (map ev pre) ++ i :: map snd (map ev post))).
    { rewrite Esp in Ht'. apply in_app_or in Ht'. apply in_or_app. destruct Ht' as [Ht'|[<-|Ht']].
      - left. apply in_map, in_map. exact Ht'.
      - right. left. congruence.
      - right. right. apply in_map, in_map. exact Ht'. }
    specialize (Hs Hin2). rewrite <- Hs. split; [intros Hp; apply in_map, in_map; exact Hp|].
    intros Hp. apply in_map_iff in Hp as (e & Ee & Hp). apply in_map_iff in Hp as (t2 & <- & Hp).
    assert (Et2 : t2 = t'); [|rewrite <- Et2; exact Hp]. assert (HN : NoDup (map snd (map ev tr))) by (rewrite T1; eapply sched_shp_NoDup; exact HS).
    assert (Ht2 : In t2 tr). { assert (In t2 (filter (fun t => sel nrm nm g (ev t)) tr)) by (rewrite Esp; apply in_or_app; auto). eapply filter_In; eauto. }
    assert (Ht3 : In t' tr) by (eapply filter_In; eauto).
    pose proof (entry_at_in tr t2 HN Ht2) as Q1. pose proof (entry_at_in tr t' HN Ht3) as Q2. rewrite Ee in Q1. congruence. }
  split; intros [X1 X2]; (split; [exact X1|]).
  - intros j t' Hj Hlt Hn Hd. apply entry_at_some in Hj as [Hj1 Hj2]. apply X2. apply Hpre; [|lia].
    apply filter_In. split; [exact Hj1|]. apply sel_iff. split; [|unfold nm; rewrite Hj2; symmetry; exact Hn].
    assert (He' : In (ev t') sched) by (rewrite <- T1; apply in_map; exact Hj1).
    destruct (ev t) as [g0 i0] eqn:E0. destruct (ev t') as [g1 j1] eqn:E1. cbn [fst snd] in *. subst i0 j1.
    destruct (sched_event dil sched g1 j HS He') as [_ Rj]. destruct (nthZ_some dil j Rj) as (d & Hd').
    unfold g. eapply same_group; eauto; congruence.
  - intros t' Ht'. assert (Hf : In t' (filter (fun t => sel nrm nm g (ev t)) tr)) by (rewrite Esp; apply in_or_app; auto).
    pose proof (proj1 (Hpre t' Hf) Ht') as Hlt. apply filter_In in Hf as [Hf1 Hf2]. apply sel_iff in Hf2 as [Hf2 Hf3].
    assert (He' : In (ev t') sched) by (rewrite <- T1; apply in_map; exact Hf1).
    apply (X2 (snd (ev t'))).
    + apply entry_at_in; [|exact Hf1]. rewrite T1. eapply sched_shp_NoDup. exact HS.
    + exact Hlt.
    + unfold nm in Hf3. symmetry. exact Hf3.
    + destruct (ev t) as [g0 i0] eqn:E0. destruct (ev t') as [g1 j1] eqn:E1. cbn [fst snd] in *. subst i0. unfold g in Hf2. subst g1.
      rewrite (group_dil _ _ He'), (group_dil _ _ Hev). reflexivity.
Qed.

End Trace.

(** ** Two schedules *)
Section Two.
Context {MS W Out : Type}.
Variable nrm : Z -> bool.
Variable local : Z * Z -> MS -> res (MS * W).
Variable put : Z -> W -> Out -> res Out.
Variable dil : list Z.

(** assignments of different shapelets commute *)
Hypothesis put_comm : forall i j w w' o o1 o2, 0 <= i -> 0 <= j -> i <> j -> put i w o = Ok o1 -> put j w' o1 = Ok o2 ->
  exists o3, put j w' o = Ok o3 /\ put i w o3 = Ok o2.

Notation entry := ((Z * Z) * MS * W)%type.

Lemma puts_perm (tr tr' : list entry) : Permutation tr tr' -> NoDup (map snd (map ev tr)) -> Forall (fun t => 0 <= snd (ev t)) tr ->
  forall o o', puts put tr o = Ok o' -> puts put tr' o = Ok o'.
Proof.
  unfold puts. induction 1 as [|t l l' HP IH|a b l|l1 l2 l3 H1 IH1 H2 IH2]; intros HN HF o o' H; cbn [map foldM] in *.
  - exact H.
  - inversion HN; subst. inversion HF; subst. apply bind_inv in H as (o1 & E & H). rewrite E. cbn [bind]. apply IH; assumption.
  - inversion HN as [|? ? Hn HN']; subst. inversion HF as [|? ? F1 HF']; subst. inversion HF' as [|? ? F2 _]; subst.
    apply bind_inv in H as (o1 & E1 & H). apply bind_inv in H as (o2 & E2 & H).
    assert (Hne : snd (ev b) <> snd (ev a)). { intros E. apply Hn. left. congruence. }
    destruct (put_comm _ _ _ _ o o1 o2 F1 F2 Hne E1 E2) as (o3 & E3 & E4). rewrite E3. cbn [bind]. rewrite E4. exact H.
  - apply IH2; [|eapply Permutation_Forall; eauto|].
    + eapply Permutation_NoDup; [|exact HN]. apply Permutation_map, Permutation_map. exact H1.
    + apply IH1; assumption.
Qed.

Lemma in_filter_sel (tr : list entry) t : In t tr <-> In t (filter (fun t' => sel nrm (nrm (snd (ev t))) (fst (ev t)) (ev t')) tr).
Proof.
  split; [|intros H; apply filter_In in H; tauto]. intros H. apply filter_In. split; [exact H|]. unfold sel. rewrite Z.eqb_refl, eqb_reflx. reflexivity.
Qed.

(** the result does not depend on the schedule *)
Lemma two_schedules s1 s2 M o M1 o1 M2 o2 : is_schedule dil s1 -> is_schedule dil s2 ->
  foldM (step nrm local put) s1 (M, o) = Ok (M1, o1) -> foldM (step nrm local put) s2 (M, o) = Ok (M2, o2) ->
  (forall e, In e s1 -> part M (nrm (snd e)) (fst e) <> None) -> o1 = o2.
Proof.
  intros H1 H2 R1 R2 HM.
  destruct (run_trace nrm local put s1 M o M1 o1 (sched_nonneg dil s1 H1) R1) as (t1 & A1 & A2 & A3).
  destruct (run_trace nrm local put s2 M o M2 o2 (sched_nonneg dil s2 H2) R2) as (t2 & B1 & B2 & B3).
  assert (HF : forall nm g, filter (sel nrm nm g) s1 = filter (sel nrm nm g) s2).
  { intros nm g. assert (E : forall s, filter (sel nrm nm g) s = filter (fun e => eqb (nrm (snd e)) nm) (filter (fun e => fst e =? g) s)).
    { intros s. rewrite filter_filter_and. reflexivity. }
    rewrite !E, H1, H2. reflexivity. }
  assert (HT : forall nm g, part M nm g <> None -> filter (fun t => sel nrm nm g (ev t)) t1 = filter (fun t => sel nrm nm g (ev t)) t2).
  { intros nm g Hp. destruct (part M nm g) as [m|] eqn:E; [|congruence]. destruct (A3 nm g m E) as (x & Hx & _). destruct (B3 nm g m E) as (z & Hz & _).
    rewrite HF in Hx. rewrite Hx in Hz. congruence. }
  assert (N1 : NoDup (map snd (map ev t1))) by (rewrite A1; eapply sched_shp_NoDup; exact H1).
  assert (N2 : NoDup (map snd (map ev t2))) by (rewrite B1; eapply sched_shp_NoDup; exact H2).
  assert (HIN : forall e, In e s1 <-> In e s2). { intros [g i]. rewrite (sched_in dil s1 g i H1), (sched_in dil s2 g i H2). reflexivity. }
  assert (HP : Permutation t1 t2).
  { apply NoDup_Permutation; [eapply NoDup_map_inv, NoDup_map_inv; exact N1|eapply NoDup_map_inv, NoDup_map_inv; exact N2|].
    intros t. rewrite (in_filter_sel t1), (in_filter_sel t2).
    destruct (part M (nrm (snd (ev t))) (fst (ev t))) as [m|] eqn:E.
    - rewrite HT by congruence. reflexivity.
    - split; intros Hin; exfalso; rewrite <- in_filter_sel in Hin; apply (HM (ev t)); auto.
      + rewrite <- A1. apply in_map. exact Hin.
      + apply HIN. rewrite <- B1. apply in_map. exact Hin. }
  assert (HF1 : Forall (fun t => 0 <= snd (ev t)) t1).
  { apply Forall_forall. intros t Ht. assert (He : In (ev t) s1) by (rewrite <- A1; apply in_map; exact Ht).
    destruct (ev t) as [g i]. apply (sched_event _ _ g i H1) in He. cbn. lia. }
  apply (puts_perm t1 t2 HP N1 HF1) in A2. congruence.
Qed.
End Two.
