(** Parallel execution of iterations which work on disjoint parts of shared arrays:
    every schedule gives the result of running each part alone. *)
From Coq Require Import ZArith List Bool Lia Permutation.
From Verif Require Import Prelude Num Kernel Apply Gen.
Import ListNotations.
Open Scope Z_scope.

(** ** [upd_at] *)

Lemma get_wrap {A} (l : list A) i x : get l i = Ok x -> 0 <= wrap (zlen l) i < zlen l /\ nthZ l (wrap (zlen l) i) = Some x.
Proof.
  unfold get. destruct (nthZ l (wrap (zlen l) i)) as [z|] eqn:E; [|discriminate]. intros H. injection H as <-.
  split; [eapply nthZ_range; eauto|reflexivity].
Qed.

Lemma set_of_get {A} (l : list A) i x y : get l i = Ok x -> set l i y = Ok (upd l (Z.to_nat (wrap (zlen l) i)) y).
Proof.
  intros H. apply get_wrap in H as [H _]. unfold set.
  destruct (Z.leb_spec 0 (wrap (zlen l) i)), (Z.ltb_spec (wrap (zlen l) i) (zlen l)); try lia. reflexivity.
Qed.

Lemma upd_same {A} (l : list A) j x : nthZ l j = Some x -> upd l (Z.to_nat j) x = l.
Proof.
  intros H. pose proof (nthZ_range _ _ _ H) as R. apply nthZ_ext; [apply zlen_upd|]. intros i _.
  rewrite nthZ_upd by exact R. destruct (Z.eqb_spec i j); [subst; congruence|reflexivity].
Qed.

Lemma set_same {A} (l : list A) i x : get l i = Ok x -> set l i x = Ok l.
Proof. intros H. rewrite (set_of_get l i x x H). apply get_wrap in H as [_ H]. rewrite upd_same by exact H. reflexivity. Qed.

Lemma upd_at_id {A} (l : list A) i x : get l i = Ok x -> upd_at l i Ok = Ok l.
Proof. intros H. unfold upd_at. rewrite H. cbn [bind]. apply (set_same l i x H). Qed.

Lemma get_upd_same {A} (l : list A) i x y : get l i = Ok x -> get (upd l (Z.to_nat (wrap (zlen l) i)) y) i = Ok y.
Proof.
  intros H. apply get_wrap in H as [R _]. unfold get. rewrite zlen_upd, nthZ_upd by exact R. rewrite Z.eqb_refl. reflexivity.
Qed.

Lemma upd_upd {A} (l : list A) n x y : upd (upd l n x) n y = upd l n y.
Proof. revert n. induction l as [|h t IH]; intros [|n]; cbn; auto. rewrite IH. reflexivity. Qed.

Lemma upd_at_fuse {A} (l : list A) i (f g : A -> res A) :
  (let* l' := upd_at l i f in upd_at l' i g) = upd_at l i (fun x => let* y := f x in g y).
Proof.
  unfold upd_at. destruct (get l i) as [x|e] eqn:E; [|reflexivity]. cbn [bind].
  destruct (f x) as [y|e] eqn:Ef; [|reflexivity]. cbn [bind].
  rewrite (set_of_get l i x y E). cbn [bind]. rewrite (get_upd_same l i x y E). cbn [bind].
  destruct (g y) as [w|e] eqn:Eg; [|reflexivity]. cbn [bind].
  rewrite (set_of_get _ i y w (get_upd_same l i x y E)), (set_of_get l i x w E), zlen_upd, upd_upd. reflexivity.
Qed.

Lemma upd_at_ext {A} (l : list A) i (f g : A -> res A) : (forall x, get l i = Ok x -> f x = g x) -> upd_at l i f = upd_at l i g.
Proof. intros H. unfold upd_at. destruct (get l i) as [x|e]; [|reflexivity]. cbn [bind]. rewrite H; reflexivity. Qed.

(** a loop of updates of one element is an update by the loop *)
Lemma foldM_upd_at {A B} (f : A -> B -> res A) (bs : list B) (l : list A) i x : get l i = Ok x ->
  foldM (fun l b => upd_at l i (fun y => f y b)) bs l = upd_at l i (fun y => foldM f bs y).
Proof.
  revert l x. induction bs as [|b t IH]; intros l x H; cbn [foldM].
  - symmetry. apply (upd_at_id l i x H).
  - rewrite <- (upd_at_fuse l i (fun y => f y b) (fun y => foldM f t y)).
    destruct (upd_at l i (fun y => f y b)) as [l'|e] eqn:E; [|reflexivity]. cbn [bind].
    unfold upd_at in E. rewrite H in E. cbn [bind] in E. destruct (f x b) as [y|e] eqn:Ef; [|discriminate]. cbn [bind] in E.
    rewrite (set_of_get l i x y H) in E. injection E as <-. apply (IH _ y). apply (get_upd_same l i x y H).
Qed.

(** ** Schedules *)

Section Sched.
Context {MS W Out : Type}.
Variable nrm : Z -> bool.
(** the work of iteration [e = (i_d, i_shp)] on its part of the mask *)
Variable local : Z * Z -> MS -> res (MS * W).
(** the assignments to the result arrays *)
Variable put : Z -> W -> Out -> res Out.

Definition step (st : list (list MS) * Out) (e : Z * Z) : res (list (list MS) * Out) :=
  let* m := (let* m1 := get (fst st) (b2z (nrm (snd e))) in get m1 (fst e)) in
  let* q := local e m in
  let* M' := upd_at (fst st) (b2z (nrm (snd e))) (fun m1 => set m1 (fst e) (fst q)) in
  let* o' := put (snd e) (snd q) (snd st) in
  Ok (M', o').

(** one part of the mask *)
Definition part (M : list (list MS)) (nm : bool) (g : Z) : option MS :=
  match nthZ M (b2z nm) with Some m1 => nthZ m1 g | None => None end.

(** iterations of one part, run alone; the trace shows the part before each iteration *)
Definition entry : Type := ((Z * Z) * MS * W)%type.
Fixpoint chain (es : list (Z * Z)) (m : MS) : res (list entry * MS) :=
  match es with
  | [] => Ok ([], m)
  | e :: t => let* q := local e m in
              let* r := chain t (fst q) in
              Ok ((e, m, snd q) :: fst r, snd r)
  end.

Definition sel (nm : bool) (g : Z) (e : Z * Z) : bool := (fst e =? g) && eqb (nrm (snd e)) nm.
Definition ev (t : entry) : Z * Z := fst (fst t).

Definition puts (tr : list entry) (o : Out) : res Out := foldM (fun o t => put (snd (ev t)) (snd t) o) tr o.

Lemma b2z_nonneg b : 0 <= b2z b.
Proof. destruct b; cbn; lia. Qed.
Lemma b2z_inj b c : b2z b = b2z c -> b = c.
Proof. destruct b, c; cbn; congruence. Qed.

Lemma part_set M nm g m m' : 0 <= g -> part M nm g = Some m ->
  exists M', upd_at M (b2z nm) (fun m1 => set m1 g m') = Ok M' /\
    forall nm2 g2, part M' nm2 g2 = if (g2 =? g) && eqb nm2 nm then Some m' else part M nm2 g2.
Proof.
  intros Hg Hp. unfold part in Hp. destruct (nthZ M (b2z nm)) as [m1|] eqn:E; [|discriminate].
  pose proof (nthZ_range _ _ _ E) as R. pose proof (nthZ_range _ _ _ Hp) as R2.
  unfold upd_at. rewrite (proj2 (get_nthZ M (b2z nm) m1 (b2z_nonneg nm)) E). cbn [bind].
  rewrite (set_ok m1 g) by exact R2. cbn [bind]. rewrite set_ok by exact R. eexists. split; [reflexivity|].
  intros nm2 g2. unfold part. rewrite nthZ_upd by exact R.
  destruct (Z.eqb_spec (b2z nm2) (b2z nm)) as [E2|E2].
  - apply b2z_inj in E2. subst nm2. rewrite nthZ_upd by exact R2. rewrite eqb_reflx, andb_true_r, E. reflexivity.
  - assert (eqb nm2 nm = false) as -> by (apply eqb_false_iff; congruence). rewrite andb_false_r. reflexivity.
Qed.

Lemma step_inv M o e M' o' : 0 <= fst e -> step (M, o) e = Ok (M', o') ->
  exists m m' w, part M (nrm (snd e)) (fst e) = Some m /\ local e m = Ok (m', w) /\ put (snd e) w o = Ok o' /\
    forall nm g, part M' nm g = if (g =? fst e) && eqb nm (nrm (snd e)) then Some m' else part M nm g.
Proof.
  intros He H. unfold step in H. cbn [fst snd] in H. apply bind_inv in H as (m & Hm & H).
  apply bind_inv in H as ([m' w] & Hl & H). apply bind_inv in H as (M2 & Hu & H). apply bind_inv in H as (o2 & Hp & H).
  assert (Hq : (M2, o2) = (M', o')) by congruence. inversion Hq; subst M2 o2. clear H Hq. cbn [fst snd] in *.
  apply bind_inv in Hm as (m1 & H1 & H2). apply get_nthZ in H1; [|apply b2z_nonneg]. apply get_nthZ in H2; [|exact He].
  assert (HP : part M (nrm (snd e)) (fst e) = Some m) by (unfold part; rewrite H1; exact H2).
  destruct (part_set M _ _ m m' He HP) as (M2 & E2 & Hall). rewrite E2 in Hu. injection Hu as <-.
  exists m, m', w. auto.
Qed.

Lemma step_ok M o e m m' w o' : 0 <= fst e -> part M (nrm (snd e)) (fst e) = Some m -> local e m = Ok (m', w) ->
  put (snd e) w o = Ok o' ->
  exists M', step (M, o) e = Ok (M', o') /\
    forall nm g, part M' nm g = if (g =? fst e) && eqb nm (nrm (snd e)) then Some m' else part M nm g.
Proof.
  intros He Hm Hl Hp. destruct (part_set M _ _ m m' He Hm) as (M' & E & Hall). exists M'. split; [|exact Hall].
  unfold step. cbn [fst snd]. unfold part in Hm. destruct (nthZ M (b2z (nrm (snd e)))) as [m1|] eqn:E1; [|discriminate].
  rewrite (proj2 (get_nthZ M _ m1 (b2z_nonneg _)) E1). cbn [bind].
  rewrite (proj2 (get_nthZ m1 _ m He) Hm). cbn [bind]. rewrite Hl. cbn [bind fst snd]. rewrite E. cbn [bind]. rewrite Hp. reflexivity.
Qed.

Lemma sel_self e : sel (nrm (snd e)) (fst e) e = true.
Proof. unfold sel. rewrite Z.eqb_refl, eqb_reflx. reflexivity. Qed.

Lemma sel_iff nm g e : sel nm g e = true <-> g = fst e /\ nm = nrm (snd e).
Proof.
  unfold sel. rewrite andb_true_iff, Z.eqb_eq, eqb_true_iff. split; intros [A B]; split; congruence.
Qed.

(** A run of a schedule is, part by part, the run of the iterations of that part. *)
Lemma run_trace sched : forall M o M' o', Forall (fun e => 0 <= fst e) sched -> foldM step sched (M, o) = Ok (M', o') ->
  exists tr, map ev tr = sched /\ puts tr o = Ok o' /\
    forall nm g m, part M nm g = Some m ->
      exists m', chain (filter (sel nm g) sched) m = Ok (filter (fun t => sel nm g (ev t)) tr, m') /\ part M' nm g = Some m'.
Proof.
  induction sched as [|e t IH]; intros M o M' o' HF H; cbn [foldM] in H.
  - injection H as <- <-. exists []. split; [reflexivity|]. split; [reflexivity|]. intros nm g m Hm. exists m. split; [reflexivity|exact Hm].
  - inversion HF as [|? ? He HF']; subst. apply bind_inv in H as ([M1 o1] & H1 & H).
    destruct (step_inv M o e M1 o1 He H1) as (m & m' & w & A & B & C & D).
    destruct (IH M1 o1 M' o' HF' H) as (tr & T1 & T2 & T3).
    exists ((e, m, w) :: tr). split; [cbn [map]; f_equal; exact T1|]. split.
    { unfold puts in *. cbn [foldM snd ev fst]. change (ev (e, m, w)) with e. rewrite C. cbn [bind]. exact T2. }
    intros nm g m0 Hm0. cbn [filter]. change (ev (e, m, w)) with e. destruct (sel nm g e) eqn:Es.
    + apply sel_iff in Es as [-> ->]. assert (m0 = m) as -> by congruence.
      destruct (T3 (nrm (snd e)) (fst e) m') as (mf & F1 & F2). { rewrite D, Z.eqb_refl, eqb_reflx. reflexivity. }
      exists mf. split; [|exact F2]. cbn [chain]. rewrite B. cbn [bind fst snd]. rewrite F1. reflexivity.
    + apply T3. rewrite D. unfold sel in Es. destruct (Z.eqb_spec g (fst e)) as [->|Hg]; [|exact Hm0].
      rewrite Z.eqb_refl in Es. cbn [andb] in Es. apply eqb_false_iff in Es.
      assert (eqb nm (nrm (snd e)) = false) as -> by (apply eqb_false_iff; congruence). exact Hm0.
Qed.

(** It succeeds when every iteration does, on parts and results that satisfy an invariant. *)
Lemma run_total (inv : MS -> Prop) (PO : Out -> Prop) sched : forall M o,
  Forall (fun e => 0 <= fst e) sched -> PO o ->
  (forall e m, In e sched -> inv m -> exists m' w, local e m = Ok (m', w) /\ inv m' /\ forall o, PO o -> exists o', put (snd e) w o = Ok o' /\ PO o') ->
  (forall e, In e sched -> exists m, part M (nrm (snd e)) (fst e) = Some m /\ inv m) ->
  exists M' o', foldM step sched (M, o) = Ok (M', o') /\ PO o'.
Proof.
  induction sched as [|e t IH]; intros M o HF HO HL HE; cbn [foldM]; [eauto|].
  inversion HF as [|? ? He HF']; subst. destruct (HE e (or_introl eq_refl)) as (m & Em & Hm).
  destruct (HL e m (or_introl eq_refl) Hm) as (m' & w & Hl & Hm' & Hp). destruct (Hp o HO) as (o' & Ho & HO').
  destruct (step_ok M o e m m' w o' He Em Hl Ho) as (M' & E & Hall). rewrite E. cbn [bind]. apply IH; auto.
  - intros e' m2 Hin. apply HL. right. exact Hin.
  - intros e' Hin. rewrite Hall. destruct ((fst e' =? fst e) && eqb (nrm (snd e')) (nrm (snd e))); [eauto|]. apply HE. right. exact Hin.
Qed.

(** ** Chains *)

Lemma chain_events es : forall m tr mf, chain es m = Ok (tr, mf) -> map ev tr = es.
Proof.
  induction es as [|e t IH]; intros m tr mf H; cbn [chain] in H.
  - injection H as <- <-. reflexivity.
  - apply bind_inv in H as ([m' w] & _ & H). apply bind_inv in H as ([tr' mf'] & H2 & H). cbn [fst snd] in *.
    assert (Eq : (e, m, w) :: tr' = tr) by congruence. subst tr. cbn [map]. change (ev (e, m, w)) with e. f_equal. eapply IH; eauto.
Qed.

Lemma chain_inv (P : MS -> Prop) es : (forall e m m' w, In e es -> P m -> local e m = Ok (m', w) -> P m') ->
  forall m tr mf, P m -> chain es m = Ok (tr, mf) ->
  P mf /\ Forall (fun t => P (snd (fst t)) /\ exists m', local (ev t) (snd (fst t)) = Ok (m', snd t)) tr.
Proof.
  induction es as [|e t IH]; intros HI m tr mf HP H; cbn [chain] in H.
  - injection H as <- <-. auto.
  - apply bind_inv in H as ([m' w] & Hl & H). apply bind_inv in H as ([tr' mf'] & H2 & H). cbn [fst snd] in *.
    assert (Eq : (e, m, w) :: tr' = tr /\ mf' = mf) by (split; congruence). destruct Eq as [<- <-].
    destruct (IH (fun e m m' w Hin => HI e m m' w (or_intror Hin)) m' tr' mf') as [A B]; auto.
    { apply (HI e m m' w); auto. left. reflexivity. }
    split; [exact A|]. constructor; [|exact B]. split; [exact HP|]. exists m'. exact Hl.
Qed.

(** Two iterations of the same part: the later one sees the part as left by the earlier one, further changed. *)
Lemma chain_pairs (R : MS -> MS -> Prop) (R_refl : forall m, R m m) (R_trans : forall a b c, R a b -> R b c -> R a c)
  (R_local : forall e m m' w, local e m = Ok (m', w) -> R m m') es :
  forall m tr mf, chain es m = Ok (tr, mf) -> Forall (fun t => R m (snd (fst t))) tr /\ R m mf /\
    forall pre t1 mid t2 post, tr = pre ++ t1 :: mid ++ t2 :: post ->
      exists m1, local (ev t1) (snd (fst t1)) = Ok (m1, snd t1) /\ R m1 (snd (fst t2)).
Proof.
  induction es as [|e t IH]; intros m tr mf H; cbn [chain] in H.
  - injection H as <- <-. split; [constructor|]. split; [apply R_refl|]. intros pre t1 mid t2 post E. destruct pre; discriminate.
  - apply bind_inv in H as ([m' w] & Hl & H). apply bind_inv in H as ([tr' mf'] & H2 & H). cbn [fst snd] in *.
    assert (Eq : (e, m, w) :: tr' = tr /\ mf' = mf) by (split; congruence). destruct Eq as [<- <-].
    destruct (IH m' tr' mf' H2) as (A & B & C). pose proof (R_local e m m' w Hl) as HR. split.
    { constructor; [apply R_refl|]. eapply Forall_impl; [|exact A]. intros a Ha. eapply R_trans; eauto. }
    split; [eapply R_trans; eauto|]. intros pre t1 mid t2 post E. destruct pre as [|p pre]; cbn [app] in E; injection E as E1 E2.
    + subst t1 tr'. exists m'. split; [exact Hl|]. apply Forall_elt in A. exact A.
    + eapply C; eauto.
Qed.

End Sched.

(** ** Traces of two schedules *)

Lemma filter_all_in {A} (f : A -> bool) l x : In x l -> f x = true -> In x (filter f l).
Proof. intros. apply filter_In. auto. Qed.

(** ** Sequential execution is a schedule *)

Lemma filter_map_pair g g' (l : list Z) : filter (fun e : Z * Z => fst e =? g) (map (fun i => (g', i)) l) =
  if g' =? g then map (fun i => (g', i)) l else [].
Proof.
  induction l as [|i t IH]; cbn [map filter fst]; [destruct (g' =? g); reflexivity|]. rewrite IH. destruct (g' =? g); reflexivity.
Qed.

Lemma filter_concat {A} (f : A -> bool) (ls : list (list A)) : filter f (concat ls) = concat (map (filter f) ls).
Proof. induction ls as [|l t IH]; [reflexivity|]. cbn [concat map]. rewrite filter_app, IH. reflexivity. Qed.

Lemma seq_sched_ok dil : is_schedule dil (seq_sched dil).
Proof.
  intros g. unfold seq_sched. rewrite filter_concat, map_map.
  rewrite (map_ext _ (fun i_d => if i_d =? g then map (fun i => (i_d, i)) (group_ids dil i_d) else [])) by (intros; apply filter_map_pair).
  assert (HR : forall a b, concat (map (fun i_d => if i_d =? g then map (fun i => (i_d, i)) (group_ids dil i_d) else []) (zrange a b)) =
     if (a <=? g) && (g <? b) then map (fun i => (g, i)) (group_ids dil g) else []).
  { intros a b. remember (Z.to_nat (b - a)) as n eqn:En. revert a b En. induction n as [|n IH]; intros a b En.
    - rewrite zrange_empty by lia. cbn. destruct (Z.leb_spec a g), (Z.ltb_spec g b); try reflexivity; lia.
    - rewrite zrange_cons by lia. cbn [map concat]. rewrite IH by lia.
      destruct (Z.eqb_spec a g) as [->|Hne].
      + destruct (Z.leb_spec (g + 1) g); [lia|]. cbn [andb]. rewrite app_nil_r.
        destruct (Z.leb_spec g g), (Z.ltb_spec g b); try reflexivity; lia.
      + cbn [app]. destruct (Z.leb_spec (a + 1) g), (Z.leb_spec a g), (Z.ltb_spec g b); try reflexivity; lia. }
  rewrite HR. destruct (Z.leb_spec 0 g), (Z.ltb_spec g (zlen (unique dil))); cbn [andb]; try reflexivity;
  unfold group_ids; destruct (nthZ (unique dil) g) eqn:E; try reflexivity; apply nthZ_range in E; lia.
Qed.

(** the events of a schedule *)
Lemma sched_in dil sched g i : is_schedule dil sched -> In (g, i) sched <-> In i (group_ids dil g).
Proof.
  intros H. specialize (H g). split; intros Hin.
  - assert (Hf : In (g, i) (filter (fun e => fst e =? g) sched)) by (apply filter_In; split; [exact Hin|cbn; apply Z.eqb_refl]).
    rewrite H in Hf. apply in_map_iff in Hf as (j & E & Hj). congruence.
  - assert (Hf : In (g, i) (filter (fun e => fst e =? g) sched)). { rewrite H. apply in_map_iff. eauto. }
    apply filter_In in Hf. tauto.
Qed.

Lemma group_ids_in dil g i : In i (group_ids dil g) <->
  exists d, nthZ (unique dil) g = Some d /\ nthZ dil i = Some d.
Proof.
  unfold group_ids. destruct (nthZ (unique dil) g) as [d|] eqn:E.
  - rewrite in_where, nthZ_map. split.
    + destruct (nthZ dil i) as [d'|] eqn:E2; [|discriminate]. cbn. intros H. exists d. split; [reflexivity|].
      assert (Hd : (d =? d') = true) by congruence. apply Z.eqb_eq in Hd. congruence.
    + intros (d' & H1 & H2). assert (d' = d) by congruence. subst. rewrite H2. cbn. rewrite Z.eqb_refl. reflexivity.
  - split; [intros []|]. intros (d & H & _). discriminate.
Qed.

Lemma nthZ_inj {A} (l : list A) i j x : NoDup l -> nthZ l i = Some x -> nthZ l j = Some x -> i = j.
Proof.
  intros HN Hi Hj. pose proof (nthZ_range _ _ _ Hi) as Ri. pose proof (nthZ_range _ _ _ Hj) as Rj.
  unfold nthZ in Hi, Hj. destruct (Z.ltb_spec i 0); [lia|]. destruct (Z.ltb_spec j 0); [lia|].
  assert (E : Z.to_nat i = Z.to_nat j). { eapply NoDup_nth_error; eauto. unfold zlen in Ri. lia. congruence. }
  lia.
Qed.

(** every shapelet is in exactly one group *)
Lemma sched_shapelet dil sched i : is_schedule dil sched -> 0 <= i < zlen dil ->
  exists g, In (g, i) sched /\ 0 <= g < zlen (unique dil).
Proof.
  intros H Hi. destruct (nthZ_some dil i Hi) as (d & Hd). pose proof (nthZ_In _ _ _ Hd) as Hin.
  apply in_unique in Hin. apply In_nthZ in Hin as (g & Hg). exists g. split; [|eapply nthZ_range; eauto].
  apply (sched_in dil sched g i H). apply group_ids_in. eauto.
Qed.

Lemma sched_event dil sched g i : is_schedule dil sched -> In (g, i) sched -> 0 <= g < zlen (unique dil) /\ 0 <= i < zlen dil.
Proof.
  intros H Hin. apply (sched_in dil sched g i H) in Hin. apply group_ids_in in Hin as (d & H1 & H2).
  split; eapply nthZ_range; eauto.
Qed.

Lemma sched_group_unique dil sched g g' i : is_schedule dil sched -> In (g, i) sched -> In (g', i) sched -> g = g'.
Proof.
  intros H H1 H2. apply (sched_in dil sched _ i H) in H1, H2. apply group_ids_in in H1 as (d & A & B), H2 as (d' & A' & B').
  assert (d' = d) by congruence. subst. eapply nthZ_inj; eauto. apply unique_NoDup.
Qed.

Lemma group_ids_NoDup dil g : NoDup (group_ids dil g).
Proof. unfold group_ids. destruct (nthZ (unique dil) g); [apply where_NoDup|constructor]. Qed.

Lemma NoDup_filters {A} (key : A -> Z) (l : list A) : (forall g, NoDup (filter (fun e => key e =? g) l)) -> NoDup l.
Proof.
  induction l as [|x t IH]; intros H; [constructor|]. constructor.
  - intros Hin. specialize (H (key x)). cbn [filter] in H. rewrite Z.eqb_refl in H. inversion H as [|? ? Hn _]; subst. apply Hn.
    apply filter_In. split; [exact Hin|apply Z.eqb_refl].
  - apply IH. intros g. specialize (H g). cbn [filter] in H. destruct (key x =? g); [inversion H; assumption|exact H].
Qed.

Lemma sched_NoDup dil sched : is_schedule dil sched -> NoDup sched.
Proof.
  intros H. apply (NoDup_filters fst). intros g. rewrite H. apply FinFun.Injective_map_NoDup; [|apply group_ids_NoDup].
  intros a b E. congruence.
Qed.

Lemma sched_shp_NoDup dil sched : is_schedule dil sched -> NoDup (map snd sched).
Proof.
  intros H. pose proof (sched_NoDup dil sched H) as HN.
  assert (HI : forall g g' i, In (g, i) sched -> In (g', i) sched -> g = g') by (intros; eapply sched_group_unique; eauto).
  clear H. induction sched as [|[g i] t IH]; [constructor|]. inversion HN as [|? ? Hn HN']; subst. cbn [map snd]. constructor.
  - intros Hin. apply in_map_iff in Hin as ([g' i'] & E & Hin'). cbn in E. subst i'.
    assert (g' = g) by (eapply HI; [right; exact Hin'|left; reflexivity]). subst. contradiction.
  - apply IH; auto. intros a b c H1 H2. eapply HI; right; eauto.
Qed.

Lemma sched_nonneg dil sched : is_schedule dil sched -> Forall (fun e : Z * Z => 0 <= fst e) sched.
Proof. intros H. apply Forall_forall. intros [g i] Hin. cbn. apply (sched_event dil sched g i H) in Hin. lia. Qed.

(** a sequential execution is a parallel one *)
Lemma foldG_sched {S ST} (iter : ST -> Z * Z -> G S ST) (sched : list (Z * Z)) : NoDup (map snd sched) -> forall st s st' s',
  foldG iter sched st s = Ok (st', s') -> exists rs, run_sched iter rs sched st = Ok st'.
Proof.
  intros HN. induction sched as [|e t IH]; intros st s st' s' H; cbn [foldG] in H.
  - unfold retG in H. injection H as <- <-. exists (fun _ => s). reflexivity.
  - unfold bindG in H. apply bind_inv in H as ([st1 s1] & H1 & H). cbn [fst snd] in H. cbn [map] in HN. inversion HN as [|? ? Hn HN']; subst.
    destruct (IH HN' st1 s1 st' s' H) as (rs & Hrs). exists (fun i => if i =? snd e then s else rs i).
    unfold run_sched in *. cbn [foldM]. rewrite Z.eqb_refl, H1. cbn [bind fst]. rewrite <- Hrs. apply foldM_ext.
    intros x e' Hin. destruct (Z.eqb_spec (snd e') (snd e)) as [E|]; [|reflexivity].
    exfalso. apply Hn. rewrite <- E. apply in_map. exact Hin.
Qed.
