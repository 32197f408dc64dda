(** Multivariate shapelet generation: the result of a whole run. *)
From Coq Require Import ZArith List Bool Lia Permutation.
From Verif Require Import Prelude Num Kernel Spec KernelProofs Apply ApplyUni ApplyMulti TransformProofs TransformLaws Gen GenSched GenBase GenUni GenULoop GenTrace GenURun
  GenMulti GenMLoop.
Import ListNotations.
Open Scope Z_scope.

Section Put.
Context {F : Type}.
Notation entry := ((Z * Z) * list (list (list bool)) * option (mpick F))%type.

Lemma put_chunk_inv {A} (gs gs' : list (list A)) i v : 0 <= i -> put_chunk gs i v = Ok gs' ->
  zlen gs' = zlen gs /\ (forall j, j <> i -> nthZ gs' j = nthZ gs j) /\ nthZ gs' i = Some v.
Proof.
  intros Hi H. unfold put_chunk, upd_at in H. apply bind_inv in H as (r & Hr & H). apply bind_inv in H as (r' & Hr' & H). apply set_inv in H as (j & Ej & Rj & ->).
  unfold wrap in Ej. destruct (Z.ltb_spec i 0); [lia|]. subst j. rewrite zlen_upd. split; [reflexivity|]. apply bind_inv in Hr' as (u & _ & Hr').
  split; [intros j Hj; rewrite nthZ_upd by exact Rj; destruct (Z.eqb_spec j i); [contradiction|reflexivity]|]. rewrite nthZ_upd by exact Rj. rewrite Z.eqb_refl. congruence.
Qed.

Lemma set_inv_at {A} (l l' : list A) i x : 0 <= i -> set l i x = Ok l' -> zlen l' = zlen l /\ (forall j, j <> i -> nthZ l' j = nthZ l j) /\ nthZ l' i = Some x.
Proof.
  intros Hi H. apply set_inv in H as (j & Ej & Rj & ->). unfold wrap in Ej. destruct (Z.ltb_spec i 0); [lia|]. subst j. rewrite zlen_upd. split; [reflexivity|].
  split; [intros j Hj; rewrite nthZ_upd by exact Rj; destruct (Z.eqb_spec j i); [contradiction|reflexivity]|]. rewrite nthZ_upd by exact Rj. rewrite Z.eqb_refl. reflexivity.
Qed.

Definition same_len (o o' : mout F) : Prop :=
  zlen (out_thr o') = zlen (out_thr o) /\ zlen (out_val o') = zlen (out_val o) /\ zlen (out_chan o') = zlen (out_chan o) /\ zlen (out_ret o') = zlen (out_ret o).
Definition same_at (o o' : mout F) (j : Z) : Prop :=
  nthZ (out_thr o') j = nthZ (out_thr o) j /\ nthZ (out_val o') j = nthZ (out_val o) j /\ nthZ (out_chan o') j = nthZ (out_chan o) j /\ nthZ (out_ret o') j = nthZ (out_ret o) j.
(** what an iteration leaves in the arrays at [i] *)
Definition left_at (w : option (mpick F)) (o o' : mout F) (i : Z) : Prop :=
  match w with
  | None => nthZ (out_ret o') i = Some false /\ nthZ (out_val o') i = nthZ (out_val o) i /\ nthZ (out_chan o') i = nthZ (out_chan o) i /\ nthZ (out_thr o') i = nthZ (out_thr o) i
  | Some pk => nthZ (out_thr o') i = Some (mp_thr pk) /\ nthZ (out_val o') i = Some (mp_v pk) /\ nthZ (out_chan o') i = Some (mp_chs pk) /\
               nthZ (out_ret o') i = nthZ (out_ret o) i
  end.

Lemma m_put_inv i w (o o' : mout F) : 0 <= i -> m_put i w o = Ok o' -> same_len o o' /\ (forall j, j <> i -> same_at o o' j) /\ left_at w o o' i.
Proof.
  intros Hi H. unfold same_len, same_at, left_at. destruct w as [pk|]; cbn [m_put] in H.
  - apply bind_inv in H as (t & Ht & H). apply bind_inv in H as (v & Hv & H). apply bind_inv in H as (c & Hc & H). assert (E : o' = mkMout t v c (out_ret o)) by congruence.
    rewrite E. clear H E. cbn [out_thr out_val out_chan out_ret]. destruct (set_inv_at _ _ _ _ Hi Ht) as (A1 & A2 & A3).
    destruct (put_chunk_inv _ _ _ _ Hi Hv) as (B1 & B2 & B3). destruct (put_chunk_inv _ _ _ _ Hi Hc) as (C1 & C2 & C3). repeat split; auto.
  - apply bind_inv in H as (r & Hr & H). assert (E : o' = mkMout (out_thr o) (out_val o) (out_chan o) r) by congruence. rewrite E. clear H E. cbn [out_thr out_val out_chan out_ret].
    destruct (set_inv_at _ _ _ _ Hi Hr) as (A1 & A2 & A3). repeat split; auto.
Qed.

Lemma puts_m (tr : list entry) : forall (o o' : mout F), NoDup (map snd (map ev tr)) -> Forall (fun t => 0 <= snd (ev t)) tr ->
  puts m_put tr o = Ok o' -> same_len o o' /\
  forall i, match entry_at tr i with Some t => left_at (snd t) o o' i | None => same_at o o' i end.
Proof.
  unfold puts. induction tr as [|t tr IH]; intros o o' HN HF H; cbn [foldM map] in *.
  - assert (o' = o) by congruence. subst. unfold same_len, same_at. cbn. auto.
  - inversion HN as [|? ? Hn HN']; subst. inversion HF as [|? ? Hp HF']; subst. apply bind_inv in H as (o1 & H1 & H).
    destruct (m_put_inv _ _ _ _ Hp H1) as (A1 & A2 & A3). destruct (IH o1 o' HN' HF' H) as (B1 & B2).
    split; [unfold same_len in *; intuition congruence|]. intros i. specialize (B2 i).
    change (entry_at (t :: tr) i) with (if snd (ev t) =? i then Some t else entry_at tr i).
    destruct (Z.eqb_spec (snd (ev t)) i) as [<-|Hne].
    + assert (Hnone : entry_at tr (snd (ev t)) = None).
      { destruct (entry_at tr (snd (ev t))) as [t'|] eqn:E; [|reflexivity]. exfalso. apply entry_at_some in E as [E1 E2]. apply Hn. rewrite <- E2.
        apply in_map, in_map. exact E1. }
      rewrite Hnone in B2. unfold left_at, same_at in *. destruct t as [[e m] [pk|]]; cbn [snd] in *; intuition congruence.
    + assert (A5 := A2 i ltac:(congruence)). unfold left_at, same_at in *. destruct (entry_at tr i) as [[[e m] [pk|]]|]; cbn [snd] in *; intuition congruence.
Qed.

Lemma m_put_comm i j (w w' : option (mpick F)) (o o1 o2 : mout F) : 0 <= i -> 0 <= j -> i <> j ->
  m_put i w o = Ok o1 -> m_put j w' o1 = Ok o2 -> exists o3, m_put j w' o = Ok o3 /\ m_put i w o3 = Ok o2.
Proof.
  intros Hi Hj Hne H1 H2. destruct w as [p|], w' as [q|]; cbn [m_put] in *.
  - apply bind_inv in H1 as (t1 & T1 & H1). apply bind_inv in H1 as (v1 & V1 & H1). apply bind_inv in H1 as (c1 & C1 & H1).
    assert (E : o1 = mkMout t1 v1 c1 (out_ret o)) by congruence. rewrite E in H2. cbn [out_thr out_val out_chan out_ret] in H2.
    apply bind_inv in H2 as (t2 & T2 & H2). apply bind_inv in H2 as (v2 & V2 & H2). apply bind_inv in H2 as (c2 & C2 & H2).
    destruct (set_comm_ok _ i j _ _ _ _ Hi Hj Hne T1 T2) as (t3 & T3 & T4). destruct (upd_at_comm _ i j _ _ _ _ Hi Hj Hne V1 V2) as (v3 & V3 & V4).
    destruct (upd_at_comm _ i j _ _ _ _ Hi Hj Hne C1 C2) as (c3 & C3 & C4).
    exists (mkMout t3 v3 c3 (out_ret o)). unfold put_chunk in *. rewrite T3. cbn [bind]. rewrite V3. cbn [bind]. rewrite C3. cbn [bind out_thr out_val out_chan out_ret].
    rewrite T4. cbn [bind]. rewrite V4. cbn [bind]. rewrite C4. cbn [bind]. auto.
  - apply bind_inv in H1 as (t1 & T1 & H1). apply bind_inv in H1 as (v1 & V1 & H1). apply bind_inv in H1 as (c1 & C1 & H1).
    assert (E : o1 = mkMout t1 v1 c1 (out_ret o)) by congruence. rewrite E in H2. cbn [out_thr out_val out_chan out_ret] in H2.
    apply bind_inv in H2 as (r2 & R2 & H2). rewrite R2. cbn [bind]. eexists. split; [reflexivity|]. cbn [out_thr out_val out_chan out_ret]. rewrite T1. cbn [bind]. rewrite V1. cbn [bind]. rewrite C1. cbn [bind]. exact H2.
  - apply bind_inv in H1 as (r1 & R1 & H1). assert (E : o1 = mkMout (out_thr o) (out_val o) (out_chan o) r1) by congruence. rewrite E in H2. cbn [out_thr out_val out_chan out_ret] in H2.
    apply bind_inv in H2 as (t2 & T2 & H2). apply bind_inv in H2 as (v2 & V2 & H2). apply bind_inv in H2 as (c2 & C2 & H2).
    rewrite T2. cbn [bind]. rewrite V2. cbn [bind]. rewrite C2. cbn [bind]. eexists. split; [reflexivity|]. cbn [out_thr out_val out_chan out_ret]. rewrite R1. cbn [bind]. exact H2.
  - apply bind_inv in H1 as (r1 & R1 & H1). assert (E : o1 = mkMout (out_thr o) (out_val o) (out_chan o) r1) by congruence. rewrite E in H2. cbn [out_thr out_val out_chan out_ret] in H2.
    apply bind_inv in H2 as (r2 & R2 & H2). destruct (set_comm_ok _ i j _ _ _ _ Hi Hj Hne R1 R2) as (r3 & R3 & R4).
    rewrite R3. cbn [bind]. eexists. split; [reflexivity|]. cbn [out_thr out_val out_chan out_ret]. rewrite R4. cbn [bind]. exact H2.
Qed.
End Put.

Lemma nthZ_zmul a b i x y0 : nthZ a i = Some x -> nthZ b i = Some y0 -> nthZ (zmul_list a b) i = Some (x * y0).
Proof.
  revert b i. unfold zmul_list. induction a as [|u a IH]; intros [|v b] i Ha Hb; try (apply nthZ_range in Ha; cbn in Ha; lia); try (apply nthZ_range in Hb; cbn in Hb; lia).
  cbn [combine map fst snd]. rewrite nthZ_cons in *. destruct (i =? 0); [congruence|]. apply IH; assumption.
Qed.

Lemma map_fun_ex {A B} (d : B) (Q : Z -> A -> B -> Prop) (f : Z -> A) n : (forall i, 0 <= i < n -> exists b, Q i (f i) b) -> exists g : Z -> B, forall i, 0 <= i < n -> Q i (f i) (g i).
Proof.
  intros H. destruct (Z_lt_le_dec n 0) as [|Hn]; [exists (fun _ => d); intros; lia|]. revert H. pattern n. apply natlike_ind; [|clear n Hn|exact Hn].
  - intros _. exists (fun _ => d). intros; lia.
  - intros n Hn IH H. destruct IH as (g & Hg); [intros i Hi; apply H; lia|]. destruct (H n ltac:(lia)) as (b & Hb).
    exists (fun i => if i =? n then b else g i). intros i Hi. destruct (Z.eqb_spec i n) as [->|]; [exact Hb|]. apply Hg. lia.
Qed.

Lemma put_chunk_ok {A} (gs : list (list A)) i v k : 0 <= i < zlen gs -> nthZ (map zlen gs) i = Some k -> zlen v = k ->
  exists gs', put_chunk gs i v = Ok gs' /\ map zlen gs' = map zlen gs.
Proof.
  intros Hi Hk Hv. destruct (put_chunk_flat gs i v Hi) as (a & b & _ & _ & E). destruct (put_chunk gs i v) as [gs'|er] eqn:Eg; [exists gs'; tauto|]. exfalso.
  unfold put_chunk, upd_at in Eg. destruct (get_ok gs i Hi) as (g & Hg & Hgn). rewrite Hg in Eg. cbn [bind] in Eg. rewrite nthZ_map, Hgn in Hk. cbn [option_map] in Hk.
  assert (zlen g = k) by congruence. replace (zlen v =? zlen g) with true in Eg by (symmetry; apply Z.eqb_eq; lia). cbn [guard bind] in Eg. rewrite set_ok in Eg by exact Hi. discriminate.
Qed.

Section Out.
Context {F : Type} (N : NumOps F) (dr : drawn) (nch : list Z).
Notation nshp := (zlen (dr_len dr)).

(** the arrays at the beginning of a run *)
Definition out_start : mout F :=
  mkMout (repeat (n0 N) (Z.to_nat nshp)) (map (fun k => repeat (n0 N) (Z.to_nat k)) (zmul_list nch (dr_len dr)))
         (map (fun k => repeat 0 (Z.to_nat k)) nch) (repeat true (Z.to_nat nshp)).

Definition out_shape (o : mout F) : Prop :=
  zlen (out_thr o) = nshp /\ zlen (out_ret o) = nshp /\ map zlen (out_val o) = zmul_list nch (dr_len dr) /\ map zlen (out_chan o) = nch.

Lemma out_start_shape : wf_m dr nch -> (forall i, 0 <= i < nshp -> 1 <= dlen dr i) -> (forall i, 0 <= i < nshp -> 1 <= dnch nch i) -> out_shape out_start.
Proof.
  intros HWM Hdl Hnc.  pose proof HWM as [[W1 W2] W3]. pose proof (zlen_nonneg (dr_len dr)) as HZ0. unfold out_shape, out_start. cbn [out_thr out_val out_chan out_ret]. rewrite !zlen_repeat. split; [lia|]. split; [lia|].
  assert (Q : forall A (x : A) l, (forall k, In k l -> 0 <= k) -> map zlen (map (fun k => repeat x (Z.to_nat k)) l) = l).
  { intros A x l. induction l as [|k l IH]; intros Hl; [reflexivity|]. cbn [map]. rewrite IH by (intros; apply Hl; right; assumption). rewrite zlen_repeat. f_equal. specialize (Hl k (or_introl eq_refl)). lia. }
  split; apply Q.
  - intros k Hk. apply In_nthZ in Hk as (i & Hi). pose proof (nthZ_range _ _ _ Hi) as Ri. rewrite zlen_zmul in Ri by lia.
    rewrite (nthZ_zmul _ _ i (dnch nch i) (dlen dr i)) in Hi by (apply nthZ_nthd; lia). pose proof (Hdl i ltac:(lia)). pose proof (Hnc i ltac:(lia)). assert (k = dnch nch i * dlen dr i) by congruence. nia.
  - intros k Hk. apply In_nthZ in Hk as (i & Hi). pose proof (nthZ_range _ _ _ Hi) as Ri. pose proof (Hnc i ltac:(lia)) as Q1. unfold dnch in Q1. rewrite (nthd_some 0 _ _ _ Hi) in Q1. lia.
Qed.
End Out.

Section Run.
Context {F : Type} (N : NumOps F) {S : Type} (rng : Rng F S).
Context (nsamp nf wd : Z) (nlen : Z -> Z) (srs : Z -> list (list F)) (y : list Z) (P : gparams F) (dr : drawn) (nch : list Z).
Context (localG : Z * Z -> list (list (list bool)) -> G S (list (list (list bool)) * option (mpick F))).
Context (m0 : list (list (list bool))) (rs : Z -> S) (sched : list (Z * Z)).
Notation nshp := (zlen (dr_len dr)).
Notation out0 := (out_start N dr nch).
Notation out_ok := (out_shape dr nch).
Notation ok := (miter_ok N rng nsamp nf wd nlen srs y P dr nch).
Notation asize g i := (alpha_size N (g_alpha P) (dlen dr i) (gmin dr g)).

Hypothesis HWM : wf_m dr nch.
Hypothesis HS : is_schedule (dr_dil dr) sched.
Hypothesis Hm0 : mask_ok3 nsamp nf wd m0.
Hypothesis Hdl : forall i, 0 <= i < nshp -> 1 <= dlen dr i.
Hypothesis Hnc : forall i, 0 <= i < nshp -> 1 <= dnch nch i.

Definition mask0m : list (list (list (list (list bool)))) := repeat (repeat m0 (length (unique (dr_dil dr)))) 2.

Lemma mask0m_event e : In e sched -> part mask0m (dnorm dr (snd e)) (fst e) = Some m0.
Proof.
  intros H. destruct e as [g i]. destruct (sched_event _ _ g i HS H) as [Hg _]. cbn [fst].
  unfold part, mask0m. rewrite nthZ_repeat by (destruct (dnorm dr _); cbn; lia). apply nthZ_repeat. unfold zlen in *. lia.
Qed.

Hypothesis Hloc : forall e m s r, In e sched -> mask_ok3 nsamp nf wd m -> localG e m s = Ok r -> ok e m (fst (fst r)) (snd (fst r)).

Definition blockedM (e : Z * Z) (w : option (mpick F)) (c : Z * Z * Z) : Prop :=
  match w with
  | None => False
  | Some pk => mblocked N nlen P dr (fst e) (snd e) (fst (fst c)) (snd (fst c)) (snd c) pk
  end.

Lemma m_local_cells e m m' w : In e sched -> mask_ok3 nsamp nf wd m -> with_rs rs localG e m = Ok (m', w) ->
  mask_ok3 nsamp nf wd m' /\ forall c, m3cell m' (fst (fst c)) (snd (fst c)) (snd c) = true <-> m3cell m (fst (fst c)) (snd (fst c)) (snd c) = true /\ ~ blockedM e w c.
Proof.
  intros He HM H. unfold with_rs in H. apply bind_inv in H as (r & H1 & H). destruct (Hloc e m _ r He HM H1) as (A & B).
  assert (E : fst r = (m', w)) by congruence. rewrite E in A, B. cbn [fst snd] in A, B. split; [exact A|]. intros [[s c] t]. cbn [fst snd].
  destruct w as [pk|]; cbn [blockedM fst snd] in *; [apply B|]. destruct B as [-> _]. tauto.
Qed.

(** What a run did for each shapelet: the mask it saw, the channels drawn and its choice. *)
Record m_history (o : mout F) (ms : Z -> list (list (list bool))) (chs : Z -> list Z) (pks : Z -> option (mpick F)) : Prop := {
  mh_len : zlen (out_thr o) = nshp /\ zlen (out_val o) = nshp /\ zlen (out_chan o) = nshp /\ zlen (out_ret o) = nshp;
  mh_chs : forall i, 0 <= i < nshp -> channels_ok nf nch i (chs i);
  mh_none : forall i, 0 <= i < nshp -> pks i = None ->
    nthZ (out_ret o) i = Some false /\ (exists v, nthZ (out_val o) i = Some v /\ zlen v = dnch nch i * dlen dr i) /\
    (exists c, nthZ (out_chan o) i = Some c /\ zlen c = dnch nch i) /\
    forall s t, ~ madmissible N nsamp nlen P dr nch i (ms i) (chs i) s t;
  mh_some : forall i pk, 0 <= i < nshp -> pks i = Some pk ->
    nthZ (out_ret o) i = Some true /\ nthZ (out_thr o) i = Some (mp_thr pk) /\ nthZ (out_val o) i = Some (mp_v pk) /\ nthZ (out_chan o) i = Some (mp_chs pk) /\
    chs i = mp_chs pk /\ mpick_ok N rng nsamp nf nlen srs y P dr nch i (ms i) pk;
  mh_mask : forall i s c t, 0 <= i < nshp ->
    m3cell (ms i) s c t = true <-> m3cell m0 s c t = true /\
      forall j pk, 0 <= j < i -> pks j = Some pk -> dnorm dr j = dnorm dr i -> ddil dr j = ddil dr i ->
        forall ml, is_min_len dr i ml ->
        ~ (s = mp_sample pk /\ In c (mp_chs pk) /\ masked_at (mp_index pk) (ddil dr i) (nlen s) (alpha_size N (g_alpha P) (dlen dr j) ml) t)
}.

Lemma m_run_history_run M' o' : foldM (m_step rs localG dr) sched (mask0m, out0) = Ok (M', o') -> exists ms chs pks, m_history o' ms chs pks /\
  forall i, 0 <= i < nshp -> exists g m', In (g, i) sched /\ mask_ok3 nsamp nf wd (ms i) /\ with_rs rs localG (g, i) (ms i) = Ok (m', pks i).
Proof.
  intros H. unfold m_step in H. pose proof HWM as [[W1 W2] W3]. pose proof (zlen_nonneg (dr_len dr)) as HZ0.
  destruct (run_cells (dnorm dr) (with_rs rs localG) m_put (mask_ok3 nsamp nf wd) (fun m c => m3cell m (fst (fst c)) (snd (fst c)) (snd c)) blockedM (dr_dil dr) sched HS)
    with (M := mask0m) (o := out0) (M' := M') (o' := o') (m0 := m0) as (tr & T1 & T2 & T3);
    [intros; eapply m_local_cells; eauto|exact Hm0|apply mask0m_event|exact H|].
  pose proof (sched_shp_NoDup _ _ HS) as HN. rewrite <- T1 in HN.
  assert (HF : Forall (fun t => 0 <= snd (ev t)) tr).
  { apply Forall_forall. intros t Ht. assert (He : In (ev t) sched) by (rewrite <- T1; apply in_map; exact Ht).
    destruct (ev t) as [g i]. apply (sched_event _ _ g i HS) in He. cbn. lia. }
  destruct (puts_m tr out0 o' HN HF T2) as (B1 & B3).
  assert (Z1 : zlen (out_thr out0) = nshp) by (unfold out_start; cbn [out_thr]; rewrite zlen_repeat; lia).
  assert (Z2 : zlen (out_val out0) = nshp) by (unfold out_start; cbn [out_val]; rewrite zlen_map, zlen_zmul; lia).
  assert (Z3 : zlen (out_chan out0) = nshp) by (unfold out_start; cbn [out_chan]; rewrite zlen_map; lia).
  assert (Z4 : zlen (out_ret out0) = nshp) by (unfold out_start; cbn [out_ret]; rewrite zlen_repeat; lia).
  assert (N1 : forall i, 0 <= i < nshp -> nthZ (out_ret out0) i = Some true) by (intros i Hi; apply nthZ_repeat; lia).
  assert (N2 : forall i, 0 <= i < nshp -> exists v, nthZ (out_val out0) i = Some v /\ zlen v = dnch nch i * dlen dr i).
  { intros i Hi. unfold out_start. cbn [out_val]. rewrite nthZ_map, (nthZ_zmul _ _ i (dnch nch i) (dlen dr i)) by (apply nthZ_nthd; lia). cbn [option_map]. eexists. split; [reflexivity|].
    rewrite zlen_repeat. pose proof (Hdl i Hi). pose proof (Hnc i Hi). nia. }
  assert (N3 : forall i, 0 <= i < nshp -> exists c, nthZ (out_chan out0) i = Some c /\ zlen c = dnch nch i).
  { intros i Hi. unfold out_start. cbn [out_chan]. rewrite nthZ_map, (nthZ_nthd 0 nch i) by lia. cbn [option_map]. eexists. split; [reflexivity|]. rewrite zlen_repeat. pose proof (Hnc i Hi). unfold dnch in *. lia. }
  set (ms := fun i => match entry_at tr i with Some t => snd (fst t) | None => m0 end).
  set (pks := fun i => match entry_at tr i with Some t => snd t | None => None end).
  assert (HE : forall i, 0 <= i < nshp -> exists g, entry_at tr i = Some (g, i, ms i, pks i) /\ In (g, i) sched /\ exists m', ok (g, i) (ms i) m' (pks i)).
  { intros i Hi. destruct (entry_at_ex (dr_dil dr) sched HS tr i T1 ltac:(lia)) as (g & t & Ht & Et & Hs).
    unfold ms, pks. rewrite Ht. destruct t as [[e m] w]. unfold ev in Et. cbn [fst] in Et. subst e. exists g. cbn [fst snd]. split; [reflexivity|]. split; [exact Hs|].
    destruct (T3 i _ Ht) as (A & (m' & B) & _). unfold ev in B. cbn [fst snd] in A, B. unfold with_rs in B. apply bind_inv in B as (r & Br & B).
    exists m'. pose proof (Hloc (g, i) m _ r Hs A Br) as HO. assert (E : fst r = (m', w)) by congruence. rewrite E in HO. exact HO. }
  destruct (map_fun_ex (@nil Z) (fun i w chs => channels_ok nf nch i chs /\
     match w with Some pk => chs = mp_chs pk | None => forall s t, ~ madmissible N nsamp nlen P dr nch i (ms i) chs s t end) pks nshp) as (chs & Hchs).
  { intros i Hi. destruct (HE i Hi) as (g & _ & _ & m' & HO). destruct (pks i) as [pk|].
    - destruct HO as (_ & HO & _). exists (mp_chs pk). split; [apply HO|reflexivity].
    - destruct HO as (_ & _ & c & HO1 & HO2). exists c. split; [exact HO1|exact HO2]. }
  exists ms, chs, pks. split; [|intros i Hi; destruct (HE i Hi) as (g & Et & Hs & _); destruct (T3 i _ Et) as (A & (m' & B) & _); unfold ev in B; cbn [fst snd] in A, B; exists g, m'; auto].
  split.
  - unfold same_len in B1. intuition congruence.
  - intros i Hi. apply (Hchs i Hi).
  - intros i Hi Hpk. destruct (HE i Hi) as (g & Et & Hs & m' & HO). specialize (B3 i). rewrite Et, Hpk in B3. cbn [snd left_at] in B3. destruct B3 as (D1 & D2 & D3 & D4).
    rewrite D1, D2, D3. split; [reflexivity|]. split; [apply N2; exact Hi|]. split; [apply N3; exact Hi|]. pose proof (Hchs i Hi) as [_ HC]. rewrite Hpk in HC. exact HC.
  - intros i pk Hi Hpk. destruct (HE i Hi) as (g & Et & Hs & m' & HO). specialize (B3 i). rewrite Et, Hpk in B3. cbn [snd left_at] in B3. destruct B3 as (D1 & D2 & D3 & D4).
    rewrite D1, D2, D3, D4. split; [apply N1; exact Hi|]. split; [reflexivity|]. split; [reflexivity|]. split; [reflexivity|].
    pose proof (Hchs i Hi) as [_ HC]. rewrite Hpk in HC, HO. split; [exact HC|]. destruct HO as (_ & HO & _). exact HO.
  - intros i s c t Hi. destruct (HE i Hi) as (g & Et & Hs & _). destruct (T3 i _ Et) as (_ & _ & HC). cbn [fst snd] in HC.
    rewrite (HC (s, c, t)). cbn [fst snd]. split; intros [X1 X2]; (split; [exact X1|]).
    + intros j pk Hj Hpk Hnm Hd ml Hml. destruct (HE j ltac:(lia)) as (g' & Etj & Hsj & _). rewrite Hpk in Etj.
      specialize (X2 j _ Etj ltac:(lia) Hnm). unfold ev in X2. cbn [fst snd blockedM] in X2. unfold mblocked in X2.
      rewrite <- Hd. assert (Eg : gmin dr g' = ml). { eapply (min_len_unique dr i); [|exact Hml]. eapply is_min_len_dil; [exact Hd|]. apply (gmin_min dr sched); [apply HWM|exact HS|exact Hsj]. }
      rewrite <- Eg. apply X2. unfold ddil in Hd. rewrite !(nthZ_nthd 0) by lia. congruence.
    + intros j t' Hj Hlt Hnm Hd. destruct t' as [[e' mj] [pk|]]; [|cbn; tauto]. pose proof (entry_at_some tr j _ Hj) as [Hin Hej]. unfold ev in Hej. cbn [fst snd] in Hej.
      assert (He' : In e' sched) by (rewrite <- T1; apply in_map_iff; exists (e', mj, Some pk); split; [reflexivity|exact Hin]).
      destruct e' as [g' j']. cbn [snd] in Hej. subst j'. destruct (sched_event _ _ g' j HS He') as [_ Rj].
      assert (Hdd : ddil dr j = ddil dr i) by (unfold ddil, nthd; rewrite Hd; reflexivity).
      unfold ev. cbn [fst snd blockedM]. unfold mblocked. rewrite Hdd. apply (X2 j pk); [lia| |exact Hnm|exact Hdd|].
      * unfold pks. rewrite Hj. reflexivity.
      * eapply is_min_len_dil; [exact Hdd|]. apply (gmin_min dr sched); [apply HWM|exact HS|exact He'].
Qed.

Lemma m_run_history M' o' : foldM (m_step rs localG dr) sched (mask0m, out0) = Ok (M', o') -> exists ms chs pks, m_history o' ms chs pks.
Proof. intros H. destruct (m_run_history_run M' o' H) as (ms & chs & pks & A & _). eauto. Qed.

(** ** Totality *)



Lemma m_put_total e m m' w o : In e sched -> ok e m m' w -> out_ok o -> exists o', m_put (snd e) w o = Ok o' /\ out_ok o'.
Proof.
  intros He HO (Z1 & Z2 & Z3 & Z4). destruct e as [g i]. destruct (sched_event _ _ g i HS He) as [_ Ri]. pose proof HWM as [[W1 W2] W3]. cbn [snd].
  destruct w as [pk|]; cbn [m_put].
  - destruct HO as (_ & HO & _). cbn [snd] in HO. destruct HO as ((C1 & C2 & C3) & HA & Hv & _).
    rewrite set_ok by lia. cbn [bind].
    assert (ZV : zlen (out_val o) = nshp) by (rewrite <- (zlen_map zlen), Z3, zlen_zmul; lia).
    assert (ZC : zlen (out_chan o) = nshp) by (rewrite <- (zlen_map zlen), Z4; lia).
    destruct (put_chunk_ok (out_val o) i (mp_v pk) (dnch nch i * dlen dr i)) as (gs & E1 & L1); [lia|rewrite Z3; apply nthZ_zmul; apply nthZ_nthd; lia| |].
    { rewrite Hv, zlen_concat_val by (apply Hdl; lia). rewrite C1. reflexivity. }
    rewrite E1. cbn [bind]. destruct (put_chunk_ok (out_chan o) i (mp_chs pk) (dnch nch i)) as (cs & E2 & L2); [lia|rewrite Z4; apply nthZ_nthd; lia|exact C1|].
    rewrite E2. cbn [bind]. eexists. split; [reflexivity|]. unfold out_shape. cbn [out_thr out_val out_chan out_ret]. rewrite zlen_upd, L1, L2. auto.
  - rewrite set_ok by lia. cbn [bind]. eexists. split; [reflexivity|]. unfold out_shape. cbn [out_thr out_val out_chan out_ret]. rewrite zlen_upd. auto.
Qed.

Lemma m_run_total : (forall e m s, In e sched -> mask_ok3 nsamp nf wd m -> exists r, localG e m s = Ok r) ->
  exists M' o', foldM (m_step rs localG dr) sched (mask0m, out0) = Ok (M', o').
Proof.
  intros HT. unfold m_step.
  destruct (run_total (dnorm dr) (with_rs rs localG) m_put (mask_ok3 nsamp nf wd) out_ok sched mask0m out0) as (M' & o' & E & _).
  - apply (sched_nonneg _ _ HS).
  - apply out_start_shape; assumption.
  - intros e m He HM. destruct (HT e m (rs (snd e)) He HM) as ([[m' w] s'] & Hr). exists m', w.
    pose proof (Hloc e m _ _ He HM Hr) as HO. cbn [fst snd] in HO. split; [unfold with_rs; rewrite Hr; reflexivity|]. split; [apply HO|].
    intros o Ho. apply (m_put_total e m m' w o He HO Ho).
  - intros e He. exists m0. split; [apply mask0m_event; exact He|exact Hm0].
  - eauto.
Qed.
End Run.

Lemma mask0m_present dr m0 sched e : is_schedule (dr_dil dr) sched -> In e sched -> part (mask0m dr m0) (dnorm dr (snd e)) (fst e) = Some m0.
Proof.
  intros HS H. destruct e as [g i]. destruct (sched_event _ _ g i HS H) as [Hg _]. cbn [fst].
  unfold part, mask0m. rewrite nthZ_repeat by (destruct (dnorm dr _); cbn; lia). apply nthZ_repeat. unfold zlen in *. lia.
Qed.
