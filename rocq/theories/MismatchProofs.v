(** What transform does on data with another number of features than the model was fitted on. *)
From Coq Require Import ZArith List Bool Lia.
From Verif Require Import Prelude Num Kernel Spec KernelProofs CombProofs Parallel Apply ApplyProofs ApplyUni ApplyMulti TransformProofs.
Import ListNotations.
Open Scope Z_scope.

Lemma mapM_inv {A B} (f : A -> res B) l ys x : mapM f l = Ok ys -> In x l -> exists y, f x = Ok y.
Proof.
  intros H Hx. apply mapM_Forall2 in H. induction H; [destruct Hx|]. destruct Hx as [<-|Hx]; eauto.
Qed.

Section A.
Context {F ST : Type} (strides_of : Z -> Z -> Z -> res ST) (norm_strides : ST -> ST)
  (one : ST -> Z -> Z -> res (F * F * F)).

Lemma apply_tasks_inv ls ds nm n ts : zlen ls = zlen ds -> zlen nm = zlen ls ->
  apply_tasks strides_of norm_strides one ls ds nm n = Ok ts ->
  forall i k l d b, 0 <= i < n -> nthZ ls k = Some l -> nthZ ds k = Some d -> nthZ nm k = Some b ->
  exists st f, strides_of i l d = Ok st /\ one (if b then norm_strides st else st) k l = Ok f.
Proof.
  intros HL HN H i k l d b Hi Hl Hd Hb. unfold apply_tasks in H.
  destruct (group_shapelets_ok ls ds HL) as (rest & E). rewrite E in H. cbn [bind] in H.
  set (ps := dedup (combine ls ds)) in *.
  assert (Hin : In (l, d) ps).
  { apply in_dedup. apply (nthZ_In _ k). rewrite nthZ_combine, Hl, Hd. reflexivity. }
  destruct (In_nthZ _ _ Hin) as (j & Hj). pose proof (nthZ_range _ _ _ Hj) as Hjr.
  eapply mapM_inv with (x := (i, j)) in H.
  2:{ apply in_flat_map. exists i. split; [apply in_zrange; exact Hi|]. apply in_map. apply in_zrange.
      rewrite zlen_cumsum, zlen_cons, zlen_map. lia. }
  destruct H as (ws & H). cbn [fst snd] in H. unfold apply_task in H.
  rewrite (proj2 (get_nthZ ps j (l, d) ltac:(lia))) in H by exact Hj. cbn [bind] in H.
  apply bind_inv in H as (st & Hst & H).
  destruct (group_slice ls ds ps rest j (l, d) HL Hj) as (a & b' & Ga & Gb & Gs). rewrite Ga, Gb in H. cbn [bind] in H.
  rewrite Gs in H. clear Ga Gb Gs. set (ix := ix_of ls ds (l, d)) in *.
  assert (Hflags : mapM (get nm) ix = Ok (map (nthd false nm) ix)).
  { apply mapM_ok. intros q Hq. apply get_nthd. apply in_ix_of in Hq as [Hq _]; [|exact HL]. apply nthZ_range in Hq. lia. }
  rewrite Hflags in H. cbn [bind] in H. set (fl := map (nthd false nm) ix) in *.
  rewrite mapM_get_where in H by (unfold fl; rewrite !map_length; reflexivity).
  rewrite mapM_get_where in H by (unfold fl; rewrite !map_length; reflexivity).
  assert (E1 : mask_select (map negb fl) ix = filter (fun k => negb (nthd false nm k)) ix).
  { unfold fl. rewrite map_map. apply mask_select_filter. }
  assert (E2 : mask_select fl ix = filter (nthd false nm) ix) by apply mask_select_filter.
  rewrite E1, E2 in H. cbn [bind] in H. apply bind_inv in H as (w1 & H1 & H). apply bind_inv in H as (w2 & H2 & _).
  assert (Hk : In k ix) by (apply in_ix_of; auto).
  assert (Hbk : nthd false nm k = b) by (apply nthd_some; exact Hb).
  exists st. destruct b.
  - assert (Hf : In k (filter (nthd false nm) ix)) by (apply filter_In; auto).
    destruct (Z.ltb_spec 0 (zlen (filter (nthd false nm) ix))) as [Hz|Hz].
    + destruct (mapM_inv _ _ _ k H2 Hf) as (y & Hy). apply bind_inv in Hy as (f & Hf' & _). eauto.
    + destruct (filter (nthd false nm) ix); [destruct Hf|]. rewrite zlen_cons in Hz. pose proof (zlen_nonneg l0). lia.
  - assert (Hf : In k (filter (fun k => negb (nthd false nm k)) ix)) by (apply filter_In; rewrite Hbk; auto).
    destruct (mapM_inv _ _ _ k H1 Hf) as (y & Hy). apply bind_inv in Hy as (f & Hf' & _). eauto.
Qed.
End A.

Lemma get_oob {A} (l : list A) i : zlen l <= i -> get l i = Err OutOfBounds.
Proof.
  intros H. pose proof (zlen_nonneg l). unfold get, wrap, nthZ. destruct (Z.ltb_spec i 0); [lia|].
  destruct (Z.ltb_spec i 0); [lia|]. destruct (nth_error l (Z.to_nat i)) eqn:E; [|reflexivity].
  assert (Hn : nth_error l (Z.to_nat i) <> None) by congruence. apply nth_error_Some in Hn. unfold zlen in *. lia.
Qed.

Section B.
Context {F : Type} (N : NumOps F).

Lemma zlen_strides_2D (x : list (list F)) l d ph st : generate_strides_2D x l d ph = Ok st -> zlen st = zlen x.
Proof.
  intros H. destruct ph; cbn in H; [unfold strides_2D_phase in H|unfold strides_2D in H];
    apply bind_inv in H as (? & _ & H); apply mapM_length in H; rewrite zrange_length in H; unfold zlen in *; lia.
Qed.

(** A channel of some shapelet does not exist in a sample: no result. *)
Lemma M_SL_missing_channel X s L ph i x k chs vs l d thr nm c : packed s L ->
  nthZ X i = Some x -> mshp_at s L k chs vs l d thr nm -> In c chs -> zlen x <= c ->
  forall T, M_SL_apply N X s ph <> Ok T.
Proof.
  intros HP Hx (K1 & K2 & K3 & K4 & K5) Hc Hzc T HT.
  pose proof HP as (P1 & P2 & P3 & P4 & P5 & P6 & P7 & P8 & P9).
  unfold M_SL_apply in HT. apply bind_inv in HT as (ts & Hts & _). unfold M_SL_tasks in Hts.
  pose proof (fun A B => apply_tasks_inv _ _ _ _ _ _ _ _ A B Hts) as HI.
  destruct (HI ltac:(lia) ltac:(lia) i k l d nm (nthZ_range _ _ _ Hx) K2 K3 K5) as (st & f & Hst & Hf).
  rewrite (proj2 (get_nthZ X i x (proj1 (nthZ_range _ _ _ Hx)))) in Hst by exact Hx. cbn [bind] in Hst.
  apply zlen_strides_2D in Hst.
  rewrite (m_one_unpack N s L _ k chs vs l thr) in Hf by assumption.
  apply bind_inv in Hf as (sel & Hsel & _). destruct (mapM_inv _ _ _ c Hsel Hc) as (y & Hy).
  rewrite get_oob in Hy; [discriminate|]. destruct nm; rewrite ?zlen_map; lia.
Qed.

Lemma M_VL_missing_channel X X_len s L ph i x k chs vs l d thr nm c : packed s L ->
  nthZ X i = Some x -> mshp_at s L k chs vs l d thr nm -> In c chs -> zlen x <= c ->
  forall T, M_VL_apply N X X_len s ph <> Ok T.
Proof.
  intros HP Hx (K1 & K2 & K3 & K4 & K5) Hc Hzc T HT.
  pose proof HP as (P1 & P2 & P3 & P4 & P5 & P6 & P7 & P8 & P9).
  unfold M_VL_apply in HT. apply bind_inv in HT as (ts & Hts & _). unfold M_VL_tasks in Hts.
  pose proof (fun A B => apply_tasks_inv _ _ _ _ _ _ _ _ A B Hts) as HI.
  destruct (HI ltac:(lia) ltac:(lia) i k l d nm (nthZ_range _ _ _ Hx) K2 K3 K5) as (st & f & Hst & Hf).
  unfold m_series_vl in Hst.
  rewrite (proj2 (get_nthZ X i x (proj1 (nthZ_range _ _ _ Hx)))) in Hst by exact Hx. cbn [bind] in Hst.
  apply bind_inv in Hst as (x' & Hx' & Hst). apply bind_inv in Hx' as (n' & _ & Hx'). injection Hx' as <-.
  apply zlen_strides_2D in Hst. rewrite zlen_map in Hst.
  rewrite (m_one_unpack N s L _ k chs vs l thr) in Hf by assumption.
  apply bind_inv in Hf as (sel & Hsel & _). destruct (mapM_inv _ _ _ c Hsel Hc) as (y & Hy).
  rewrite get_oob in Hy; [discriminate|]. destruct nm; rewrite ?zlen_map; lia.
Qed.

(** A univariate model sees channel 0 only. *)
Lemma U_SL_channel0 X X' s ph : has_ft X -> wf_ushp s -> map (fun x => nthZ x 0) X = map (fun x => nthZ x 0) X' ->
  U_SL_apply N X s ph = U_SL_apply N X' s ph.
Proof.
  intros HX HW HE.
  assert (EL : zlen X = zlen X'). { apply (f_equal (@zlen _)) in HE. rewrite !zlen_map in HE. exact HE. }
  assert (HX' : has_ft X').
  { intros x' Hx' ->. apply In_nthZ in Hx' as (i & Hi).
    assert (E : nthZ (map (fun x => nthZ x 0) X) i = Some None) by (rewrite HE, nthZ_map, Hi; reflexivity).
    rewrite nthZ_map in E. destruct (nthZ X i) as [x|] eqn:Ex; [|discriminate]. cbn in E. injection E as E.
    specialize (HX x (nthZ_In _ _ _ Ex)). destruct x; [congruence|discriminate]. }
  assert (ES : forall i, ser X i = ser X' i).
  { intros i. unfold ser. assert (E : nthZ (map (fun x => nthZ x 0) X) i = nthZ (map (fun x => nthZ x 0) X') i) by (rewrite HE; reflexivity).
    rewrite !nthZ_map in E. unfold nthd at 2 4. destruct (nthZ X i) as [x|] eqn:E1, (nthZ X' i) as [x'|] eqn:E2; try discriminate; [|reflexivity].
    injection E as E. unfold nthd. rewrite E. reflexivity. }
  destruct (U_SL_iff N X s ph HX HW) as [[Hf E]|[(i & Hi & Hnf) E]]; rewrite E.
  - rewrite (U_SL_ok N X' s ph); auto.
    + f_equal. rewrite <- (map_nthd_zrange [] X), <- (map_nthd_zrange [] X'), EL, !map_map. apply map_ext. intros i.
      f_equal. apply (ES i).
    + intros i Hi. rewrite <- ES. apply Hf. lia.
  - symmetry. apply (U_SL_err N X' s ph); auto. exists i. split; [lia|]. rewrite <- ES. exact Hnf.
Qed.
End B.
