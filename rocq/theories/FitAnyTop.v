(** R_DST.fit with any arithmetic: it does not fail, and every shapelet it stores is a window of a training series.  The
    arithmetic enters through the ranges of the draws, of the dilations and of the percentiles only. *)
From Coq Require Import ZArith String List Bool Lia.
From Verif Require Import Prelude Num Kernel Spec KernelProofs Apply ApplyProofs ApplyUni ApplyMulti TransformProofs TransformLaws
  SampleLaws Gen GenSched GenBase GenUni GenULoop GenDraw GenSpec GenUTop GenULaws GenMTop GenMLaws Checks ChecksProofs Estimator
  EstimatorNum EstimatorLaws EstimatorCases GenAny FitAny.
Import ListNotations.
Open Scope Z_scope.

(** ** From the list of the returned shapelets to the arrays *)

Section Lots.
Context {F : Type} {N : NumOps F} {S : Type} {rng : Rng F S}.

Lemma lot_ok_ext P n_ts mc nf nsamp nlen nlen' ch y ds ds' k : (forall i, 0 <= i < nsamp -> nlen' i = nlen i) ->
  (forall i nm chs vs l d, 0 <= i < nsamp -> ds' i nm chs vs l d = ds i nm chs vs l d) ->
  lot_ok N rng P n_ts mc nf nsamp nlen ch y ds k -> lot_ok N rng P n_ts mc nf nsamp nlen' ch y ds' k.
Proof.
  intros E1 E2 [A B C (i & t & i' & D1 & D2 & D3 & D4 & D5)]. constructor; auto. exists i, t, i'.
  rewrite E1 by exact D1. rewrite E2 by apply D4. auto.
Qed.

Lemma lots_U_at W (ks : list (lot F)) T k v l d thr nm : (forall q, In q ks -> zlen (nthd [] (lt_vals q) 0) = lt_len q) -> lots_U N W ks T -> ushp_at T k v l d thr nm ->
  exists q, In q ks /\ lt_len q = l /\ lt_dil q = d /\ lt_norm q = nm /\ lt_thr q = thr /\ nthd [] (lt_vals q) 0 = v.
Proof.
  intros HN (H1 & H2 & H3 & H4 & H5) ((v0 & A1 & A2) & A3 & A4 & A5 & A6). rewrite H1, nthZ_map in A3. destruct (nthZ ks k) as [q|] eqn:Eq; [|discriminate].
  exists q. rewrite H2, nthZ_map, Eq in A4. rewrite H4, nthZ_map, Eq in A5. rewrite H3, nthZ_map, Eq in A6. rewrite H5, nthZ_map, Eq in A1. cbn [option_map] in *.
  split; [eapply nthZ_In; exact Eq|]. split; [congruence|]. split; [congruence|]. split; [congruence|]. split; [congruence|].
  assert (EL : lt_len q = l) by congruence. assert (E0 : v0 = nthd [] (lt_vals q) 0 ++ repeat (n0 N) (Z.to_nat (W - lt_len q))) by congruence.
  rewrite A2, E0, <- EL. rewrite <- (HN q) by (eapply nthZ_In; exact Eq). symmetry. apply slice_app_l.
Qed.

Lemma lots_U_wf W (ks : list (lot F)) T : (forall q, In q ks -> zlen (nthd [] (lt_vals q) 0) = lt_len q /\ 1 <= lt_len q /\ 1 <= lt_dil q) -> lots_U N W ks T ->
  wf_ushp T /\ zlen (us_len T) = zlen ks.
Proof.
  intros HN (H1 & H2 & H3 & H4 & H5). unfold wf_ushp. rewrite H1, H2, H3, H4, H5, !zlen_map. split; [|reflexivity]. repeat (split; [reflexivity|]). split.
  - intros k v l. rewrite !nthZ_map. destruct (nthZ ks k) as [q|] eqn:Eq; cbn [option_map]; [|discriminate]. intros Hv Hl. apply nthZ_In in Eq. destruct (HN q Eq) as (A & B & _).
    assert (E1 : v = nthd [] (lt_vals q) 0 ++ repeat (n0 N) (Z.to_nat (W - lt_len q))) by congruence. assert (E2 : l = lt_len q) by congruence. rewrite E1, E2, zlen_app, A.
    pose proof (zlen_nonneg (repeat (n0 N) (Z.to_nat (W - lt_len q)))). lia.
  - intros k d. rewrite nthZ_map. destruct (nthZ ks k) as [q|] eqn:Eq; cbn [option_map]; [|discriminate]. intros Hd. apply nthZ_In in Eq. destruct (HN q Eq) as (_ & _ & B).
    assert (E : d = lt_dil q) by congruence. rewrite E. exact B.
Qed.

Definition content (ks : list (lot F)) : list (lshp F) := map (fun q => (lt_chs q, lt_vals q)) ks.

Lemma lots_M_packed (ks : list (lot F)) T nf : (forall q, In q ks -> zlen (lt_vals q) = zlen (lt_chs q) /\ 1 <= zlen (lt_chs q) /\ (forall r, In r (lt_vals q) -> zlen r = lt_len q) /\
    1 <= lt_len q /\ 1 <= lt_dil q /\ forall c, In c (lt_chs q) -> 0 <= c < nf) -> lots_M ks T -> packed T (content ks) /\ chan_ok (content ks) nf /\ zlen (ms_len T) = zlen ks.
Proof.
  intros HN (H1 & H2 & H3 & H4 & H5 & H6 & H7). split; [|split].
  - unfold packed, content. rewrite H1, H2, H3, H4, H5, H6, H7, !map_map, !zlen_map. cbn [fst snd]. repeat (split; [reflexivity|]). split.
    + intros k p l. rewrite !nthZ_map. destruct (nthZ ks k) as [q|] eqn:Eq; cbn [option_map]; [|discriminate]. intros Hp Hl.
      assert (E1 : p = (lt_chs q, lt_vals q)) by congruence. assert (E2 : l = lt_len q) by congruence. rewrite E1, E2. cbn [fst snd]. clear E1 E2 Hp Hl.
      apply nthZ_In in Eq. destruct (HN q Eq) as (A & B & C & D & _). split; [exact A|]. split; [exact B|]. split; [exact C|exact D].
    + intros k d. rewrite nthZ_map. destruct (nthZ ks k) as [q|] eqn:Eq; cbn [option_map]; [|discriminate]. intros Hd. apply nthZ_In in Eq. destruct (HN q Eq) as (_ & _ & _ & _ & B & _).
      assert (E : d = lt_dil q) by congruence. rewrite E. exact B.
  - intros p ch Hp Hch. apply in_map_iff in Hp as (q & <- & Hq). cbn [fst] in Hch. destruct (HN q Hq) as (_ & _ & _ & _ & _ & B). auto.
  - rewrite H1. apply zlen_map.
Qed.

Lemma lots_M_at (ks : list (lot F)) T k chs vs l d thr nm : packed T (content ks) -> lots_M ks T -> packed_at T k chs vs l d thr nm ->
  exists q, In q ks /\ lt_len q = l /\ lt_dil q = d /\ lt_norm q = nm /\ lt_thr q = thr /\ lt_chs q = chs /\ lt_vals q = vs.
Proof.
  intros HP (H1 & H2 & H3 & H4 & _) HK. apply (packed_mshp T _ _ _ _ _ _ _ _ HP) in HK. destruct HK as (K1 & K2 & K3 & K4 & K5). unfold content in K1. rewrite nthZ_map in K1.
  destruct (nthZ ks k) as [q|] eqn:Eq; [|discriminate]. cbn [option_map] in K1. rewrite H1, nthZ_map, Eq in K2. rewrite H2, nthZ_map, Eq in K3. rewrite H4, nthZ_map, Eq in K4. rewrite H3, nthZ_map, Eq in K5.
  cbn [option_map] in *. exists q. split; [eapply nthZ_In; exact Eq|]. repeat (split; [congruence|]). congruence.
Qed.
End Lots.

(** ** The entry points *)

(** What the arithmetic and the generators of random numbers have to do on series of [B] points at most; [pok] are the
    percentiles that can be asked for. *)
Record fit_laws {F S} (N : NumOps F) (rng : Rng F S) (B : Z) (pok : F -> Prop) : Prop := {
  fl_rng : RngLaws N rng;
  fl_zero : neqb N (n0 N) (n0 N) = true;
  fl_dil : forall m, m <= B -> dilation_law N rng m;
  fl_perc : forall a q1 q2, zlen a <= B -> pok q1 -> pok q2 -> exists p, percentiles N a q1 q2 = Ok p
}.

Section Entry.
Context {F : Type} {N : NumOps F} {S : Type} {rng : Rng F S} {B : Z} {pok : F -> Prop} (FL : fit_laws N rng B pok).

Notation good c P := (lot_ok N rng P (tr_points c) 1 1 (tr_samples c) (fun i => zlen (tr_series c i)) (fun i _ => tr_series c i) (tr_labels c)
  (fun i nm _ vs l d => distances N (g_phase P) nm (tr_series c i) (nthd [] vs 0) l d)).

Lemma any_fitted P (c : utrain F) T : tr_ok c -> lengths_ok P (tr_points c) -> tr_points c <= B -> GenULaws.fitted N rng P c T ->
  exists ks W, (forall k, In k ks -> good c P k) /\ zlen ks <= g_n P /\ (forall l, In l (g_sizes P) -> l <= W) /\ lots_U N W ks T.
Proof.
  intros HO HL HB HF. pose proof (fl_dil _ _ _ _ FL _ HB) as HD. pose proof (fl_zero _ _ _ _ FL) as H00.
  assert (G : forall ks (nl : Z -> Z), (forall i, 0 <= i < tr_samples c -> zlen (tr_series c i) = nl i) ->
     (forall k, In k ks -> lot_ok N rng P (tr_points c) 1 1 (tr_samples c) nl (fun i _ => tr_series c i) (tr_labels c) (fun i nm _ vs l d => distances N (g_phase P) nm (tr_series c i) (nthd [] vs 0) l d) k) ->
     forall k, In k ks -> good c P k).
  { intros ks nl E H k Hk. eapply lot_ok_ext; [| |apply H; exact Hk]; [exact E|reflexivity]. }
  destruct HF as [X y T H|rs sched X y T HS H|X X_len y ml T H|rs sched X X_len y ml T HS H]; cbn [tr_points tr_samples tr_series tr_labels tr_ok] in *.
  - apply U_SL_seq_par in H as (rs & H). destruct (any_SL_sound N rng H00 X y (n_timestamps X) P HO HL HD rs seq_sched T) as (ks & W & A1 & A2 & A3 & A4); [apply seq_sched_scheduler|exact H|].
    exists ks, W. split; [|auto]. apply (G ks (fun _ => n_timestamps X)); [|exact A1]. intros i Hi. eapply train_u_ser; eauto.
  - destruct (any_SL_sound N rng H00 X y (n_timestamps X) P HO HL HD rs sched T HS H) as (ks & W & A1 & A2 & A3 & A4).
    exists ks, W. split; [|auto]. apply (G ks (fun _ => n_timestamps X)); [|exact A1]. intros i Hi. eapply train_u_ser; eauto.
  - apply U_VL_seq_par in H as (rs & H). destruct (any_VL_sound N rng H00 X X_len y ml P HO HL HD rs seq_sched T) as (ks & W & A1 & A2 & A3 & A4); [apply seq_sched_scheduler|exact H|].
    exists ks, W. split; [|auto]. apply (G ks (nthd 0 X_len)); [|exact A1]. intros i Hi. apply (zlen_ser_vl ml X X_len y HO). exact Hi.
  - destruct (any_VL_sound N rng H00 X X_len y ml P HO HL HD rs sched T HS H) as (ks & W & A1 & A2 & A3 & A4).
    exists ks, W. split; [|auto]. apply (G ks (nthd 0 X_len)); [|exact A1]. intros i Hi. apply (zlen_ser_vl ml X X_len y HO). exact Hi.
Qed.

Lemma good_vals P c q : lengths_ok P (tr_points c) -> good c P q -> lt_chs q = [0] /\ lt_vals q = [nthd [] (lt_vals q) 0] /\ zlen (nthd [] (lt_vals q) 0) = lt_len q /\ 2 <= lt_len q <= tr_points c /\ 1 <= lt_dil q.
Proof.
  intros HL [A C (D1 & D2 & D3) (i & t & i' & E1 & E2 & E3 & _)]. pose proof (HL _ A). destruct (lt_chs q) as [|c0 [|c1 r]] eqn:Ec.
  - change (zlen (@nil Z)) with 0 in D1. lia.
  - assert (c0 = 0) by (specialize (D3 c0 (or_introl eq_refl)); lia). subst c0. split; [reflexivity|]. rewrite E3. cbn [map]. unfold nthd. cbn. split; [reflexivity|].
    split; [rewrite zlen_seen; apply zlen_window; lia|]. split; [lia|apply C].
  - rewrite !zlen_cons in D1. pose proof (zlen_nonneg r). lia.
Qed.

Lemma any_fitted_wf P (c : utrain F) T : tr_ok c -> lengths_ok P (tr_points c) -> tr_points c <= B -> GenULaws.fitted N rng P c T -> wf_ushp T /\ zlen (us_len T) <= g_n P.
Proof.
  intros HO HL HB HF. destruct (any_fitted P c T HO HL HB HF) as (ks & W & A1 & A2 & A3 & A4). destruct (lots_U_wf (N := N) W ks T) as [C1 C2]; [|exact A4|].
  - intros q Hq. destruct (good_vals P c q HL (A1 q Hq)) as (_ & _ & D1 & D2 & D3). split; [exact D1|]. lia.
  - split; [exact C1|lia].
Qed.

Lemma any_fitted_origin P (c : utrain F) T k v l d thr nm : tr_ok c -> lengths_ok P (tr_points c) -> tr_points c <= B -> GenULaws.fitted N rng P c T -> ushp_at T k v l d thr nm ->
  In l (g_sizes P) /\ dil_ok (g_prime P) (tr_points c) l d /\
  exists s t s', 0 <= s < tr_samples c /\ 0 <= t < nwin (g_phase P) (zlen (tr_series c s)) l d /\ v = seen N nm (window N (g_phase P) (tr_series c s) l d t) /\
    same_class (tr_samples c) (tr_labels c) s s' /\ threshold_of N rng (distances N (g_phase P) nm (tr_series c s') v l d) (g_pmin P) (g_pmax P) thr.
Proof.
  intros HO HL HB HF HK. destruct (any_fitted P c T HO HL HB HF) as (ks & W & A1 & A2 & A3 & A4).
  destruct (lots_U_at (N := N) W ks T k v l d thr nm) as (q & Q1 & Q2 & Q3 & Q4 & Q5 & Q6); [|exact A4|exact HK|].
  - intros q Hq. apply (good_vals P c q HL (A1 q Hq)).
  - pose proof (A1 q Q1) as G. destruct (good_vals P c q HL G) as (E1 & _). destruct G as [G1 G2 _ (i & t & i' & G3 & G4 & G5 & G6 & G7)].
    rewrite Q2, Q3, Q4, Q5, Q6, E1 in *. split; [exact G1|]. split; [exact G2|]. exists i, t, i'. split; [exact G3|]. split; [exact G4|]. split; [|auto].
    rewrite <- Q6, G5. reflexivity.
Qed.

Notation mgood c P mc := (lot_ok N rng P (mt_points c) mc (mt_nf c) (mt_samples c) (mt_len c) (fun i ch => nthd [] (mt_series c i) ch) (mt_labels c)
  (fun i nm chs vs l d => mdistances N (g_phase P) nm (mt_len c i) (mt_series c i) chs vs l d)).

Lemma any_mfitted P mc (c : mtrain F) T : mt_ok c -> lengths_ok P (mt_points c) -> mt_points c <= B -> mfitted N rng P mc c T ->
  exists ks, (forall k, In k ks -> mgood c P mc k) /\ zlen ks <= g_n P /\ lots_M ks T.
Proof.
  intros HO HL HB HF. pose proof (fl_dil _ _ _ _ FL _ HB) as HD. pose proof (fl_rng _ _ _ _ FL) as L.
  destruct HF as [X y T H|rs sched X y T HS H|X X_len y ml T H|rs sched X X_len y ml T HS H]; cbn [mt_points mt_ok] in *.
  - apply M_SL_seq_par in H as (rs & H). exact (any_MSL_sound N rng L X y (n_features X) (n_timestamps X) mc P HO HL HD rs seq_sched T seq_sched_scheduler H).
  - exact (any_MSL_sound N rng L X y (n_features X) (n_timestamps X) mc P HO HL HD rs sched T HS H).
  - apply M_VL_seq_par in H as (rs & H). exact (any_MVL_sound N rng L X X_len y (n_features X) ml mc P HO HL HD rs seq_sched T seq_sched_scheduler H).
  - exact (any_MVL_sound N rng L X X_len y (n_features X) ml mc P HO HL HD rs sched T HS H).
Qed.

Lemma mgood_vals P mc c q : lengths_ok P (mt_points c) -> mgood c P mc q -> zlen (lt_vals q) = zlen (lt_chs q) /\ 1 <= zlen (lt_chs q) /\ (forall r, In r (lt_vals q) -> zlen r = lt_len q) /\
    1 <= lt_len q /\ 1 <= lt_dil q /\ forall ch, In ch (lt_chs q) -> 0 <= ch < mt_nf c.
Proof.
  intros HL [A C (D1 & D2 & D3) (i & t & i' & E1 & E2 & E3 & _)]. pose proof (HL _ A). rewrite E3. split; [apply zlen_map|]. split; [lia|]. split; [|split; [lia|split; [apply C|exact D3]]].
  intros r Hr. apply in_map_iff in Hr as (ch & <- & _). rewrite zlen_seen. apply zlen_window. lia.
Qed.

Lemma any_mfitted_packed P mc (c : mtrain F) T : mt_ok c -> lengths_ok P (mt_points c) -> mt_points c <= B -> mfitted N rng P mc c T ->
  (exists Lg, packed T Lg /\ chan_ok Lg (mt_nf c)) /\ zlen (ms_len T) <= g_n P.
Proof.
  intros HO HL HB HF. destruct (any_mfitted P mc c T HO HL HB HF) as (ks & A1 & A2 & A3). destruct (lots_M_packed ks T (mt_nf c)) as (C1 & C2 & C3); [|exact A3|].
  - intros q Hq. apply (mgood_vals P mc c q HL (A1 q Hq)).
  - split; [exists (content ks); auto|lia].
Qed.

Lemma any_mfitted_origin P mc (c : mtrain F) T k chs vs l d thr nm : mt_ok c -> lengths_ok P (mt_points c) -> mt_points c <= B -> mfitted N rng P mc c T -> packed_at T k chs vs l d thr nm ->
  In l (g_sizes P) /\ dil_ok (g_prime P) (mt_points c) l d /\ 1 <= zlen chs <= mc /\ NoDup chs /\ (forall ch, In ch chs -> 0 <= ch < mt_nf c) /\
  exists s t s', 0 <= s < mt_samples c /\ 0 <= t < nwin (g_phase P) (mt_len c s) l d /\ vs = map (fun ch => seen N nm (window N (g_phase P) (nthd [] (mt_series c s) ch) l d t)) chs /\
    same_class (mt_samples c) (mt_labels c) s s' /\ threshold_of N rng (mdistances N (g_phase P) nm (mt_len c s') (mt_series c s') chs vs l d) (g_pmin P) (g_pmax P) thr.
Proof.
  intros HO HL HB HF HK. destruct (any_mfitted P mc c T HO HL HB HF) as (ks & A1 & A2 & A3).
  destruct (lots_M_packed ks T (mt_nf c)) as (C1 & C2 & C3); [intros q Hq; apply (mgood_vals P mc c q HL (A1 q Hq))|exact A3|].
  destruct (lots_M_at ks T k chs vs l d thr nm C1 A3 HK) as (q & Q1 & Q2 & Q3 & Q4 & Q5 & Q6 & Q7).
  destruct (A1 q Q1) as [G1 G2 (G3 & G4 & G5) (i & t & i' & H1 & H2 & H3 & H4 & H5)]. rewrite Q2, Q3, Q4, Q5, Q6, Q7 in *.
  split; [exact G1|]. split; [exact G2|]. split; [exact G3|]. split; [exact G4|]. split; [exact G5|]. exists i, t, i'. auto.
Qed.
End Entry.

(** ** The estimator *)

(** Distances between a shapelet and the windows of series [i]: on its channel, or summed over its channels. *)
Definition distances_to {F} (N : NumOps F) (mu ph nm : bool) (nf : Z) (cols : Z -> Z) (v : Z -> Z -> Z -> F) (i : Z) (chs : list Z) (vs : list (list F)) (l d : Z) : list F :=
  if mu then mdistances N ph nm (cols i) (channels v nf (cols i) i) chs vs l d else distances N ph nm (points v i 0 (cols i)) (nthd [] vs 0) l d.

(** where a shapelet comes from: a window of a training series, a threshold drawn between two percentiles of its
    distances to a series of the same class *)
Definition drawn_from {F S} (N : NumOps F) (rng : Rng F S) (mu ph prime : bool) (n nf : Z) (cols : Z -> Z) (v : Z -> Z -> Z -> F) (y : list Z) (pmin pmax : F) (m : Z)
  (chs : list Z) (vs : list (list F)) (l d : Z) (thr : F) (nm : bool) : Prop :=
  2 <= l <= m /\ dil_ok prime m l d /\ 1 <= zlen chs /\ NoDup chs /\ (forall ch, In ch chs -> 0 <= ch < nf) /\
  exists i t i', 0 <= i < n /\ 0 <= t < nwin ph (cols i) l d /\
    vs = map (fun ch => seen N nm (window N ph (points v i ch (cols i)) l d t)) chs /\
    same_class n y i i' /\ threshold_of N rng (distances_to N mu ph nm nf cols v i' chs vs l d) pmin pmax thr.

(** everything a successful fit establishes *)
Record fit_any {F S} (N : NumOps F) (rng : Rng F S) (vl : bool) (n nf : Z) (cols : Z -> Z) (v : Z -> Z -> Z -> F) (y : list Z) (s s' : @est F) (k : kind) (f : @Estimator.fitted F) (m : Z) : Prop := {
  fa_type : e_type s' = TKind k;
  fa_kind : e_kind s' = Some k;
  fa_vl : kind_vl k = vl;
  fa_phase : e_phase s' = e_phase s;
  fa_shapelets : e_shapelets s' = Some f;
  fa_min_len : e_min_len s' = Some m;
  fa_points : common_points vl (e_min_len s) n cols m;
  fa_enough : forall i, 0 <= i < n -> m <= cols i;
  fa_form : match f with FU _ => multi k = false | FM _ => multi k = true end;
  fa_consistent : consistent nf f;
  fa_count : count_of f <= e_n_shapelets s;
  fa_origin : exists pmin pmax, percentile_values N (e_percentiles s) = Ok (pmin, pmax) /\
    forall j chs vs l d thr nm, shapelet_of f j chs vs l d thr nm ->
      drawn_from N rng (multi k) (e_phase s) (e_prime s) n nf cols v y pmin pmax m chs vs l d thr nm /\
      zlen chs <= (if multi k then match e_max_channels s with Some c => c | None => nf end else 1)
}.

(** parameters usable on series of [nf] channels with [m] points at least, [pok] being the percentiles accepted *)
Record usable_any {F RS} (N : NumOps F) (pok : F -> Prop) (nf m : Z) (s : @est F) (h : list RS) : Prop := {
  ua_all : e_n_samples s = VNone;
  ua_n : 1 <= e_n_shapelets s;
  ua_sizes : exists a ls, set_lengths N s m = Ok a /\ check_lengths N a m = Ok ls /\ ls <> [];
  ua_perc : exists a b, percentile_values N (e_percentiles s) = Ok (a, b) /\ pok a /\ pok b;
  ua_alpha : exists a, as_F N (e_alpha s) = Ok a;
  ua_proba : exists a, as_F N (e_proba_norm s) = Ok a;
  ua_gen : 0 <= e_rs s < zlen h;
  ua_chan : forall c, e_max_channels s = Some c -> 1 <= c <= nf
}.

Section Top.
Context {F : Type} {N : NumOps F} {S : Type} {rng : Rng F S} {B : Z} {pok : F -> Prop} (FL : fit_laws N rng B pok) {RS : Type} (V : pyenv RS).

Lemma U_drawn_from P (c : utrain F) T n nf cols v y k u l d thr nm : 1 <= nf ->
  tr_ok c -> lengths_ok P (tr_points c) -> tr_points c <= B -> GenULaws.fitted N rng P c T -> ushp_at T k u l d thr nm ->
  tr_samples c = n -> tr_labels c = y -> (forall i, 0 <= i < n -> 0 <= cols i) -> (forall i, 0 <= i < n -> tr_series c i = points v i 0 (cols i)) ->
  drawn_from N rng false (g_phase P) (g_prime P) n nf cols v y (g_pmin P) (g_pmax P) (tr_points c) [0] [u] l d thr nm.
Proof.
  intros Hf HO HL HB HF HK En Ey Hc0 Es. destruct (any_fitted_origin FL P c T k u l d thr nm HO HL HB HF HK) as (A & D & (i & t & i' & C1 & C2 & C3 & C4 & C5)).
  split; [apply HL; exact A|]. split; [exact D|]. split; [cbn; lia|]. split; [constructor; [intros []|constructor]|].
  split; [intros ch [<-|[]]; lia|]. rewrite En, Ey in *. exists i, t, i'. pose proof C4 as (C6 & _).
  rewrite Es in C2, C3 by exact C1. rewrite Es in C5 by exact C6. rewrite zlen_points in C2 by auto. split; [exact C1|]. split; [exact C2|].
  split; [cbn [map]; f_equal; exact C3|]. split; [exact C4|]. exact C5.
Qed.

Lemma mdistances_same ph nm n (X X' : list (list F)) chs vs l d : (forall ch, In ch chs -> nthd [] X ch = nthd [] X' ch) ->
  mdistances N ph nm n X chs vs l d = mdistances N ph nm n X' chs vs l d.
Proof.
  intros H. unfold mdistances. apply map_ext. intros i. f_equal. apply map_ext_in. intros [ch u] Hc. apply in_combine_l in Hc. cbn [fst snd]. rewrite H by exact Hc. reflexivity.
Qed.

Lemma M_drawn_from P mc (c : mtrain F) T n nf cols v y k chs vs l d thr nm :
  mt_ok c -> lengths_ok P (mt_points c) -> mt_points c <= B -> mfitted N rng P mc c T -> packed_at T k chs vs l d thr nm -> mt_nf c = nf ->
  mt_samples c = n -> mt_labels c = y -> (forall i, 0 <= i < n -> mt_len c i = cols i) -> (forall i, 0 <= i < n -> mt_series c i = channels v nf (cols i) i) ->
  drawn_from N rng true (g_phase P) (g_prime P) n nf cols v y (g_pmin P) (g_pmax P) (mt_points c) chs vs l d thr nm /\ zlen chs <= mc.
Proof.
  intros HO HL HB HF HK Hnf En Ey Ec Es. destruct (any_mfitted_origin FL P mc c T k chs vs l d thr nm HO HL HB HF HK) as (A & D & C & D' & E & (i & t & i' & C1 & C2 & C3 & C4 & C5)).
  rewrite En, Ey, Hnf in *. pose proof C4 as (C6 & _). rewrite Ec in C2 by exact C1. rewrite Es in C3 by exact C1. rewrite Ec, Es in C5 by exact C6.
  split; [|lia]. split; [apply HL; exact A|]. split; [exact D|]. split; [lia|]. split; [exact D'|]. split; [exact E|].
  exists i, t, i'. split; [exact C1|]. split; [exact C2|]. split; [|split; [exact C4|exact C5]].
  rewrite C3. apply map_ext_in. intros ch Hch. rewrite nthd_channels by auto. reflexivity.
Qed.

Theorem any_fit_sound ex X y s h s' h' n nf cols v vl : real_executor ex -> passes (N := N) X n nf cols v vl ->
  1 <= n -> 1 <= nf -> zlen y = n -> e_n_samples s = VNone -> (forall k, e_type s = TKind k -> kind_vl k = vl) ->
  (forall i, 0 <= i < n -> 4 <= cols i <= B) -> (vl = true -> forall m, e_min_len s = Some m -> 4 <= m /\ forall i, 0 <= i < n -> m <= cols i) ->
  fit N rng V ex X y s h = (Ok tt, s', h') -> exists k f m, fit_any N rng vl n nf cols v y s s' k f m.
Proof.
  intros HE HX Hn Hf Hy Hns Hty H4 Hml H. destruct (fit_ok _ _ _ _ _ _ _ _ _ _ _ H) as (q & s1 & f & E1 & E2 & ->).
  destruct (prepare_facts _ _ _ _ _ _ _ _ _ _ _ _ HX Hn Hf Hy Hns Hty ltac:(intros i Hi; apply H4; exact Hi) Hml E1) as (k & D & w & m & [Hk Hauto HP Hc Hcp Hmc Hm4 Hsl (sizes & seed & pn & pc & al & Hpc & Hsz & Hq) (S1 & S2 & S3 & S4)]).
  exists k, f, m. pose proof (run_fitted ex q f HE E2) as HF. rewrite Hq in HF. cbn [q_kind q_X q_y q_P q_min_len q_X_len q_max_channels] in HF.
  set (P := mkG (e_n_shapelets s) sizes seed pn (fst pc) (snd pc) al (e_phase s) (e_prime s)) in *.
  set (mc := match e_max_channels s with Some c => c | None => nf end) in *.
  pose proof (train_ok (N := N) D n nf w cols v y m k HP Hn Hf Hy Hc Hmc Hm4 ltac:(rewrite Hk; exact Hsl)) as HO. cbv zeta in HO.
  assert (HL : forall m', m' = m -> lengths_ok P m') by (intros m' -> l Hl; apply Hsz; exact Hl).
  assert (HB : forall m', m' = m -> m' <= B) by (intros m' ->; specialize (Hmc 0); specialize (H4 0); lia).
  assert (Hc0 : forall i, 0 <= i < n -> 0 <= cols i) by (intros i Hi; specialize (Hc i Hi); lia).
  assert (FIN : forall (GF : match f with FU _ => multi k = false | FM _ => multi k = true end) (GC : consistent nf f /\ count_of f <= e_n_shapelets s)
      (GO : forall j chs vs l d thr nm, shapelet_of f j chs vs l d thr nm ->
         drawn_from N rng (multi k) (e_phase s) (e_prime s) n nf cols v y (fst pc) (snd pc) m chs vs l d thr nm /\ zlen chs <= (if multi k then mc else 1)),
      fit_any N rng vl n nf cols v y s (set_shapelets f s1) k f m).
  { intros. destruct GC. constructor; try assumption; try reflexivity. exists (fst pc), (snd pc). split; [rewrite Hpc; destruct pc; reflexivity|exact GO]. }
  destruct k; cbn [multi kind_vl] in *; subst vl; destruct HF as (T & Ef & HF); subst f; apply FIN; cbn [consistent count_of]; try reflexivity.
  - destruct HO as (O1 & O2 & _). apply (any_fitted_wf FL P (TrSL D y)); [exact O1|apply HL; exact O2|apply HB; exact O2|exact HF].
  - destruct HO as (O1 & O2 & O3 & O4 & O5). intros j chs vs l d thr nm HJ. apply shapelet_FU in HJ as (u & -> & -> & HJ). split; [|cbn; lia]. rewrite <- O2.
    apply (U_drawn_from P (TrSL D y) T n nf cols v y j u); auto.
  - destruct HO as (O1 & O2 & O3 & O4 & O5 & O6). destruct (any_mfitted_packed FL P mc (TrMSL D y) T O1) as [(Lg & A & A') C]; [apply HL; exact O2|apply HB; exact O2|exact HF|].
    split; [|exact C]. exists Lg. split; [exact A|]. rewrite <- O5. exact A'.
  - destruct HO as (O1 & O2 & O3 & O4 & O5 & O6). intros j chs vs l d thr nm HJ. apply shapelet_FM in HJ. rewrite <- O2.
    apply (M_drawn_from P mc (TrMSL D y) T n nf cols v y j); auto; intros i Hi; apply O6; exact Hi.
  - destruct HO as (O1 & O2 & _). apply (any_fitted_wf FL P (TrVL D (map cols (zrange 0 n)) y m)); [exact O1|apply HL; exact O2|apply HB; exact O2|exact HF].
  - destruct HO as (O1 & O2 & O3 & O4 & O5). intros j chs vs l d thr nm HJ. apply shapelet_FU in HJ as (u & -> & -> & HJ). split; [|cbn; lia]. rewrite <- O2.
    apply (U_drawn_from P (TrVL D (map cols (zrange 0 n)) y m) T n nf cols v y j u); auto.
  - destruct HO as (O1 & O2 & O3 & O4 & O5 & O6). destruct (any_mfitted_packed FL P mc (TrMVL D (map cols (zrange 0 n)) y m) T O1) as [(Lg & A & A') C]; [apply HL; exact O2|apply HB; exact O2|exact HF|].
    split; [|exact C]. exists Lg. split; [exact A|]. rewrite <- O5. exact A'.
  - destruct HO as (O1 & O2 & O3 & O4 & O5 & O6). intros j chs vs l d thr nm HJ. apply shapelet_FM in HJ. rewrite <- O2.
    apply (M_drawn_from P mc (TrMVL D (map cols (zrange 0 n)) y m) T n nf cols v y j); auto; intros i Hi; apply O6; exact Hi.
Qed.

Lemma maxlen_cols (cols : Z -> Z) n : 1 <= n -> (forall i, 0 <= i < n -> cols i <= B) -> maxlen (map cols (zrange 0 n)) <= B.
Proof.
  intros Hn H. unfold maxlen. destruct (max_list (map cols (zrange 0 n))) as [w|e] eqn:E.
  - apply max_list_spec in E as [E _]. apply in_map_iff in E as (i & <- & Hi). apply in_zrange in Hi. apply H. lia.
  - rewrite zrange_cons in E by lia. discriminate E.
Qed.

Lemma any_run_total ex q n nf w cols v D y m k P mc : real_executor ex -> padded N D n nf w cols v -> 1 <= n -> 1 <= nf -> zlen y = n ->
  (forall i, 0 <= i < n -> 0 <= cols i <= w) -> (forall i, 0 <= i < n -> m <= cols i <= B) -> 4 <= m -> (kind_vl k = false -> m = w /\ forall i, 0 <= i < n -> cols i = w) ->
  q = mkReq k D y P mc m (if kind_vl k then Some (map cols (zrange 0 n)) else None) -> lengths_ok P m -> pok (g_pmin P) -> pok (g_pmax P) -> g_sizes P <> [] -> 1 <= g_n P ->
  1 <= mc <= nf -> exists f, run_fitter N rng ex q = Ok f.
Proof.
  intros HE HP Hn Hf Hy Hc Hmc Hm4 Hsl Hq HL HP1 HP2 Hsz Hg Hch. pose proof (fl_rng _ _ _ _ FL) as L.
  assert (HmB : m <= B) by (specialize (Hmc 0); lia). pose proof (fl_dil _ _ _ _ FL m HmB) as HD.
  pose proof (train_ok (N := N) D n nf w cols v y m k HP Hn Hf Hy Hc ltac:(intros i Hi; apply Hmc; exact Hi) Hm4 Hsl) as HO. cbv zeta in HO.
  assert (HQ : forall wd, wd <= B -> forall a, zlen a <= wd -> exists p, percentiles N a (g_pmin P) (g_pmax P) = Ok p) by (intros wd Hwd a Ha; apply (fl_perc _ _ _ _ FL); [lia|exact HP1|exact HP2]).
  pose proof (maxlen_cols cols n Hn ltac:(intros i Hi; apply Hmc; exact Hi)) as HW.
  rewrite Hq. unfold run_fitter. cbn [q_kind q_X q_y q_P q_min_len q_X_len q_max_channels].
  destruct k; cbn [kind_vl].
  - destruct HO as (O1 & O2 & _). cbn [tr_ok tr_points] in O1, O2. rewrite O2 in O1. destruct HE as [-> |(rs & sched & HS & ->)].
    + destruct (any_SL_total_seq N rng L D y m P O1 HL HD (HQ m HmB) Hsz Hg) as (T & A). exists (FU T). unfold U_SL_generate in A. rewrite A. reflexivity.
    + destruct (any_SL_total N rng L D y m P O1 HL HD (HQ m HmB) rs sched HS Hsz Hg) as (T & A). exists (FU T). unfold U_SL_generate_par in A. rewrite A. reflexivity.
  - destruct HO as (O1 & O2 & _ & _ & O5 & _). cbn [mt_ok mt_points] in O1, O2. rewrite O2 in O1. unfold mt_nf in O5. cbn [mt_data] in O5. rewrite O5 in O1. destruct HE as [-> |(rs & sched & HS & ->)].
    + destruct (any_MSL_total_seq N rng L D y nf m mc P O1 HL HD (HQ m HmB) ltac:(lia) Hsz Hg ltac:(lia)) as (T & A). exists (FM T). unfold M_SL_generate in A. rewrite A. reflexivity.
    + destruct (any_MSL_total N rng L D y nf m mc P O1 HL HD (HQ m HmB) ltac:(lia) rs sched HS Hsz Hg ltac:(lia)) as (T & A). exists (FM T). unfold M_SL_generate_par in A. rewrite A. reflexivity.
  - destruct HO as (O1 & O2 & _). cbn [tr_ok tr_points] in O1. destruct HE as [-> |(rs & sched & HS & ->)].
    + destruct (any_VL_total_seq N rng L D _ y m P O1 HL HD (HQ _ HW) Hsz Hg) as (T & A). exists (FU T). unfold U_VL_generate in A. rewrite A. reflexivity.
    + destruct (any_VL_total N rng L D _ y m P O1 HL HD (HQ _ HW) rs sched HS Hsz Hg) as (T & A). exists (FU T). unfold U_VL_generate_par in A. rewrite A. reflexivity.
  - destruct HO as (O1 & O2 & _ & _ & O5 & _). cbn [mt_ok mt_points] in O1. unfold mt_nf in O5. cbn [mt_data] in O5. rewrite O5 in O1. destruct HE as [-> |(rs & sched & HS & ->)].
    + destruct (any_MVL_total_seq N rng L D _ y nf m mc P O1 HL HD (HQ _ HW) ltac:(lia) Hsz Hg ltac:(lia)) as (T & A). exists (FM T). unfold M_VL_generate in A. rewrite A. reflexivity.
    + destruct (any_MVL_total N rng L D _ y nf m mc P O1 HL HD (HQ _ HW) ltac:(lia) rs sched HS Hsz Hg ltac:(lia)) as (T & A). exists (FM T). unfold M_VL_generate_par in A. rewrite A. reflexivity.
Qed.

Theorem any_fit_total ex X y s h n nf cols v vl m : real_executor ex -> passes (N := N) X n nf cols v vl ->
  1 <= n -> 1 <= nf -> zlen y = n -> (forall k, e_type s = TKind k -> kind_vl k = vl) -> e_type s <> TNone ->
  (vl = false -> e_type s = TAuto -> match X with VArr _ dt _ => dt = DInt64 \/ dt = DFloat64 | _ => False end) ->
  4 <= m -> (forall i, 0 <= i < n -> m <= cols i <= B) ->
  common_points vl (e_min_len s) n cols m -> usable_any N pok nf m s h ->
  exists s' h', fit N rng V ex X y s h = (Ok tt, s', h').
Proof.
  intros HE HX Hn Hf Hy Hty HNone Hdt Hm4 Hmc Hcp HU.
  pose proof HU as [U1 U2 (a & ls & U3 & U4 & U5) (p1 & p2 & U6 & U6a & U6b) U7 U8 U9 U10].
  assert (H4 : forall i, 0 <= i < n -> 4 <= cols i) by (intros i Hi; specialize (Hmc i Hi); lia).
  destruct (prepare_total (N := N) (V := V) X y s h n nf cols v vl m HX Hn Hf Hty HNone Hdt) as (q & s1 & h1 & E1); auto.
  { exists 0. split; [lia|]. specialize (H4 0). lia. }
  { constructor; eauto. }
  assert (Hml : vl = true -> forall g, e_min_len s = Some g -> 4 <= g /\ forall i, 0 <= i < n -> g <= cols i).
  { intros -> g Eg. unfold common_points in Hcp. rewrite Eg in Hcp. subst g. split; [exact Hm4|]. intros i Hi. apply Hmc. exact Hi. }
  destruct (prepare_facts X y s h q s1 h1 n nf cols v vl HX Hn Hf Hy U1 Hty H4 Hml E1) as (k & D & w & m' & [Hk Hauto HP Hc Hcp' Hmc' Hm4' Hsl (sizes & seed & pn & pc & al & Hpc & Hsz & Hq) _]).
  assert (Em : m' = m).
  { unfold common_points in Hcp, Hcp'. destruct (e_min_len s) as [g|].
    - destruct vl; [congruence|]. rewrite (Hcp 0), (Hcp' 0) by lia. reflexivity.
    - destruct Hcp as [(i & Hi & A) A'], Hcp' as [(i' & Hi' & C) C']. specialize (A' i' Hi'). specialize (C' i Hi). lia. }
  subst m'.
  assert (Es : sizes = ls).
  { destruct (prepare_ok _ _ _ _ _ _ _ _ _ E1) as (k2 & D2 & sh2 & lens2 & m2 & ls2 & D2' & y2 & sizes2 & seed2 & pc2 & al2 & pn2 & _ & _ & _ & _ & G1 & G2 & _ & _ & _ & _ & G3 & _).
    rewrite Hq in G3. pose proof (f_equal (fun r => g_sizes (q_P r)) G3) as G4. pose proof (f_equal q_min_len G3) as G5. cbn in G4, G5. subst m2 sizes2. rewrite U3 in G1. injection G1 as <-. rewrite U4 in G2. congruence. }
  destruct (any_run_total ex q n nf w cols v D y m k (mkG (e_n_shapelets s) sizes seed pn (fst pc) (snd pc) al (e_phase s) (e_prime s)) (match e_max_channels s with Some c => c | None => nf end)) as (f & E2); auto.
  - rewrite Hk. exact Hsl.
  - rewrite Hk. exact Hq.
  - rewrite U6 in Hpc. injection Hpc as <-. assumption.
  - rewrite U6 in Hpc. injection Hpc as <-. assumption.
  - cbn. rewrite Es. exact U5.
  - destruct (e_max_channels s); [auto|lia].
  - exists (set_shapelets f s1), h1. unfold fit, bindE, liftE, put. rewrite E1, E2. reflexivity.
Qed.
End Top.

(** ** Transforming *)

Section Transform.
Context {F : Type} {N : NumOps F}.

(** three features per series and shapelet, computed from the distances between the windows and the shapelet *)
Definition table (N : NumOps F) (mu ph : bool) (n nf : Z) (cols : Z -> Z) (v : Z -> Z -> Z -> F) (f : @Estimator.fitted F) (T : list (list F)) : Prop :=
  zlen T = n /\ (forall row, In row T -> zlen row = 3 * count_of f) /\
  forall i j chs vs l d thr nm, 0 <= i < n -> shapelet_of f j chs vs l d thr nm ->
    cell3 T i j (feats N (distances_to N mu ph nm nf cols v i chs vs l d) thr).

Lemma any_call_table (c : call F) mu ph n nf cols v f T : wf_call c -> run N c ph = Ok T ->
  TransformLaws.n_samples c = n -> n_shapelets c = count_of f ->
  (forall i j chs vs l d thr nm, 0 <= i < n -> shapelet_of f j chs vs l d thr nm -> dist_of N ph c i j (distances_to N mu ph nm nf cols v i chs vs l d) thr) ->
  table N mu ph n nf cols v f T.
Proof.
  intros HW HT En Es HD. destruct (call_shape N c ph T HW HT) as [S1 S2]. split; [congruence|]. split; [intros row Hr; rewrite <- Es; auto|].
  intros i j chs vs l d thr nm Hi Hj. apply (call_cell N c ph T i j _ _ HW HT). auto.
Qed.

Lemma any_transform (s : @est F) k f X n nf cols v : e_type s = TKind k -> e_kind s = Some k -> e_shapelets s = Some f ->
  match f with FU _ => multi k = false | FM _ => multi k = true end -> consistent nf f -> passes (N := N) X n nf cols v (kind_vl k) ->
  1 <= n -> 1 <= nf -> (exists i, 0 <= i < n /\ 3 <= cols i) ->
  (all_fit (e_phase s) n cols f /\ exists T, transform N s X = Ok T /\ table N (multi k) (e_phase s) n nf cols v f T) \/
  (~ all_fit (e_phase s) n cols f /\ transform N s X = Err ValueError).
Proof.
  intros Hty Hki Hsh Hfo HC HX Hn Hf (i3 & Hi3 & Hc3). destruct (passes_data _ _ _ _ _ _ HX Hn Hf) as (D & w & HP & Hc & (i0 & Hi0 & Ew) & HR).
  assert (Hw3 : 3 <= w) by (specialize (Hc i3 Hi3); lia). set (ph := e_phase s).
  unfold transform. rewrite Hsh, Hty. fold ph.
  pose proof (pad_mdata D n nf w cols v HP Hn Hf Hc) as PM. pose proof (pad_has_ft D n nf w cols v HP Hn Hf Hc) as PF.
  pose proof (pad_lens D n nf w cols v HP Hn Hc) as PL. pose proof (pad_vl_ok D n nf w cols v HP Hn Hc) as PV. pose proof (pad_ne D n nf w cols v HP Hn Hc) as NE.
  pose proof (proj1 HP) as HzD. set (lens := map cols (zrange 0 n)) in *.
  assert (Hc0 : forall i, 0 <= i < n -> 0 <= cols i) by (intros i Hi; specialize (Hc i Hi); lia).
  assert (Hat : forall i, 0 <= i < n -> nthZ D i = Some (nthd [] D i)) by (intros i Hi; apply nthZ_nthd; lia).
  assert (Hat0 : forall i, 0 <= i < n -> nthZ (nthd [] D i) 0 = Some (nthd [] (nthd [] D i) 0)).
  { intros i Hi. apply nthZ_nthd. rewrite (pad_sample D n nf w cols v HP i Hi). lia. }
  assert (Hlen : forall i, 0 <= i < n -> nthd 0 lens i = cols i) by (intros i Hi; apply (pad_len n w cols); assumption).
  destruct k; cbn [kind_vl multi] in *; destruct f as [T|T]; try discriminate; cbn [consistent] in HC.
  - (* univariate, same length *)
    destruct HR as (R1 & R2 & R3 & R4). rewrite R4, (check_3D_ok n nf w Hn Hf Hw3). cbn [bind]. rewrite R2. cbn [bind]. rewrite Hki.
    assert (Es : forall i, 0 <= i < n -> ser D i = points v i 0 (cols i)) by (intros i Hi; apply (pad_ser (N := N) D n nf w); auto).
    assert (FA : all_fit ph n cols (FU T) <-> forall i, 0 <= i < zlen D -> fits_all ph T (zlen (ser D i))).
    { rewrite all_fit_U by exact HC. split; intros H i Hi; specialize (H i ltac:(lia)); rewrite Es, zlen_points in * by (try apply Hc0; lia); exact H. }
    destruct (U_SL_iff N D T ph PF HC) as [[Hfit E]|[(i & Hi & Hfit) E]]; [left|right].
    + split; [apply FA; exact Hfit|]. eexists. split; [exact E|]. eapply (any_call_table (CallUS D T)); try reflexivity; auto; try (cbn; auto).
      intros i j chs vs l d thr nm Hi Hj. apply shapelet_FU in Hj as (u & -> & -> & Hj). unfold distances_to, nthd. cbn. rewrite <- Es by exact Hi. unfold ser.
      eapply dist_US; [apply Hat; exact Hi|apply Hat0; exact Hi|exact Hj].
    + split; [|exact E]. rewrite FA. intros Q. apply Hfit. apply Q. exact Hi.
  - (* multivariate, same length *)
    destruct HR as (R1 & R2 & R3 & R4). rewrite R4, (check_3D_ok n nf w Hn Hf Hw3). cbn [bind]. rewrite R2. cbn [bind]. rewrite Hki.
    assert (FA : all_fit ph n cols (FM T) <-> mfits_all ph T w).
    { rewrite (all_fit_M ph n cols T nf HC). split; intros H; [rewrite <- (R1 0) by lia; apply H; lia|]. intros i Hi. rewrite R1 by exact Hi. exact H. }
    destruct HC as (Lg & HL & HCh).
    destruct (M_SL_iff N D nf w T Lg ph PM HL HCh) as [[Hfit E]|[[_ Hfit] E]]; [left|right].
    + split; [apply FA; destruct Hfit as [Q|Q]; [congruence|exact Q]|]. eexists. split; [exact E|].
      eapply (any_call_table (CallMS nf w D T Lg)); try reflexivity; auto; try (cbn; eauto).
      intros i j chs vs l d thr nm Hi Hj. apply shapelet_FM in Hj. unfold distances_to. rewrite <- (pad_mser (N := N) D n nf w cols v HP Hc i Hi (R1 i Hi)), R1 by exact Hi.
      apply dist_MS; [apply Hat; exact Hi|]. apply packed_mshp; assumption.
    + split; [|exact E]. rewrite FA. exact Hfit.
  - (* univariate, variable length *)
    rewrite HR. cbn [bind]. rewrite (check_3D_ok n nf w Hn Hf Hw3). cbn [bind]. rewrite Hki.
    assert (Es : forall i, 0 <= i < n -> ser_vl D lens i = points v i 0 (cols i)) by (intros i Hi; apply (pad_ser_vl (N := N) D n nf w); auto).
    assert (FA : all_fit ph n cols (FU T) <-> forall i, 0 <= i < zlen D -> fits_all ph T (zlen (ser_vl D lens i))).
    { rewrite all_fit_U by exact HC. split; intros H i Hi; specialize (H i ltac:(lia)); rewrite Es, zlen_points in * by (try apply Hc0; lia); exact H. }
    destruct (U_VL_iff N D lens T ph PF PL HC) as [[Hfit E]|[(i & Hi & Hfit) E]]; [left|right].
    + split; [apply FA; exact Hfit|]. eexists. split; [exact E|]. eapply (any_call_table (CallUV D lens T)); try reflexivity; auto; try (cbn; auto).
      intros i j chs vs l d thr nm Hi Hj. apply shapelet_FU in Hj as (u & -> & -> & Hj). unfold distances_to. change (nthd [] [u] 0) with u. rewrite <- Es by exact Hi.
      eapply dist_UV; [|exact Hj]. exists (nthd [] D i), (nthd [] (nthd [] D i) 0), (nthd 0 lens i). split; [auto|]. split; [auto|]. split; [apply nthZ_nthd; lia|reflexivity].
    + split; [|exact E]. rewrite FA. intros Q. apply Hfit. apply Q. exact Hi.
  - (* multivariate, variable length *)
    rewrite HR. cbn [bind]. rewrite (check_3D_ok n nf w Hn Hf Hw3). cbn [bind]. rewrite Hki.
    assert (FA : all_fit ph n cols (FM T) <-> forall i, 0 <= i < zlen D -> mfits_all ph T (nthd 0 lens i)).
    { rewrite (all_fit_M ph n cols T nf HC). split; intros H i Hi; specialize (H i ltac:(lia)); rewrite Hlen in * by lia; exact H. }
    destruct HC as (Lg & HL & HCh).
    destruct (M_VL_iff N D lens nf w T Lg ph PM PV HL HCh) as [[Hfit E]|[(i & Hi & Hfit) E]]; [left|right].
    + split; [apply FA; exact Hfit|]. eexists. split; [exact E|].
      eapply (any_call_table (CallMV nf w D lens T Lg)); try reflexivity; auto; try (cbn; eauto).
      intros i j chs vs l d thr nm Hi Hj. apply shapelet_FM in Hj. unfold distances_to. rewrite <- (pad_mser_vl (N := N) D n nf w cols v HP Hc i Hi).
      eapply dist_MV; [|apply packed_mshp; eassumption]. exists (nthd [] D i). split; [auto|]. split; [rewrite <- Hlen by exact Hi; apply nthZ_nthd; lia|].
      unfold mser_vl. fold lens. rewrite Hlen by exact Hi. reflexivity.
    + split; [|exact E]. rewrite FA. intros Q. apply Hfit. apply Q. exact Hi.
Qed.

(** ** Series long enough for every shapelet *)

Lemma any_fit_long {S} (rng : Rng F S) vl n nf cols v y s s' k f m X' n' cols' v' : fit_any N rng vl n nf cols v y s s' k f m -> 1 <= nf -> 4 <= m ->
  passes (N := N) X' n' nf cols' v' vl -> 1 <= n' -> (forall i, 0 <= i < n' -> m <= cols' i) ->
  exists T, transform N s' X' = Ok T /\ table N (multi k) (e_phase s) n' nf cols' v' f T.
Proof.
  intros [F1 F2 F3 F5 F6 F7 F8 F9 F10 F11 F12 (pmin & pmax & _ & F13)] Hf Hm HX' Hn' Hmc. rewrite <- F5 in *. rewrite <- F3 in HX'.
  destruct (any_transform s' k f X' n' nf cols' v' F1 F2 F6 F10 F11 HX' Hn' Hf) as [[A (T & C)]|[A C]].
  { exists 0. specialize (Hmc 0). lia. }
  - exists T. exact C.
  - exfalso. apply A. intros j chs vs l d thr nm i Hj Hi. specialize (Hmc i Hi). destruct (F13 _ _ _ _ _ _ _ Hj) as [((A1 & _) & (B1 & B2 & _) & _) _].
    unfold fits. destruct (e_phase s'); lia.
Qed.
End Transform.
