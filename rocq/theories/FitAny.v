(** From the arguments of R_DST.fit to the arguments of the shapelet generation, with any arithmetic: what the caller passes,
    what the estimator reads from it, and what is handed to the fitter. *)
From Coq Require Import ZArith String List Bool Lia.
From Verif Require Import Prelude Num Kernel Spec KernelProofs Apply ApplyProofs ApplyUni ApplyMulti TransformProofs TransformLaws
  SampleLaws Gen GenSched GenBase GenUni GenDraw GenSpec GenUTop GenULaws GenMTop GenMLaws Checks ChecksProofs Estimator
  EstimatorNum EstimatorLaws EstimatorCases GenAny.
Import ListNotations.
Open Scope Z_scope.

Section Any.
Context {F : Type} {N : NumOps F}.

(** ** Specification: what the caller passes *)

(** points 0 .. c-1 of channel [ch] of series [i], and the channels of series [i] *)
Definition points (v : Z -> Z -> Z -> F) (i ch c : Z) : list F := map (v i ch) (zrange 0 c).
Definition channels (v : Z -> Z -> Z -> F) (nf c i : Z) : list (list F) := map (fun ch => points v i ch c) (zrange 0 nf).

(** [X] is a dataset of [n] series of [nf] channels; series [i] has [cols i] points, with values [v i ch j].  Either a
    numeric 3D array, or ([vl]) a list or an object array of 2D arrays. *)
Inductive passes (X : pyv F) (n nf : Z) (cols : Z -> Z) (v : Z -> Z -> Z -> F) : bool -> Prop :=
| passes_array dt t cells : X = VArr [n; nf; t] dt cells -> dt <> DObject -> 0 <= t -> zlen cells = n * nf * t ->
    (forall i, 0 <= i < n -> cols i = t) ->
    (forall i ch j, 0 <= i < n -> 0 <= ch < nf -> 0 <= j < t ->
       exists cell, nthZ cells ((i * nf + ch) * t + j) = Some cell /\ as_F N cell = Ok (v i ch j)) ->
    passes X n nf cols v false
| passes_collection items : X = VList items \/ X = VArr [zlen items] DObject items -> zlen items = n ->
    (forall i x, nthZ items i = Some x -> series N x nf (cols i) (v i)) ->
    passes X n nf cols v true.

Lemma zlen_points v i ch c : 0 <= c -> zlen (points v i ch c) = c.
Proof. intros H. unfold points. rewrite zlen_map, zlen_zrange. lia. Qed.
Lemma nthd_channels v nf c i ch : 0 <= ch < nf -> nthd [] (channels v nf c i) ch = points v i ch c.
Proof. intros H. unfold channels. apply nthd_some. rewrite nthZ_map, nthZ_zrange by lia. reflexivity. Qed.
Lemma channels_regular v nf c i r : 0 <= c -> In r (channels v nf c i) -> zlen r = c.
Proof. intros Hc H. apply in_map_iff in H as (ch & <- & _). apply zlen_points. exact Hc. Qed.

(** ** Padded datasets *)
Section Data.
Context (D : dataset F) (n nf w : Z) (cols : Z -> Z) (v : Z -> Z -> Z -> F).
Hypothesis HP : padded N D n nf w cols v.
Hypothesis Hn : 1 <= n.
Hypothesis Hf : 1 <= nf.
Hypothesis Hc : forall i, 0 <= i < n -> 0 <= cols i <= w.

Lemma pad_row i ch : 0 <= i < n -> 0 <= ch < nf -> zlen (nthd [] (nthd [] D i) ch) = w /\
  slice (nthd [] (nthd [] D i) ch) 0 (cols i) = points v i ch (cols i).
Proof.
  intros Hi Hch. destruct HP as [_ H]. destruct (H i Hi) as (s & Es & _ & Hs). destruct (Hs ch Hch) as (row & Er & Ew & Ev & _).
  rewrite (nthd_some [] D i s Es), (nthd_some [] s ch row Er). split; [exact Ew|]. specialize (Hc i Hi).
  apply nthZ_ext; [rewrite zlen_slice0, zlen_points by lia; reflexivity|]. rewrite zlen_slice0 by lia. intros j Hj.
  rewrite nthZ_slice by lia. unfold points. rewrite nthZ_map, nthZ_zrange by lia. cbn [option_map]. replace (0 + j) with j by lia. auto.
Qed.

Lemma pad_w : 0 <= w.
Proof. specialize (Hc 0). lia. Qed.

Lemma pad_mdata : mdata nf w D.
Proof.
  pose proof pad_w. split; [exact Hf|]. split; [assumption|]. intros x Hx. apply In_nthZ in Hx as (i & Hi). destruct HP as [HD H1].
  pose proof (nthZ_range _ _ _ Hi) as Ri. destruct (H1 i) as (s & Es & El & Hs); [lia|]. assert (s = x) by congruence. subst s.
  split; [exact El|]. intros r Hr. apply In_nthZ in Hr as (ch & Hch). pose proof (nthZ_range _ _ _ Hch). destruct (Hs ch) as (row & Er & Ew & _); [lia|]. congruence.
Qed.

Lemma pad_has_ft : has_ft D.
Proof. intros x Hx E. destruct (proj2 (proj2 pad_mdata) x Hx) as [Q _]. rewrite E in Q. change (zlen (@nil (list F))) with 0 in Q. lia. Qed.

Lemma pad_ne : D <> [].
Proof. intros E. destruct HP as [H _]. rewrite E in H. change (zlen (@nil (list (list F)))) with 0 in H. lia. Qed.

Lemma pad_nf : n_features D = nf /\ n_timestamps D = w.
Proof.
  destruct pad_mdata as (_ & _ & H). pose proof pad_ne as NE. destruct D as [|x X']; [congruence|]. destruct (H x (or_introl eq_refl)) as [E Q]. split; [exact E|].
  destruct x as [|r t]; [change (zlen (@nil (list F))) with 0 in E; lia|]. change (zlen r = w). apply Q. left. reflexivity.
Qed.

Lemma pad_sample i : 0 <= i < n -> zlen (nthd [] D i) = nf.
Proof. intros Hi. destruct HP as [_ H]. destruct (H i Hi) as (s & Es & El & _). rewrite (nthd_some [] D i s Es). exact El. Qed.

Notation lens := (map cols (zrange 0 n)).

Lemma pad_len i : 0 <= i < n -> nthd 0 lens i = cols i.
Proof. intros Hi. apply nthd_some. rewrite nthZ_map, nthZ_zrange by lia. reflexivity. Qed.

Lemma pad_lens : zlen lens = zlen D.
Proof. destruct HP as [-> _]. rewrite zlen_map, zlen_zrange. lia. Qed.

Lemma pad_vl_ok : vl_ok w D lens.
Proof.
  split; [exact pad_lens|]. intros i l Hl. rewrite nthZ_map in Hl. destruct (nthZ (zrange 0 n) i) as [z|] eqn:E; [|discriminate].
  apply nthZ_In in E. apply in_zrange in E. injection Hl as <-. apply Hc. lia.
Qed.

Lemma pad_ser_vl i : 0 <= i < n -> ser_vl D lens i = points v i 0 (cols i).
Proof. intros Hi. unfold ser_vl. rewrite pad_len by exact Hi. apply pad_row; lia. Qed.

Lemma pad_mser_vl i : 0 <= i < n -> mser_vl D lens i = channels v nf (cols i) i.
Proof.
  intros Hi. unfold mser_vl, channels. rewrite pad_len by exact Hi. rewrite <- (pad_sample i Hi) at 1.
  rewrite <- (map_nthd_zrange [] (nthd [] D i)) at 1. rewrite (pad_sample i Hi). rewrite map_map.
  apply map_ext_in. intros ch Hch. apply in_zrange in Hch. apply pad_row; lia.
Qed.

Lemma pad_ser i : 0 <= i < n -> cols i = w -> ser D i = points v i 0 (cols i).
Proof. intros Hi E. unfold ser. destruct (pad_row i 0 Hi ltac:(lia)) as [A B]. rewrite <- B, E, <- A. symmetry. apply slice_full. Qed.

Lemma pad_mser i : 0 <= i < n -> cols i = w -> nthd [] D i = channels v nf (cols i) i.
Proof.
  intros Hi E. unfold channels. rewrite <- (map_nthd_zrange [] (nthd [] D i)) at 1. rewrite (pad_sample i Hi).
  apply map_ext_in. intros ch Hch. apply in_zrange in Hch. destruct (pad_row i ch Hi ltac:(lia)) as [A B]. rewrite <- B, E, <- A. symmetry. apply slice_full.
Qed.
End Data.

(** ** Reading the argument X *)

Lemma rows2_zlen {A} r c (xs : list A) : 0 <= r -> zlen (rows2 r c xs) = r.
Proof. intros H. unfold zlen, rows2. rewrite chunks_length. lia. Qed.

Lemma array_dataset n nf t dt (cells : list (pyv F)) v : 0 <= n -> 0 <= nf -> 0 <= t -> zlen cells = n * nf * t ->
  (forall i ch j, 0 <= i < n -> 0 <= ch < nf -> 0 <= j < t ->
       exists cell, nthZ cells ((i * nf + ch) * t + j) = Some cell /\ as_F N cell = Ok (v i ch j)) ->
  exists D, to_dataset N (VArr [n; nf; t] dt cells) = Ok D /\ padded N D n nf t (fun _ => t) v.
Proof.
  intros Hn Hf Ht Hl H.
  assert (HS : series N (VArr [n; nf * t] DFloat64 cells) n (nf * t) (fun i j => v i (j / t) (j mod t))).
  { split; [exact Hn|]. split; [nia|]. exists DFloat64, cells. split; [reflexivity|]. split; [rewrite Hl; ring|].
    intros i j Hi Hj. destruct (rm_range nf t j Ht Hj) as (A & B & C). destruct (H i (j / t) (j mod t) Hi A B) as (cell & E1 & E2).
    exists cell. split; [|exact E2]. rewrite <- E1. f_equal. rewrite C at 1. ring. }
  destruct (series_cells N _ _ _ _ HS) as (dt' & cells' & xs & E & Hm & Hz & Hv). injection E as <- <-.
  cbn [to_dataset]. rewrite Hm. cbn [bind]. eexists. split; [reflexivity|]. split; [rewrite zlen_map; apply rows2_zlen; exact Hn|].
  intros i Hi. destruct (rows2_nth n (nf * t) xs i Hi ltac:(nia) Hz) as (row & E1 & E2 & E3).
  rewrite nthZ_map, E1. cbn [option_map]. eexists. split; [reflexivity|]. split; [apply rows2_zlen; exact Hf|].
  intros ch Hch. destruct (rows2_nth nf t row ch Hch Ht E2) as (r & F1 & F2 & F3). exists r. split; [exact F1|]. split; [exact F2|].
  split; [|intros j Hj; lia]. intros j Hj. rewrite F3 by lia. assert (Q : 0 <= ch * t + j < nf * t) by nia. rewrite E3 by exact Q. rewrite Hv by (try exact Hi; exact Q).
  f_equal. f_equal.
  - symmetry. apply Z.div_unique with (r := j); lia.
  - symmetry. apply Z.mod_unique with (q := ch); lia.
Qed.

Lemma padded_ext D n nf w c c' v : (forall i, 0 <= i < n -> c' i = c i) -> padded N D n nf w c v -> padded N D n nf w c' v.
Proof. intros E [H1 H2]. split; [exact H1|]. intros i Hi. rewrite (E i Hi). apply H2. exact Hi. Qed.

(** what fit and transform read, and the shape they check *)
Lemma passes_data X n nf cols v vl : passes X n nf cols v vl -> 1 <= n -> 1 <= nf ->
  exists D w, padded N D n nf w cols v /\ (forall i, 0 <= i < n -> 0 <= cols i <= w) /\ (exists i, 0 <= i < n /\ w = cols i) /\
    if vl then format_uneven N X = Ok (D, [n; nf; w], map cols (zrange 0 n))
    else (forall i, 0 <= i < n -> cols i = w) /\ to_dataset N X = Ok D /\ shape X = [n; nf; w] /\
         check_array_3D N X false 2 = (let* _ := check_shape_3D [n; nf; w] false 2 in Ok X).
Proof.
  intros H Hn Hf. destruct H as [dt t cells -> Hdt Ht Hl Hc H|items HX Hi Hs].
  - destruct (array_dataset n nf t dt cells v ltac:(lia) ltac:(lia) Ht Hl H) as (D & HD & HP). exists D, t.
    split; [apply (padded_ext D n nf t (fun _ => t)); assumption|]. split; [intros i Hi; rewrite Hc by exact Hi; lia|].
    split; [exists 0; split; [lia|symmetry; apply Hc; lia]|]. split; [exact Hc|]. split; [exact HD|]. split; [reflexivity|]. reflexivity.
  - assert (HC : collection X items) by (destruct HX as [-> | ->]; [apply collection_list|apply collection_objects]).
    destruct (format_uneven_ok N X items (fun _ => nf) cols v HC) as (D & w & E & (i & Ri & Ew) & Hw & HP).
    { intros Q. rewrite Q in Hi. change (zlen (@nil (pyv F))) with 0 in Hi. lia. }
    { exact Hs. }
    { reflexivity. }
    rewrite Hi in *. exists D, w. split; [exact HP|]. split; [|split; [eauto|exact E]].
    intros j Hj. split; [|auto]. destruct (nthZ_some items j) as (x & Hx); [lia|]. destruct (Hs j x Hx) as (_ & Q & _). exact Q.
Qed.

Lemma passes_auto X n nf cols v vl k : passes X n nf cols v vl -> 1 <= n -> auto_class N X = Ok (TKind k) ->
  kind_vl k = vl /\ ((k = KU \/ k = KUV) -> nf <= 1).
Proof.
  intros H Hn E. destruct H as [dt t cells -> Hdt Ht Hl Hc H|items HX Hi Hs].
  - unfold auto_class in E. replace (dtype_eqb dt DObject) with false in E by (destruct dt; try reflexivity; congruence).
    destruct (dtype_eqb dt DInt64 || dtype_eqb dt DFloat64); [|discriminate]. apply bind_inv in E as (A & EA & E).
    unfold check_array_3D in EA. cbn [check_is_numpy_or_pd bind] in EA. apply bind_inv in EA as (u & _ & EA). injection EA as <-. cbn [shape] in E.
    injection E as <-. destruct (Z.ltb_spec 1 nf); cbn; (split; [reflexivity|]); [intros [Q|Q]; discriminate|lia].
  - assert (E' : (let* x0 := py_item X 0 in let* m := py_len x0 in Ok (TKind (if 1 <? m then KMV else KUV))) = Ok (TKind k)).
    { destruct HX as [-> | ->]; exact E. }
    assert (HC : collection X items) by (destruct HX as [-> | ->]; [apply collection_list|apply collection_objects]).
    destruct (nthZ_some items 0) as (x & Hx); [lia|]. rewrite (proj2 HC 0 x Hx) in E'. cbn [bind] in E'.
    destruct (Hs 0 x Hx) as (_ & _ & dt & cells & -> & _). cbn [py_len bind] in E'. injection E' as <-.
    destruct (Z.ltb_spec 1 nf); cbn; (split; [reflexivity|]); [intros [Q|Q]; discriminate|lia].
Qed.

Lemma check_3D_ok n nf w : 1 <= n -> 1 <= nf -> 3 <= w -> check_shape_3D [n; nf; w] false 2 = Ok tt.
Proof.
  intros Hn Hf Hw. unfold check_shape_3D. replace (prod [n; nf; w] =? 0) with false.
  - destruct (Z.ltb_spec 2 w); [reflexivity|lia].
  - symmetry. apply Z.eqb_neq. assert (E : prod [n; nf; w] = n * nf * w) by (unfold prod; cbn [fold_left fold_right]; ring). rewrite E. clear E. nia.
Qed.

(** ** Fitting *)

(** The parallel loop of the fitter runs in order on the seeded thread, or is scheduled in any way with any random
    states in the other threads. *)
Definition real_executor {S} (ex : @executor S) : Prop :=
  ex = (fun ST => @exec_seq S ST) \/ exists rs sched, scheduler sched /\ ex = (fun ST => @exec_par S ST rs sched).

(** shapelet [k] of a fitted set: its channels, the values on each of them, length, dilation, threshold, normalisation *)
Inductive shapelet_of : @Estimator.fitted F -> Z -> list Z -> list (list F) -> Z -> Z -> F -> bool -> Prop :=
| shapelet_U T k v l d thr nm : ushp_at T k v l d thr nm -> shapelet_of (FU T) k [0] [v] l d thr nm
| shapelet_M T k chs vs l d thr nm : packed_at T k chs vs l d thr nm -> shapelet_of (FM T) k chs vs l d thr nm.

Definition count_of (f : @Estimator.fitted F) : Z := match f with FU T => zlen (us_len T) | FM T => zlen (ms_len T) end.

(** the arrays of the set are consistent, and its channels below [nf] *)
Definition consistent (nf : Z) (f : @Estimator.fitted F) : Prop :=
  match f with FU T => wf_ushp T | FM T => exists L, packed T L /\ chan_ok L nf end.

Lemma shapelet_exists nf f k : consistent nf f -> 0 <= k < count_of f -> exists chs vs l d thr nm, shapelet_of f k chs vs l d thr nm.
Proof.
  intros H Hk. destruct f as [T|T]; cbn [consistent count_of] in *.
  - destruct H as (W1 & W2 & W3 & W4 & _). destruct (nthZ_some (us_values T) k) as (v0 & E0); [lia|]. destruct (nthZ_some (us_len T) k) as (l & E1); [lia|].
    destruct (nthZ_some (us_dil T) k) as (d & E2); [lia|]. destruct (nthZ_some (us_thr T) k) as (t & E3); [lia|]. destruct (nthZ_some (us_norm T) k) as (b & E4); [lia|].
    exists [0], [slice v0 0 l], l, d, t, b. constructor. split; [exists v0; auto|]. auto.
  - destruct H as (L & HP & _). destruct (packed_exists T L k HP Hk) as (chs & vs & l & d & thr & nm & H). exists chs, vs, l, d, thr, nm. constructor. exact H.
Qed.

Lemma shapelet_range nf f k chs vs l d thr nm : consistent nf f -> shapelet_of f k chs vs l d thr nm -> 0 <= k < count_of f.
Proof.
  intros HC H. destruct H as [T k v l d thr nm H|T k chs vs l d thr nm H]; cbn [count_of].
  - destruct H as (_ & H & _). eapply nthZ_range; exact H.
  - destruct H as (nc & _ & H & _). eapply nthZ_range; exact H.
Qed.

Lemma shapelet_FU T k chs vs l d thr nm : shapelet_of (FU T) k chs vs l d thr nm -> exists u, chs = [0] /\ vs = [u] /\ ushp_at T k u l d thr nm.
Proof. intros H. inversion H; subst. eauto. Qed.
Lemma shapelet_FM T k chs vs l d thr nm : shapelet_of (FM T) k chs vs l d thr nm -> packed_at T k chs vs l d thr nm.
Proof. intros H. inversion H; subst. assumption. Qed.

Section Fit.
Context {S : Type} {rng : Rng F S} {RS : Type} {V : pyenv RS}.

Lemma run_fitted ex q f : real_executor ex -> run_fitter N rng ex q = Ok f ->
  match q_kind q with
  | KU => exists T, f = FU T /\ GenULaws.fitted N rng (q_P q) (TrSL (q_X q) (q_y q)) T
  | KUV => exists T, f = FU T /\ GenULaws.fitted N rng (q_P q) (TrVL (q_X q) (match q_X_len q with Some l => l | None => [] end) (q_y q) (q_min_len q)) T
  | KM => exists T, f = FM T /\ mfitted N rng (q_P q) (q_max_channels q) (TrMSL (q_X q) (q_y q)) T
  | KMV => exists T, f = FM T /\ mfitted N rng (q_P q) (q_max_channels q) (TrMVL (q_X q) (match q_X_len q with Some l => l | None => [] end) (q_y q) (q_min_len q)) T
  end.
Proof.
  intros HE H. unfold run_fitter in H. destruct (q_kind q); apply bind_inv in H as (T & H & E); injection E as <-; exists T; (split; [reflexivity|]);
    destruct HE as [-> |(rs & sched & HS & ->)].
  - apply fitted_SL_seq. exact H.
  - eapply fitted_SL_par; [exact HS|exact H].
  - apply mfitted_SL_seq. exact H.
  - eapply mfitted_SL_par; [exact HS|exact H].
  - apply fitted_VL_seq. exact H.
  - eapply fitted_VL_par; [exact HS|exact H].
  - apply mfitted_VL_seq. exact H.
  - eapply mfitted_VL_par; [exact HS|exact H].
Qed.

Lemma check_lengths_range ls m sizes l : check_lengths N ls m = Ok sizes -> 4 <= m -> In l sizes -> 2 <= l <= m.
Proof.
  unfold check_lengths. intros H Hm Hl. apply bind_inv in H as (a & _ & H). apply bind_inv in H as (zs & _ & H).
  apply bind_inv in H as ([] & G & H). apply guard_ok in G. rewrite forallb_forall in G. destruct (forallb (fun l => l <=? m) zs) eqn:E.
  - rewrite forallb_forall in E. injection H as <-. specialize (G l Hl). specialize (E l Hl). apply Z.ltb_lt in G. apply Z.leb_le in E. lia.
  - destruct (Z.ltb_spec m 3); [discriminate|]. injection H as <-. apply in_map_iff in Hl as (l0 & <- & Hl).
    specialize (G l0 Hl). apply Z.ltb_lt in G. destruct (Z.ltb_spec m l0); lia.
Qed.

(** the number of points every series is known to have *)
Definition common_points (vl : bool) (given : option Z) (n : Z) (cols : Z -> Z) (m : Z) : Prop :=
  match given with
  | Some g => if vl then m = g else forall i, 0 <= i < n -> m = cols i
  | None => (exists i, 0 <= i < n /\ m = cols i) /\ forall i, 0 <= i < n -> m <= cols i
  end.

Definition multi (k : kind) : bool := match k with KM | KMV => true | _ => false end.

(** the arguments of the fitter *)
Record request_facts (vl : bool) (n nf : Z) (cols : Z -> Z) (v : Z -> Z -> Z -> F) (y : list Z) (s s1 : @est F) (q : @request F) (k : kind) (D : dataset F) (w m : Z) : Prop := {
  rf_vl : kind_vl k = vl;
  rf_auto : e_type s = TAuto -> multi k = false -> nf = 1;
  rf_pad : padded N D n nf w cols v;
  rf_cols : forall i, 0 <= i < n -> 0 <= cols i <= w;
  rf_points : common_points vl (e_min_len s) n cols m;
  rf_enough : forall i, 0 <= i < n -> m <= cols i;
  rf_four : 4 <= m;
  rf_same : vl = false -> m = w /\ forall i, 0 <= i < n -> cols i = w;
  rf_req : exists sizes seed pn pc al, percentile_values N (e_percentiles s) = Ok pc /\
    (forall l, In l sizes -> 2 <= l <= m) /\
    q = mkReq k D y (mkG (e_n_shapelets s) sizes seed pn (fst pc) (snd pc) al (e_phase s) (e_prime s))
          (match e_max_channels s with Some c => c | None => nf end) m (if vl then Some (map cols (zrange 0 n)) else None);
  rf_state : e_type s1 = TKind k /\ e_kind s1 = Some k /\ e_phase s1 = e_phase s /\ e_min_len s1 = Some m
}.

Lemma prepare_facts X y s h q s1 h1 n nf cols v vl : passes X n nf cols v vl ->
  1 <= n -> 1 <= nf -> zlen y = n -> e_n_samples s = VNone -> (forall k, e_type s = TKind k -> kind_vl k = vl) ->
  (forall i, 0 <= i < n -> 4 <= cols i) -> (vl = true -> forall m, e_min_len s = Some m -> 4 <= m /\ forall i, 0 <= i < n -> m <= cols i) ->
  prepare N V X y s h = (Ok q, s1, h1) -> exists k D w m, request_facts vl n nf cols v y s s1 q k D w m.
Proof.
  intros HX Hn Hf Hy Hns Hty H4 Hml E1.
  destruct (prepare_ok _ _ _ _ _ _ _ _ _ E1) as (k & D0 & sh & lens & m & ls & D' & y' & sizes & seed & pc & al & pn & HT & Hr & Hsel & Hall & Hls & Hcl & _ & Hpc & _ & _ & Hq & Hs1).
  destruct (Hall Hns) as [-> ->]. clear Hall Hsel E1.
  assert (Hk : kind_vl k = vl /\ (e_type s = TAuto -> multi k = false -> nf = 1)).
  { destruct HT as [HT|[HT HA]]; [split; [auto|congruence]|]. destruct (passes_auto _ _ _ _ _ _ _ HX Hn HA) as [A B]. split; [exact A|].
    intros _ Hm. assert (nf <= 1) by (apply B; destruct k; auto; discriminate). lia. }
  destruct Hk as [Hk Hauto]. destruct (passes_data _ _ _ _ _ _ HX Hn Hf) as (D & w & HP & Hc & (i0 & Hi0 & Ew) & HR). exists k, D, w, m.
  assert (G : D0 = D /\ nthd 0 sh 1 = nf /\ lens = (if vl then Some (map cols (zrange 0 n)) else None) /\ common_points vl (e_min_len s) n cols m /\
     (forall i, 0 <= i < n -> m <= cols i) /\ 4 <= m /\ (vl = false -> m = w /\ forall i, 0 <= i < n -> cols i = w)).
  { unfold read_as in Hr. rewrite Hk in Hr. destruct vl.
    - destruct Hr as (l & -> & A & _ & B). rewrite HR in A. injection A as <- <- <-. split; [reflexivity|]. split; [reflexivity|]. split; [reflexivity|].
      unfold common_points. destruct B as [B|[B C]]; rewrite B.
      + destruct (Hml eq_refl m B) as [Q1 Q2]. repeat split; auto; discriminate.
      + apply min_list_spec in C as [C1 C2]. apply in_map_iff in C1 as (i & Ei & C1). apply in_zrange in C1.
        assert (Q : forall i, 0 <= i < n -> m <= cols i) by (intros j Hj; apply C2; apply in_map; apply in_zrange; lia).
        repeat split; auto; try discriminate. { exists i. split; [lia|auto]. } rewrite <- Ei. apply H4. lia.
    - destruct Hr as (-> & A & B1 & B2 & -> & B3). destruct HR as (R1 & R2 & R3 & R4). rewrite R4 in B1. apply bind_inv in B1 as ([] & _ & B1). injection B1 as <-.
      rewrite R2 in B2. injection B2 as <-. rewrite R3 in *. cbn in B3. subst m. split; [reflexivity|]. split; [reflexivity|]. split; [reflexivity|].
      change (nthd 0 [n; nf; w] 2) with w. split; [|split; [|split; [|auto]]].
      + unfold common_points. destruct (e_min_len s); [intros; symmetry; auto|]. split; [eauto|]. intros i Hi. rewrite (R1 i Hi). lia.
      + intros i Hi. rewrite (R1 i Hi). lia.
      + rewrite <- (R1 0) by lia. apply H4. lia. }
  destruct G as (-> & Eft & -> & Hcp & Hmc & Hm4 & Hsl). rewrite Eft in Hq.
  constructor; try assumption.
  - exists sizes, seed, pn, pc, al. split; [exact Hpc|]. split; [|exact Hq]. intros l Hl. apply (check_lengths_range ls m sizes); assumption.
  - rewrite Hs1. auto.
Qed.

(** the training set given to the fitter is well formed *)
Lemma train_ok (D : dataset F) n nf w cols v y m (k : kind) : padded N D n nf w cols v -> 1 <= n -> 1 <= nf -> zlen y = n ->
  (forall i, 0 <= i < n -> 0 <= cols i <= w) -> (forall i, 0 <= i < n -> m <= cols i) -> 4 <= m -> (kind_vl k = false -> m = w /\ forall i, 0 <= i < n -> cols i = w) ->
  let lens := map cols (zrange 0 n) in
  match k with
  | KU => let c := TrSL D y in tr_ok c /\ tr_points c = m /\ tr_samples c = n /\ tr_labels c = y /\ forall i, 0 <= i < n -> tr_series c i = points v i 0 (cols i)
  | KUV => let c := TrVL D lens y m in tr_ok c /\ tr_points c = m /\ tr_samples c = n /\ tr_labels c = y /\ forall i, 0 <= i < n -> tr_series c i = points v i 0 (cols i)
  | KM => let c := TrMSL D y in mt_ok c /\ mt_points c = m /\ mt_samples c = n /\ mt_labels c = y /\ mt_nf c = nf /\
            forall i, 0 <= i < n -> mt_len c i = cols i /\ mt_series c i = channels v nf (cols i) i
  | KMV => let c := TrMVL D lens y m in mt_ok c /\ mt_points c = m /\ mt_samples c = n /\ mt_labels c = y /\ mt_nf c = nf /\
            forall i, 0 <= i < n -> mt_len c i = cols i /\ mt_series c i = channels v nf (cols i) i
  end.
Proof.
  intros HP Hn Hf Hy Hc Hmc Hm4 Hsl lens.
  pose proof (pad_ne D n nf w cols v HP Hn Hc) as NE. pose proof (pad_nf D n nf w cols v HP Hn Hf Hc) as [Pnf Pnt]. pose proof (proj1 HP) as HzD.
  pose proof (pad_mdata D n nf w cols v HP Hn Hf Hc) as PM. pose proof (pad_has_ft D n nf w cols v HP Hn Hf Hc) as PF. pose proof (pad_w n w cols Hn Hc) as Hw0.
  pose proof (pad_lens D n nf w cols v HP Hn Hc) as PL. fold lens in PL.
  assert (Hcm : forall a, In a lens -> m <= a <= w) by (intros a Ha; apply in_map_iff in Ha as (i & <- & Hi); apply in_zrange in Hi; split; [apply Hmc|apply Hc]; lia).
  assert (Hrow : forall x r, In x D -> In r x -> zlen r = w) by (intros x r Hx0 Hr0; apply (proj2 (proj2 (proj2 PM) x Hx0)); exact Hr0).
  destruct k; cbn [kind_vl] in Hsl; cbv zeta; try (destruct (Hsl eq_refl) as [-> Hw]).
  - split; [cbn; rewrite Pnt; split; [exact NE|]; split; [exact PF|]; split; [lia|]; split; [exact Hrow|lia]|]. split; [exact Pnt|]. split; [exact HzD|]. split; [reflexivity|].
    intros i Hi. cbn. apply (pad_ser D n nf w); auto.
  - split; [cbn; rewrite Pnt, Pnf; split; [exact NE|]; split; [exact PM|]; split; lia|]. split; [exact Pnt|]. split; [exact HzD|]. split; [reflexivity|]. split; [exact Pnf|].
    intros i Hi. cbn. split; [rewrite Pnt; symmetry; apply Hw; exact Hi|]. apply (pad_mser D n nf w); auto.
  - split; [cbn; split; [exact NE|]; split; [exact PF|]; split; [lia|]; split; [exact PL|]; split; [lia|]; split; [intros a Ha; apply Hcm; exact Ha|intros x r a Hx0 Hr0 Ha; rewrite (Hrow x r Hx0 Hr0); apply Hcm; exact Ha]|].
    split; [reflexivity|]. split; [exact HzD|]. split; [reflexivity|]. intros i Hi. cbn. apply (pad_ser_vl D n nf w); auto.
  - split; [cbn; rewrite Pnf; split; [exact NE|]; rewrite Pnt; split; [exact PM|]; split; [lia|]; split; [exact PL|]; split; [lia|exact Hcm]|].
    split; [reflexivity|]. split; [exact HzD|]. split; [reflexivity|]. split; [exact Pnf|]. intros i Hi. cbn. split; [apply (pad_len n w cols); assumption|].
    apply (pad_mser_vl D n nf w); auto.
Qed.

(** the parameters of an estimator can be read on series of [nf] channels with [m] points at least *)
Record ready (m : Z) (s : @est F) (h : list RS) : Prop := {
  rd_all : e_n_samples s = VNone;
  rd_sizes : exists a ls, set_lengths N s m = Ok a /\ check_lengths N a m = Ok ls;
  rd_perc : exists p, percentile_values N (e_percentiles s) = Ok p;
  rd_alpha : exists a, as_F N (e_alpha s) = Ok a;
  rd_proba : exists a, as_F N (e_proba_norm s) = Ok a;
  rd_gen : 0 <= e_rs s < zlen h
}.

Lemma prepare_total X y s h n nf cols v vl m : passes X n nf cols v vl ->
  1 <= n -> 1 <= nf -> (forall k, e_type s = TKind k -> kind_vl k = vl) -> e_type s <> TNone ->
  (vl = false -> e_type s = TAuto -> match X with VArr _ dt _ => dt = DInt64 \/ dt = DFloat64 | _ => False end) ->
  (exists i, 0 <= i < n /\ 3 <= cols i) -> common_points vl (e_min_len s) n cols m -> ready m s h ->
  exists q s1 h1, prepare N V X y s h = (Ok q, s1, h1).
Proof.
  intros HX Hn Hf Hty HNone Hdt (i3 & Hi3 & Hc3) Hcp [U1 (a & ls & U3 & U4) (pc & U6) (al & U7) (pn & U8) U9].
  destruct (passes_data _ _ _ _ _ _ HX Hn Hf) as (D & w & HP & Hc & (i0 & Hi0 & Ew) & HR).
  assert (Hw3 : 3 <= w) by (specialize (Hc i3 Hi3); lia).
  (* the kind *)
  assert (E1 : exists k, kind_vl k = vl /\ set_fit_transform N X s h = (Ok tt, set_kind k (set_type (TKind k) s), h)).
  { unfold set_fit_transform, bindE, self, put, liftE, retE. destruct (e_type s) as [|k|] eqn:ET; [| |congruence].
    - assert (HA : exists k, auto_class N X = Ok (TKind k)).
      { clear -HX Hn Hf Hdt Hw3 HR. destruct HX as [dt t cells -> Hd Ht Hl Hcc H|items HXx Hi Hs].
        - unfold auto_class. destruct HR as (_ & _ & R3 & R4). injection R3 as ->. destruct (Hdt eq_refl eq_refl) as [-> | ->]; cbn [dtype_eqb orb]; rewrite R4, check_3D_ok by lia; cbn; eauto.
        - assert (HC : collection X items) by (destruct HXx as [-> | ->]; [apply collection_list|apply collection_objects]).
          destruct (nthZ_some items 0) as (x & Hx); [lia|]. pose proof (proj2 HC 0 x Hx) as E. destruct (Hs 0 x Hx) as (_ & _ & dt & cells & -> & _).
          destruct HXx as [-> | ->]; unfold auto_class; cbn [dtype_eqb]; rewrite E; cbn; eauto. }
      destruct HA as (k & HA). rewrite HA. exists k. split; [apply (passes_auto _ _ _ _ _ _ _ HX Hn HA)|reflexivity].
    - exists k. split; [auto|]. destruct s; cbn in *; subst; reflexivity. }
  destruct E1 as (k & Hk & E1). unfold prepare. unfold bindE at 1. rewrite E1. unfold bindE at 1, self at 1. cbn [e_type set_kind set_type].
  unfold bindE at 1, retE at 1.
  (* the data *)
  set (s2 := set_kind k (set_type (TKind k) s)) in *.
  assert (E2 : exists lens, read_X N k X s2 h = (Ok (D, [n; nf; w], lens), set_min_len (Some m) s2, h)).
  { unfold read_X. rewrite Hk. destruct vl.
    - unfold bindE, liftE. rewrite HR. rewrite check_3D_ok by lia. unfold self, put, retE. unfold s2 at 1. cbn [e_min_len set_kind set_type].
      exists (Some (map cols (zrange 0 n))). unfold common_points in Hcp. destruct (e_min_len s) as [g|] eqn:Eg.
      + subst g. f_equal. f_equal. unfold s2. destruct s; cbn in *; subst; reflexivity.
      + destruct Hcp as [(i & Hi & Em) Hle]. destruct (min_list (map cols (zrange 0 n))) as [m'|] eqn:Emin.
        * apply min_list_spec in Emin as [C1 C2]. assert (m <= m') by (apply in_map_iff in C1 as (i' & <- & C1); apply in_zrange in C1; apply Hle; lia).
          assert (m' <= m) by (rewrite Em; apply C2; apply in_map; apply in_zrange; lia). replace m' with m by lia. reflexivity.
        * exfalso. rewrite zrange_cons in Emin by lia. discriminate Emin.
    - destruct HR as (R1 & R2 & R3 & R4). unfold bindE, liftE. rewrite R4, check_3D_ok by lia. cbn [bind]. rewrite R2. unfold put, retE. rewrite R3. exists None.
      change (nthd 0 [n; nf; w] 2) with w. replace m with w; [reflexivity|]. unfold common_points in Hcp. destruct (e_min_len s).
      + rewrite (Hcp 0) by lia. symmetry. apply R1. lia.
      + destruct Hcp as [(i & Hi & Em) _]. rewrite Em. symmetry. apply R1. exact Hi. }
  destruct E2 as (lens & E2). unfold bindE at 1. rewrite E2.
  unfold bindE at 1. unfold subsample. unfold bindE at 1, self at 1. replace (e_n_samples (set_min_len (Some m) s2)) with (@VNone F) by (symmetry; exact U1). unfold retE at 1.
  set (s3 := set_min_len (Some m) s2) in *. unfold bindE at 1, self at 1.
  (* the number of channels *)
  assert (E3 : exists s4, (match e_max_channels s3 with None => put (set_max_channels (Some (nthd 0 [n; nf; w] 1))) | Some _ => retE tt end) s3 h = (Ok tt, s4, h) /\
     e_min_len s4 = Some m /\ set_lengths N s4 m = set_lengths N s m /\ e_percentiles s4 = e_percentiles s /\ e_alpha s4 = e_alpha s /\ e_proba_norm s4 = e_proba_norm s /\ e_rs s4 = e_rs s).
  { destruct (e_max_channels s3); (eexists; split; [reflexivity|]); repeat split; reflexivity. }
  destruct E3 as (s4 & E3 & F1 & F2 & F3 & F4 & F5 & F6). unfold bindE at 1. rewrite E3. clear E3.
  unfold bindE at 1, self at 1. rewrite F1. unfold bindE at 1, liftE at 1. rewrite F2, U3.
  unfold bindE at 1, put at 1. unfold bindE at 1, liftE at 1. rewrite U4.
  unfold bindE at 1. unfold draw_seed at 1. cbn [e_rs set_lengths_attr]. rewrite F6.
  destruct (get_ok h (e_rs s) U9) as (g & Hg & _). rewrite Hg. destruct (v_randint V g) as [z g'].
  rewrite set_ok by exact U9. unfold bindE at 1, self at 1. cbn [e_percentiles set_lengths_attr]. rewrite F3.
  unfold bindE at 1, liftE at 1. unfold percentile_values in U6. rewrite U6. unfold bindE at 1, liftE at 1. cbn [e_alpha set_lengths_attr]. rewrite F4, U7.
  unfold bindE at 1, liftE at 1. cbn [e_proba_norm set_lengths_attr]. rewrite F5, U8. unfold retE. eauto.
Qed.
End Fit.

(** every shapelet of [f] has a place in every series *)
Definition all_fit (ph : bool) (n : Z) (cols : Z -> Z) (f : @Estimator.fitted F) : Prop :=
  forall j chs vs l d thr nm i, shapelet_of f j chs vs l d thr nm -> 0 <= i < n -> fits ph (cols i) l d.

Lemma all_fit_U ph n cols T : wf_ushp T -> (all_fit ph n cols (FU T) <-> forall i, 0 <= i < n -> fits_all ph T (cols i)).
Proof.
  intros HW. split.
  - intros H i Hi k l d Hl Hd. destruct (shapelet_exists 0 (FU T) k HW (nthZ_range _ _ _ Hl)) as (chs & vs & l' & d' & thr & nm & HK).
    pose proof (H _ _ _ _ _ _ _ i HK Hi) as Q. apply shapelet_FU in HK as (u & _ & _ & _ & K1 & K2 & _). replace l with l' by congruence. replace d with d' by congruence. exact Q.
  - intros H j chs vs l d thr nm i HK Hi. apply shapelet_FU in HK as (u & _ & _ & _ & K1 & K2 & _). apply (H i Hi j); assumption.
Qed.

Lemma all_fit_M ph n cols T nf : consistent nf (FM T) -> (all_fit ph n cols (FM T) <-> forall i, 0 <= i < n -> mfits_all ph T (cols i)).
Proof.
  intros HW. split.
  - intros H i Hi k l d Hl Hd. destruct (shapelet_exists nf (FM T) k HW (nthZ_range _ _ _ Hl)) as (chs & vs & l' & d' & thr & nm & HK).
    pose proof (H _ _ _ _ _ _ _ i HK Hi) as Q. apply shapelet_FM in HK as (nc & _ & K1 & K2 & _). replace l with l' by congruence. replace d with d' by congruence. exact Q.
  - intros H j chs vs l d thr nm i HK Hi. apply shapelet_FM in HK as (nc & _ & K1 & K2 & _). apply (H i Hi j); assumption.
Qed.
End Any.
