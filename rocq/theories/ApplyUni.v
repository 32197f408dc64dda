(** Univariate transform: exact result, for every numeric instance. *)
From Coq Require Import ZArith List Bool Lia Permutation.
From Verif Require Import Prelude Num Kernel Spec KernelProofs CombProofs Parallel Apply ApplyProofs.
Import ListNotations.
Open Scope Z_scope.

Section U.
Context {F : Type} (N : NumOps F).

Lemma znorm_zscore w : znorm N w = zscore N w.
Proof. reflexivity. Qed.

Lemma dists_distances ph nm X v l d : dists N ph nm X v l d = distances N ph nm X v l d.
Proof. unfold dists, distances, windows. rewrite map_map. reflexivity. Qed.

(** A well-formed set of univariate shapelets. *)
Definition wf_ushp (s : ushp F) : Prop :=
  zlen (us_values s) = zlen (us_len s) /\ zlen (us_dil s) = zlen (us_len s) /\
  zlen (us_thr s) = zlen (us_len s) /\ zlen (us_norm s) = zlen (us_len s) /\
  (forall k v l, nthZ (us_values s) k = Some v -> nthZ (us_len s) k = Some l -> 1 <= l <= zlen v) /\
  (forall k d, nthZ (us_dil s) k = Some d -> 1 <= d).

(** every shapelet has its windows inside a series of [n] points *)
Definition fits_all (ph : bool) (s : ushp F) (n : Z) : Prop :=
  forall k l d, nthZ (us_len s) k = Some l -> nthZ (us_dil s) k = Some d -> fits ph n l d.

(** features of shapelet [k] on the series [x] *)
Definition u_tr (ph : bool) (s : ushp F) (x : list F) (k : Z) : F * F * F :=
  let l := nthd 0 (us_len s) k in
  feats N (distances N ph (nthd false (us_norm s) k) x (slice (nthd [] (us_values s) k) 0 l) l
             (nthd 0 (us_dil s) k)) (nthd (n0 N) (us_thr s) k).

Definition u_row (ph : bool) (s : ushp F) (x : list F) : list F :=
  map (fun c => tri (u_tr ph s x (c / 3)) (c mod 3)) (zrange 0 (3 * zlen (us_len s))).

Lemma zlen_slice0 {A} (v : list A) l : 0 <= l <= zlen v -> zlen (slice v 0 l) = l.
Proof. intros H. rewrite slice_length by lia. lia. Qed.

Lemma u_tr_eq ph s x k v l d thr b :
  nthZ (us_values s) k = Some v -> nthZ (us_len s) k = Some l -> nthZ (us_dil s) k = Some d ->
  nthZ (us_thr s) k = Some thr -> nthZ (us_norm s) k = Some b ->
  u_tr ph s x k = feats N (distances N ph b x (slice v 0 l) l d) thr.
Proof. intros H1 H2 H3 H4 H5. unfold u_tr, nthd. rewrite H1, H2, H3, H4, H5. reflexivity. Qed.

Lemma u_one_ok ph s x k l d b : wf_ushp s -> fits ph (zlen x) l d ->
  nthZ (us_len s) k = Some l -> nthZ (us_dil s) k = Some d -> nthZ (us_norm s) k = Some b ->
  u_one N s (if b then map (znorm N) (windows N ph x l d) else windows N ph x l d) k l
  = Ok (u_tr ph s x k).
Proof.
  intros (W1 & W2 & W3 & W4 & W5 & W6) Hf Hl Hd Hb.
  pose proof (nthZ_range _ _ _ Hl) as Hk.
  unfold u_one. rewrite (get_nthd [] (us_values s)) by lia. rewrite (get_nthd (n0 N) (us_thr s)) by lia.
  cbn [bind].
  assert (Hlen : 1 <= l <= zlen (nthd [] (us_values s) k)).
  { eapply W5; [|exact Hl]. apply nthZ_nthd. lia. }
  rewrite apply_one_univariate_ok.
  - f_equal.
    rewrite (u_tr_eq ph s x k (nthd [] (us_values s) k) l d (nthd (n0 N) (us_thr s) k) b) by
      (try assumption; apply nthZ_nthd; lia).
    rewrite <- dists_distances. unfold dists, wnorm. destruct b; [rewrite map_map|]; reflexivity.
  - rewrite zlen_slice0 by lia. intros r Hr. destruct b.
    + apply in_map_iff in Hr as (w & <- & Hw). rewrite zlen_znorm.
      rewrite (in_windows_len N ph x l d w); [lia|lia|exact Hw].
    + rewrite (in_windows_len N ph x l d r); [lia|lia|exact Hr].
Qed.

(** the series of the samples: same length / variable length *)
Definition ser (X : dataset F) (i : Z) : list F := nthd [] (nthd [] X i) 0.
Definition ser_vl (X : dataset F) (X_len : list Z) (i : Z) : list F :=
  slice (nthd [] (nthd [] X i) 0) 0 (nthd 0 X_len i).

(** each sample has a first feature *)
Definition has_ft (X : dataset F) : Prop := forall x, In x X -> x <> [].

Lemma u_series_ok X i : has_ft X -> 0 <= i < zlen X -> u_series X i = Ok (ser X i).
Proof.
  intros HX Hi. unfold u_series, ser. rewrite (get_nthd [] X) by exact Hi. cbn [bind].
  apply get_nthd.
  assert (Hin : In (nthd [] X i) X) by (apply (nthZ_In _ i); apply nthZ_nthd; exact Hi).
  specialize (HX _ Hin). destruct (nthd [] X i); [congruence|]. rewrite zlen_cons. pose proof (zlen_nonneg l0). lia.
Qed.

Lemma u_series_vl_ok X X_len i : has_ft X -> zlen X_len = zlen X -> 0 <= i < zlen X ->
  u_series_vl X X_len i = Ok (ser_vl X X_len i).
Proof.
  intros HX HL Hi. pose proof (u_series_ok X i HX Hi) as H. unfold u_series, u_series_vl, ser, ser_vl in *.
  destruct (get X i); [|discriminate]. cbn [bind] in *. rewrite H. cbn [bind].
  rewrite (get_nthd 0 X_len) by lia. reflexivity.
Qed.

(** [generate_strides_1D] on a shapelet's parameters: windows, or ValueError when the series is too short *)
Lemma strides_cases x l d ph : 1 <= l -> 1 <= d ->
  (fits ph (zlen x) l d /\ generate_strides_1D x l d ph = Ok (windows N ph x l d)) \/
  (~ fits ph (zlen x) l d /\ generate_strides_1D x l d ph = Err ValueError).
Proof.
  intros Hl Hd. destruct ph.
  - left. assert (fits true (zlen x) l d) by (unfold fits; lia). split; [assumption|].
    apply (generate_strides_1D_ok N). assumption.
  - destruct (Z.le_gt_cases ((l - 1) * d) (zlen x)).
    + left. assert (fits false (zlen x) l d) by (unfold fits; lia). split; [assumption|].
      apply (generate_strides_1D_ok N). assumption.
    + right. split; [unfold fits; lia|]. unfold generate_strides_1D, strides_1D.
      destruct (Z.leb_spec 0 (zlen x - (l - 1) * d)); [lia|]. reflexivity.
Qed.

Section Gen.
Context (srs : Z -> list F) (srs_m : Z -> res (list F)) (ph : bool) (s : ushp F) (n : Z).
Hypothesis Hn : 0 <= n.
Hypothesis Hs : forall i, 0 <= i < n -> srs_m i = Ok (srs i).
Hypothesis W : wf_ushp s.

Definition utasks := apply_tasks (fun i l d => let* x := srs_m i in generate_strides_1D x l d ph)
              (map (znorm N)) (u_one N s) (us_len s) (us_dil s) (us_norm s) n.

Definition u_result : list (list F) := map (fun i => u_row ph s (srs i)) (zrange 0 n).

Lemma utasks_ok : (forall i, 0 <= i < n -> fits_all ph s (zlen (srs i))) ->
  exists ts, utasks = Ok ts /\ NoDup (cells (concat ts)) /\
    forall out, interleave ts out -> run_writes out (X_new0 N n (zlen (us_len s))) = Ok u_result.
Proof.
  intros Hf. pose proof W as (W1 & W2 & W3 & W4 & W5 & W6).
  destruct (apply_par_ok N (fun i l d => let* x := srs_m i in generate_strides_1D x l d ph)
     (map (znorm N)) (u_one N s) (us_len s) (us_dil s) (us_norm s) n (fun i k => u_tr ph s (srs i) k)) as (ts & H1 & H2 & H3); auto.
  - intros i k l d b Hi Hl Hd Hb. rewrite (Hs i Hi). cbn [bind].
    specialize (Hf i Hi k l d Hl Hd). rewrite (generate_strides_1D_ok N _ _ _ _ Hf).
    eexists. split; [reflexivity|]. apply (u_one_ok ph s (srs i) k l d b); assumption.
  - exists ts. repeat split; auto.
Qed.

Lemma utasks_err : (exists i, 0 <= i < n /\ ~ fits_all ph s (zlen (srs i))) -> utasks = Err ValueError.
Proof.
  intros (i & Hi & Hnf). pose proof W as (W1 & W2 & W3 & W4 & W5 & W6).
  assert (Hwl : forall k l, nthZ (us_len s) k = Some l -> 1 <= l).
  { intros k l Hl. pose proof (nthZ_range _ _ _ Hl). destruct (nthZ_some (us_values s) k) as (v & Hv); [lia|].
    specialize (W5 k v l Hv Hl). lia. }
  unfold utasks. apply (apply_tasks_err) with (tr := fun i k => u_tr ph s (srs i) k); auto.
  - intros i' k l d Hi' Hl Hd. rewrite (Hs i' Hi'). cbn [bind].
    destruct (strides_cases (srs i') l d ph (Hwl k l Hl) (W6 k d Hd)) as [[Hf E]|[Hf E]].
    + right. rewrite E. eexists. split; [reflexivity|]. intros k' b H1 H2 H3.
      apply (u_one_ok ph s (srs i') k' l d b); assumption.
    + left. exact E.
  - assert (Hex : exists k l d, nthZ (us_len s) k = Some l /\ nthZ (us_dil s) k = Some d /\ ~ fits ph (zlen (srs i)) l d).
    { destruct (forallb (fun k => if ph then true else
         (nthd 0 (us_len s) k - 1) * nthd 0 (us_dil s) k <=? zlen (srs i)) (zrange 0 (zlen (us_len s)))) eqn:E.
      - exfalso. apply Hnf. intros k l d Hl Hd. rewrite forallb_forall in E.
        pose proof (nthZ_range _ _ _ Hl) as Hk. specialize (E k (proj2 (in_zrange _ _ _) Hk)).
        unfold nthd in E. rewrite Hl, Hd in E. specialize (Hwl k l Hl). specialize (W6 k d Hd).
        destruct ph; unfold fits; [lia|]. apply Z.leb_le in E. lia.
      - assert (Hx : exists k, In k (zrange 0 (zlen (us_len s))) /\ (if ph then true else
         (nthd 0 (us_len s) k - 1) * nthd 0 (us_dil s) k <=? zlen (srs i)) = false).
        { clear -E. induction (zrange 0 (zlen (us_len s))) as [|k r IH]; simpl in E; [discriminate|].
          apply andb_false_iff in E as [E|E]; [exists k; simpl; auto|].
          destruct (IH E) as (k' & H1 & H2). exists k'. simpl; auto. }
        destruct Hx as (k & Hk & Ek). apply in_zrange in Hk.
        exists k, (nthd 0 (us_len s) k), (nthd 0 (us_dil s) k). repeat split; try (apply nthZ_nthd; lia).
        destruct ph; [discriminate|]. apply Z.leb_gt in Ek. unfold fits. lia. }
    destruct Hex as (k & l & d & Hl & Hd & Hnfk). exists i, k, l, d. repeat split; auto; try lia.
    rewrite (Hs i Hi). cbn [bind].
    destruct (strides_cases (srs i) l d ph (Hwl k l Hl) (W6 k d Hd)) as [[Hf E]|[Hf E]]; [contradiction|exact E].
Qed.
End Gen.

Lemma u_result_map (X : dataset F) ph s : u_result (ser X) ph s (zlen X) = map (fun x => u_row ph s (nthd [] x 0)) X.
Proof.
  unfold u_result, ser. rewrite <- (map_nthd_zrange [] X) at 2. rewrite map_map. reflexivity.
Qed.

(** ** Same length *)

Lemma U_SL_par (X : dataset F) s ph : has_ft X -> wf_ushp s ->
  (forall i, 0 <= i < zlen X -> fits_all ph s (zlen (ser X i))) ->
  exists ts, U_SL_tasks N X s ph = Ok ts /\ NoDup (cells (concat ts)) /\
    forall out, interleave ts out ->
      run_writes out (X_new0 N (zlen X) (zlen (us_len s))) = Ok (map (fun x => u_row ph s (nthd [] x 0)) X).
Proof.
  intros HX HW Hf. rewrite <- u_result_map. apply (utasks_ok (ser X) (u_series X)); auto.
  - apply zlen_nonneg.
  - intros i Hi. apply u_series_ok; assumption.
Qed.

Lemma U_SL_ok (X : dataset F) s ph : has_ft X -> wf_ushp s ->
  (forall i, 0 <= i < zlen X -> fits_all ph s (zlen (ser X i))) ->
  U_SL_apply N X s ph = Ok (map (fun x => u_row ph s (nthd [] x 0)) X).
Proof.
  intros HX HW Hf. destruct (U_SL_par X s ph HX HW Hf) as (ts & Hts & _ & H).
  unfold U_SL_apply. rewrite Hts. cbn [bind]. apply H. apply interleave_seq.
Qed.

Lemma U_SL_err (X : dataset F) s ph : has_ft X -> wf_ushp s ->
  (exists i, 0 <= i < zlen X /\ ~ fits_all ph s (zlen (ser X i))) ->
  U_SL_apply N X s ph = Err ValueError.
Proof.
  intros HX HW H. unfold U_SL_apply, U_SL_tasks.
  pose proof (utasks_err (ser X) (u_series X) ph s (zlen X)) as HH. unfold utasks in HH.
  rewrite HH; auto.
  intros i Hi. apply u_series_ok; assumption.
Qed.

(** ** Variable length *)

Lemma U_VL_par (X : dataset F) X_len s ph : has_ft X -> zlen X_len = zlen X -> wf_ushp s ->
  (forall i, 0 <= i < zlen X -> fits_all ph s (zlen (ser_vl X X_len i))) ->
  exists ts, U_VL_tasks N X X_len s ph = Ok ts /\ NoDup (cells (concat ts)) /\
    forall out, interleave ts out ->
      run_writes out (X_new0 N (zlen X) (zlen (us_len s))) = Ok (u_result (ser_vl X X_len) ph s (zlen X)).
Proof.
  intros HX HL HW Hf. apply (utasks_ok (ser_vl X X_len) (u_series_vl X X_len)); auto.
  - apply zlen_nonneg.
  - intros i Hi. apply u_series_vl_ok; assumption.
Qed.

Lemma U_VL_ok (X : dataset F) X_len s ph : has_ft X -> zlen X_len = zlen X -> wf_ushp s ->
  (forall i, 0 <= i < zlen X -> fits_all ph s (zlen (ser_vl X X_len i))) ->
  U_VL_apply N X X_len s ph = Ok (u_result (ser_vl X X_len) ph s (zlen X)).
Proof.
  intros HX HL HW Hf. destruct (U_VL_par X X_len s ph HX HL HW Hf) as (ts & Hts & _ & H).
  unfold U_VL_apply. rewrite Hts. cbn [bind]. apply H. apply interleave_seq.
Qed.

Lemma U_VL_err (X : dataset F) X_len s ph : has_ft X -> zlen X_len = zlen X -> wf_ushp s ->
  (exists i, 0 <= i < zlen X /\ ~ fits_all ph s (zlen (ser_vl X X_len i))) ->
  U_VL_apply N X X_len s ph = Err ValueError.
Proof.
  intros HX HL HW H. unfold U_VL_apply, U_VL_tasks.
  pose proof (utasks_err (ser_vl X X_len) (u_series_vl X X_len) ph s (zlen X)) as HH. unfold utasks in HH.
  rewrite HH; auto.
  intros i Hi. apply u_series_vl_ok; assumption.
Qed.

(** ** Reading a row *)

Lemma u_row_block ph s x k : 0 <= k < zlen (us_len s) -> block (u_row ph s x) k (u_tr ph s x k).
Proof.
  intros Hk. unfold block. destruct (u_tr ph s x k) as [[m a] c] eqn:E.
  assert (G : forall q, 0 <= q < 3 -> nthZ (u_row ph s x) (3 * k + q) = Some (tri (m, a, c) q)).
  { intros q Hq. unfold u_row. rewrite nthZ_map, nthZ_zrange by lia. cbn [option_map]. f_equal.
    replace ((0 + (3 * k + q)) / 3) with k by lia. replace ((0 + (3 * k + q)) mod 3) with q by lia.
    rewrite E. reflexivity. }
  repeat split.
  - rewrite <- (Z.add_0_r (3 * k)). apply (G 0). lia.
  - apply (G 1). lia.
  - apply (G 2). lia.
Qed.

Lemma zlen_u_row ph s x : zlen (u_row ph s x) = 3 * zlen (us_len s).
Proof. unfold u_row. rewrite zlen_map, zlen_zrange. pose proof (zlen_nonneg (us_len s)). lia. Qed.

End U.
