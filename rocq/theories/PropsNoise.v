(** C87: small changes of the data make small changes of the features, except at constant windows. *)
From Coq Require Import ZArith List Bool Reals Lra Lia.
From Verif Require Import Prelude Num Kernel Apply Spec KernelProofs RealBase RealProofs ApplyMulti TransformProofs TransformLaws SampleLaws Cases Noise.
Import ListNotations.
Open Scope Z_scope.

(** ** C87.  Noise *)

(** every point of the second sample is within [e] of the same point of the first *)
Definition within (e : R) (x x' : list (list R)) : Prop := Forall2 (Forall2 (fun a b => (Rabs (b - a) <= e)%R)) x x'.

(** The features [f'] computed from distances that each moved by at most [t], in terms of the features [f] and the distances [D] before:
    the minimum moves by at most [t]; the count lies between the counts at the threshold minus and plus [t], so it is the same when no distance is that near the threshold;
    the position is the same when every other distance was further than [2 t] above the minimum. *)
Definition stable (t : R) (D : list R) (thr : R) (f f' : R * R * R) : Prop :=
  let '(m, a, c) := f in let '(m', a', c') := f' in
  (Rabs (m' - m) <= t)%R /\
  (IZR (zlen (filter (fun y => Rleb y (thr - t)) D)) <= c' <= IZR (zlen (filter (fun y => Rleb y (thr + t)) D)))%R /\
  ((forall y, In y D -> (t < Rabs (y - thr))%R) -> c' = c) /\
  ((forall i y, nthZ D i = Some y -> IZR i <> a -> (m + 2 * t < y)%R) -> a' = a).

Lemma stable_features t D D' thr f f' : (0 <= t)%R -> zlen D' = zlen D ->
  (forall i y, nthZ D i = Some y -> exists y', nthZ D' i = Some y' /\ (Rabs (y' - y) <= t)%R) ->
  is_features RN D thr f -> is_features RN D' thr f' -> stable t D thr f f'.
Proof.
  intros Ht HZ HC HF HF'. destruct f as [[m a] c], f' as [[m' a'] c']. destruct D as [|y0 D0].
  - destruct D' as [|y' D']; [|rewrite zlen_cons in HZ; change (zlen (@nil R)) with 0 in HZ; pose proof (zlen_nonneg D'); lia].
    destruct HF as [(_ & -> & -> & ->)|(k & Q & _)]; [|apply nthZ_range in Q; change (zlen (@nil R)) with 0 in Q; lia]. destruct HF' as [(_ & -> & -> & ->)|(k & Q & _)]; [|apply nthZ_range in Q; change (zlen (@nil R)) with 0 in Q; lia].
    cbn. rewrite Rminus_diag_eq, Rabs_R0 by reflexivity. change (zlen (@nil R)) with 0. repeat split; lra || auto.
  - destruct (features_close t (y0 :: D0) D' thr m a c m' a' c' HZ HC ltac:(discriminate) HF HF') as (A & B & C & E). split; [exact A|]. split; [|split; [exact C|exact E]].
    assert (E1 : filter (fun y => Rleb y (thr - t)) (y0 :: D0) = filter (fun y => Rleb (y + t) thr) (y0 :: D0)).
    { apply filter_ext. intros y. destruct (Rleb (y + t) thr) eqn:Q; [apply Rleb_true in Q; apply Rleb_true; lra|apply Rleb_false in Q; apply Rleb_false; lra]. }
    assert (E2 : filter (fun y => Rleb y (thr + t)) (y0 :: D0) = filter (fun y => Rleb (y - t) thr) (y0 :: D0)).
    { apply filter_ext. intros y. destruct (Rleb (y - t) thr) eqn:Q; [apply Rleb_true in Q; apply Rleb_true; lra|apply Rleb_false in Q; apply Rleb_false; lra]. }
    rewrite E1, E2. exact B.
Qed.

(** values and channels of a shapelet correspond *)
Lemma shapelet_chs (c : call R) k chs vs l d thr nm : wf_call c -> shapelet_at c k chs vs l d thr nm -> zlen chs = zlen vs.
Proof.
  intros HW HK. destruct HK as [X s k v l d thr nm H|X XL s k v l d thr nm H|nf n X s L k chs vs l d thr nm H|nf n X XL s L k chs vs l d thr nm H]; try reflexivity.
  - destruct HW as (_ & (_ & _ & _ & _ & _ & _ & _ & P & _) & _). destruct H as (A & B & _). destruct (P k _ l A B) as (E & _). symmetry. exact E.
  - destruct HW as (_ & _ & (_ & _ & _ & _ & _ & _ & _ & P & _) & _). destruct H as (A & B & _). destruct (P k _ l A B) as (E & _). symmetry. exact E.
Qed.
Lemma within_zlen e x x' n : within e x x' -> (forall r, In r x -> zlen r = n) -> forall r, In r x' -> zlen r = n.
Proof.
  intros H Hn. induction H as [|q q' x x' Hq _ IH]; intros y Hy; [destruct Hy|]. destruct Hy as [<-|Hy].
  - rewrite (close_zlen e q q' Hq). apply Hn. left. reflexivity.
  - apply IH; [|exact Hy]. intros z Hz. apply Hn. right. exact Hz.
Qed.
Lemma fits_len ph n l d : fits ph n l d -> 0 <= l.
Proof. unfold fits. destruct ph; lia. Qed.

(** Without normalisation: if every point moves by at most [e], every distance moves by at most [e] times the number of points compared. *)
Theorem C87_noise : forall (c c' : call R) ph T T' e i i' x x' n k chs vs l d thr f f',
  wf_call c -> wf_call c' -> same_shapelets c c' -> sample_at c i x -> sample_at c' i' x' -> (forall r, In r x -> zlen r = n) ->
  (0 <= e)%R -> within e x x' -> run RN c ph = Ok T -> run RN c' ph = Ok T' ->
  shapelet_at c k chs vs l d thr false -> cell3 T i k f -> cell3 T' i' k f' ->
  stable (e * IZR l * IZR (zlen chs)) (mdistances RN ph false n x chs vs l d) thr f f'.
Proof.
  intros c c' ph T T' e i i' x x' n k chs vs l d thr f f' HW HW' HSS HS HS' Hn He HX HT HT' HK HC HC'.
  pose proof (within_zlen e x x' n HX Hn) as Hn'. pose proof (fits_len _ _ _ _ (run_fits RN c ph T i x k chs vs l d thr false n HW HT HS HK Hn)) as Hl.
  pose proof (cell_features c ph T i k x chs vs l d thr false n _ HW HT HS HK Hn HC) as F1. pose proof (same_shapelet_at c c' k chs vs l d thr false HSS HK) as HK'.
  pose proof (cell_features c' ph T' i' k x' chs vs l d thr false n _ HW' HT' HS' HK' Hn' HC') as F2.
  apply (stable_features _ _ (mdistances RN ph false n x' chs vs l d)); [|unfold mdistances; rewrite !zlen_map; reflexivity| |exact F1|exact F2].
  - assert (0 <= IZR l)%R by (apply IZR_le; lia). assert (0 <= IZR (zlen chs))%R by (apply IZR_le, zlen_nonneg). apply Rmult_le_pos; [apply Rmult_le_pos|]; assumption.
  - intros j y Hy. apply (distances_close e ph n x x' chs vs l d j y He Hl (shapelet_chs c k chs vs l d thr false HW HK)); [|exact Hy].
    intros ch Hch. exact (Forall2_nthd _ x x' [] [] ch HX (sample_zlen c i x k chs vs l d thr false ch HW HS HK Hch)).
Qed.
Print Assumptions C87_noise.

(** With normalisation: the same with [4 e / (sd + 1e-8)] in place of [e], where no window of the first sample has a standard deviation below [sd]. *)
Theorem C87_normalised_noise : forall (c c' : call R) ph T T' e sd i i' x x' n k chs vs l d thr f f',
  wf_call c -> wf_call c' -> same_shapelets c c' -> sample_at c i x -> sample_at c' i' x' -> (forall r, In r x -> zlen r = n) ->
  (0 <= e)%R -> within e x x' -> run RN c ph = Ok T -> run RN c' ph = Ok T' ->
  shapelet_at c k chs vs l d thr true -> (0 <= sd)%R ->
  (forall ch j, In ch chs -> 0 <= j < nwin ph n l d -> (sd <= sdev RN (window RN ph (nthd [] x ch) l d j))%R) ->
  cell3 T i k f -> cell3 T' i' k f' ->
  stable (4 * e * IZR l / (sd + 1 / 10 ^ 8) * IZR (zlen chs)) (mdistances RN ph true n x chs vs l d) thr f f'.
Proof.
  intros c c' ph T T' e sd i i' x x' n k chs vs l d thr f f' HW HW' HSS HS HS' Hn He HX HT HT' HK Hsd HSD HC HC'.
  replace (1 / 10 ^ 8)%R with (neps RN) by (cbn; lra).
  pose proof (within_zlen e x x' n HX Hn) as Hn'. pose proof (fits_len _ _ _ _ (run_fits RN c ph T i x k chs vs l d thr true n HW HT HS HK Hn)) as Hl.
  pose proof (cell_features c ph T i k x chs vs l d thr true n _ HW HT HS HK Hn HC) as F1. pose proof (same_shapelet_at c c' k chs vs l d thr true HSS HK) as HK'.
  pose proof (cell_features c' ph T' i' k x' chs vs l d thr true n _ HW' HT' HS' HK' Hn' HC') as F2.
  apply (stable_features _ _ (mdistances RN ph true n x' chs vs l d)); [|unfold mdistances; rewrite !zlen_map; reflexivity| |exact F1|exact F2].
  - assert (0 <= IZR l)%R by (apply IZR_le; lia). assert (0 <= IZR (zlen chs))%R by (apply IZR_le, zlen_nonneg). pose proof eps_pos as P. assert (I : (0 < / (sd + neps RN))%R) by (apply Rinv_0_lt_compat; lra).
    apply Rmult_le_pos; [|assumption]. unfold Rdiv. apply Rmult_le_pos; [|lra]. apply Rmult_le_pos; [lra|assumption].
  - intros j y Hy. pose proof (nthZ_range _ _ _ Hy) as Rj. unfold mdistances in Rj. rewrite zlen_map, zlen_zrange in Rj.
    apply (ndistances_close e sd ph n x x' chs vs l d j y He Hsd Hl (shapelet_chs c k chs vs l d thr true HW HK)); [| |exact Hy].
    + intros ch Hch. exact (Forall2_nthd _ x x' [] [] ch HX (sample_zlen c i x k chs vs l d thr true ch HW HS HK Hch)).
    + intros ch Hch. apply HSD; [exact Hch|lia].
Qed.
Print Assumptions C87_normalised_noise.

(** A window that is constant has deviation 0 and the factor is [4e8]: a change of one millionth in one point moves the distance from 0 to more than 1.9. *)
Theorem C87_constant_windows : forall e, (0 < e)%R ->
  compute_shapelet_dist_vector RN [0; 0]%R [0; 0]%R 2 1 true false = Ok [0%R] /\
  exists y, compute_shapelet_dist_vector RN [0; e]%R [0; 0]%R 2 1 true false = Ok [y] /\ y = (e / (e / 2 + 1 / 10 ^ 8))%R /\ ((1 / 10 ^ 6 <= e)%R -> (1.9 < y)%R).
Proof.
  intros e He. assert (Z0 : zscore RN [0; 0]%R = [0; 0]%R).
  { unfold zscore. rewrite avg_R. change (zlen [0; 0]%R) with 2. cbn [map rsum ndiv nsub nadd RN]. replace ((0 - (0 + (0 + 0)) / 2) / (sdev RN [0; 0]%R + neps RN))%R with 0%R by (unfold Rdiv; ring). reflexivity. }
  assert (A : avg RN [0; e]%R = (e / 2)%R) by (rewrite avg_R; change (zlen [0; e]%R) with 2; cbn [rsum]; lra).
  assert (S : sdev RN [0; e]%R = (e / 2)%R).
  { rewrite sdev_R, A. change (zlen [0; e]%R) with 2. cbn [map rsum]. unfold ssq. cbn [map rsum]. match goal with |- R_sqrt.sqrt ?u = _ => replace u with ((e / 2) * (e / 2))%R by field end. apply sqrt_square. lra. }
  assert (Z1 : zscore RN [0; e]%R = [- (e / 2) / (e / 2 + neps RN); (e / 2) / (e / 2 + neps RN)]%R).
  { unfold zscore. rewrite A, S. cbn [map ndiv nsub nadd RN]. f_equal; [unfold Rdiv; ring|]. f_equal. unfold Rdiv. field_simplify_eq; [ring|]. pose proof eps_pos. lra. }
  split.
  - rewrite dist_vector_distances by (cbn; lia). unfold distances. change (zrange 0 (nwin false (zlen [0; 0]%R) 2 1)) with [0]. cbn [map seen].
    change (window RN false [0; 0]%R 2 1 0) with [0; 0]%R. rewrite Z0. cbv -[IZR Rplus Rminus Rabs]. rewrite Rminus_0_r, Rabs_R0. do 2 f_equal. lra.
  - rewrite dist_vector_distances by (cbn; lia). unfold distances. change (zrange 0 (nwin false (zlen [0; e]%R) 2 1)) with [0]. cbn [map seen].
    change (window RN false [0; e]%R 2 1 0) with [0; e]%R. rewrite Z1. eexists. split; [reflexivity|]. replace (1 / 10 ^ 8)%R with (neps RN) by (cbn; lra).
    assert (E : l1 RN [- (e / 2) / (e / 2 + neps RN); (e / 2) / (e / 2 + neps RN)]%R [0; 0]%R = (e / (e / 2 + neps RN))%R).
    { pose proof eps_pos as P. assert (I : (0 < / (e / 2 + neps RN))%R) by (apply Rinv_0_lt_compat; lra). set (u := neps RN) in *. cbv -[IZR Rplus Rminus Rabs Rdiv Rmult Rinv Ropp u]. rewrite !Rminus_0_r.
      rewrite (Rabs_left1 (- (e / 2) / (e / 2 + u))), (Rabs_pos_eq (e / 2 / (e / 2 + u))); unfold Rdiv; [lra| |].
      - apply Rmult_le_pos; lra.
      - rewrite Ropp_mult_distr_l_reverse. assert (0 <= e * / 2 * / (e * / 2 + u))%R by (apply Rmult_le_pos; unfold Rdiv in I; lra). lra. }
    rewrite E. split; [reflexivity|]. intros H. pose proof eps_pos as P. assert (U : neps RN = (/ 10 ^ 8)%R) by (cbn; lra). rewrite U in *.
    apply (Rmult_lt_reg_r (e / 2 + / 10 ^ 8)); [lra|]. replace (e / (e / 2 + / 10 ^ 8) * (e / 2 + / 10 ^ 8))%R with e by (field; lra). lra.
Qed.
Print Assumptions C87_constant_windows.

(** The first series of the case with any noise of at most an eighth per point: the best match stays at position 1, its distance at most a quarter, and one window within the threshold. *)
Example C87_case : forall x' T' f', Forall2 (fun a b => (Rabs (b - a) <= 1 / 8)%R) (map IZR [0; 1; 3; 1; 0; 2]) x' ->
  run RN (CallUS [[x']] (Cases.caseS IZR)) false = Ok T' -> cell3 T' 0 0 f' ->
  exists m', f' = (m', 1, 1)%R /\ (Rabs m' <= 1 / 4)%R.
Proof.
  intros x' T' f' HX HT' HC'. destruct (cases_run RN IZR (caseUS IZR) false (or_introl eq_refl)) as (T & HT).
  assert (HW : wf_call (caseUS IZR)) by (apply (cases_wf IZR); left; reflexivity).
  assert (HK : shapelet_at (caseUS IZR) 0 [0] [[1; 3]]%R 2 1 1%R false) by (constructor; split; [eexists; split; [reflexivity|reflexivity]|]; repeat split; reflexivity).
  assert (HS : sample_at (caseUS IZR) 0 [map IZR [0; 1; 3; 1; 0; 2]]) by (eapply sample_US; reflexivity).
  assert (ED : mdistances RN false false 6 [map IZR [0; 1; 3; 1; 0; 2]] [0] [[1; 3]]%R 2 1 = [3; 0; 4; 3; 2]%R).
  { unfold mdistances. change (zrange 0 (nwin false 6 2 1)) with [0; 1; 2; 3; 4]. cbv -[IZR Rplus Rminus Rabs].
    repeat match goal with |- context [Rabs ?r] => unfold Rabs at 1; destruct (Rcase_abs r); try lra end. repeat f_equal; lra. }
  assert (HF : exists f, cell3 T 0 0 f /\ is_features RN [3; 0; 4; 3; 2]%R 1%R f).
  { pose proof (dist_of_sample (caseUS IZR) false 0 0 _ _ _ _ _ _ _ 6 HW HS HK) as HD. rewrite ED in HD. specialize (HD ltac:(intros r [<-|[]]; reflexivity)).
    pose proof (call_cell RN (caseUS IZR) false T 0 0 _ _ HW HT HD) as HC. eexists. split; [exact HC|]. eapply (cell_features (caseUS IZR) false T 0 0 _ _ _ _ _ _ _ 6) in HC; [|exact HW|exact HT|exact HS|exact HK|intros r [<-|[]]; reflexivity]. rewrite ED in HC. exact HC. }
  destruct HF as (f & HC & HF). destruct f as [[m a] cnt]. assert (W : wf_call (CallUS [[x']] (Cases.caseS IZR))) by (split; [intros q [<-|[]]; discriminate|apply Cases.caseS_wf]).
  pose proof (C87_noise (caseUS IZR) (CallUS [[x']] (Cases.caseS IZR)) false T T' (1 / 8)%R 0 0 [map IZR [0; 1; 3; 1; 0; 2]] [x'] 6 0 [0] [[1; 3]]%R 2 1 1%R (m, a, cnt) f'
    HW W (same_US _ _ _) HS (sample_US [[x']] (Cases.caseS IZR) 0 [x'] x' eq_refl eq_refl) ltac:(intros r [<-|[]]; reflexivity) ltac:(lra) (Forall2_cons _ _ HX (Forall2_nil _)) HT HT' HK HC HC') as Q.
  rewrite ED in Q. destruct f' as [[m' a'] cnt']. change (zlen [0]) with 1 in Q. destruct Q as (Q1 & _ & Q3 & Q4).
  assert (E : m = 0%R /\ a = 1%R /\ cnt = 1%R).
  { destruct HF as [(E & _)|(k & Hk & Ha & Hm & Hf & Hc)]; [discriminate E|]. pose proof (Hm 1 0%R eq_refl) as M1. apply Rleb_true in M1. cbn [nofZ RN] in *.
    assert (K : k = 1). { pose proof (nthZ_range _ _ _ Hk) as Rk. change (zlen _) with 5 in Rk. assert (C : k = 0 \/ k = 1 \/ k = 2 \/ k = 3 \/ k = 4) by lia.
      destruct C as [->|[->|[->|[->| ->]]]]; try reflexivity; apply (f_equal (fun o => match o with Some v => v | None => 0%R end)) in Hk; cbv -[IZR] in Hk; lra. }
    subst k. apply (f_equal (fun o => match o with Some v => v | None => 0%R end)) in Hk. cbv -[IZR] in Hk. subst m a. split; [reflexivity|]. split; [reflexivity|]. rewrite Hc. cbn [filter nleb RN].
    repeat match goal with |- context [Rleb ?u ?v] => first [rewrite (proj2 (Rleb_true u v)) by lra|rewrite (proj2 (Rleb_false u v)) by lra] end. reflexivity. }
  destruct E as (-> & -> & ->). exists m'. rewrite Q3, Q4.
  - split; [reflexivity|]. rewrite Rminus_0_r in Q1. lra.
  - intros i y Hy Hi. pose proof (nthZ_range _ _ _ Hy) as Ri. change (zlen _) with 5 in Ri. assert (C : i = 0 \/ i = 1 \/ i = 2 \/ i = 3 \/ i = 4) by lia.
    destruct C as [->|[->|[->|[->| ->]]]]; try (exfalso; apply Hi; reflexivity); apply (f_equal (fun o => match o with Some v => v | None => 0%R end)) in Hy; cbv -[IZR] in Hy; lra.
  - intros y [<-|[<-|[<-|[<-|[<-|[]]]]]]; unfold Rabs; destruct (Rcase_abs _); lra.
Qed.
