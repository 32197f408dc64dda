(** C88: what happens to the features when a series gets longer. *)
From Coq Require Import ZArith List Bool Reals Lra Lia.
From Verif Require Import Prelude Num Kernel Apply Spec KernelProofs RealBase RealProofs ApplyMulti TransformProofs TransformLaws SampleLaws Cases Longer.
From Verif Require ApplyUni.
Import ListNotations.
Open Scope Z_scope.

(** ** C88.  Longer series *)

(** every channel of the second sample is the channel of the first with [p] points before it and [q] points after it *)
Definition longer (p q : Z) (x x' : list (list R)) : Prop :=
  Forall2 (fun r r' => exists pre post, r' = pre ++ r ++ post /\ zlen pre = p /\ zlen post = q) x x'.
(** every channel of the third sample is the channel of the first followed by that of the second *)
Definition joined (x1 x2 x : list (list R)) : Prop :=
  zlen x1 = zlen x2 /\ zlen x = zlen x1 /\ forall ch r1 r2, nthZ x1 ch = Some r1 -> nthZ x2 ch = Some r2 -> nthZ x ch = Some (r1 ++ r2).

Lemma longer_zlen p q x x' n : longer p q x x' -> (forall r, In r x -> zlen r = n) -> forall r, In r x' -> zlen r = p + n + q.
Proof.
  intros H Hn. induction H as [|r r' x x' (pre & post & -> & A & B) _ IH]; intros y Hy; [destruct Hy|]. destruct Hy as [<-|Hy].
  - rewrite !zlen_app, A, B, (Hn r (or_introl eq_refl)). lia.
  - apply IH; [|exact Hy]. intros z Hz. apply Hn. right. exact Hz.
Qed.
Lemma mdistances_some nm n x chs vs l d : (l - 1) * d < n -> mdistances RN false nm n x chs vs l d <> [].
Proof.
  intros H E. apply (f_equal zlen) in E. unfold mdistances in E. rewrite zlen_map, zlen_zrange in E. change (zlen (@nil R)) with 0 in E. unfold nwin in E. lia.
Qed.
Lemma zlen_mdistances nm n x chs vs l d : (l - 1) * d <= n -> zlen (mdistances RN false nm n x chs vs l d) = n - (l - 1) * d.
Proof. intros H. unfold mdistances. rewrite zlen_map, zlen_zrange. unfold nwin. lia. Qed.
Lemma nthd_in {A} (d : A) l i : 0 <= i < zlen l -> In (nthd d l i) l.
Proof. intros H. apply nthZ_some in H as (a & E). rewrite (nthd_some d l i a E). eapply nthZ_In; eauto. Qed.

(** Without phase invariance, points added before and after a series (p and q of them) can only lower the minimum and raise the count, the count by at most one per point;
    when the new best match lies in the old part it is the old best match, p points later; after appending only, an unchanged minimum keeps its position. *)
Theorem C88_longer : forall (c c' : call R) T T' p q i i' x x' n k chs vs l d thr nm m a cnt m' a' cnt',
  wf_call c -> wf_call c' -> same_shapelets c c' -> sample_at c i x -> sample_at c' i' x' -> (forall r, In r x -> zlen r = n) ->
  0 <= p -> 0 <= q -> longer p q x x' -> run RN c false = Ok T -> run RN c' false = Ok T' ->
  shapelet_at c k chs vs l d thr nm -> (l - 1) * d < n -> cell3 T i k (m, a, cnt) -> cell3 T' i' k (m', a', cnt') ->
  (m' <= m /\ cnt <= cnt' <= cnt + IZR p + IZR q)%R /\
  ((IZR p <= a' < IZR p + IZR (n - (l - 1) * d))%R -> m' = m /\ a' = (IZR p + a)%R) /\
  (p = 0 -> m' = m -> a' = a).
Proof.
  intros c c' T T' p q i i' x x' n k chs vs l d thr nm m a cnt m' a' cnt' HW HW' HSS HS HS' Hn Hp Hq HX HT HT' HK Hw HC HC'.
  pose proof (longer_zlen p q x x' n HX Hn) as Hn'. destruct (run_fits RN c false T i x k chs vs l d thr nm n HW HT HS HK Hn) as (Hl & Hd & _).
  pose proof (cell_features c false T i k x chs vs l d thr nm n _ HW HT HS HK Hn HC) as F1. pose proof (same_shapelet_at c c' k chs vs l d thr nm HSS HK) as HK'.
  pose proof (cell_features c' false T' i' k x' chs vs l d thr nm _ _ HW' HT' HS' HK' Hn' HC') as F2.
  destruct (mdistances_inside RN nm n x x' chs vs l d p q Hp Hq Hd Hl ltac:(lia)) as (A & B & E & ZA & ZB).
  { intros ch Hch. pose proof (sample_zlen c i x k chs vs l d thr nm ch HW HS HK Hch) as Rc. split; [apply Hn, nthd_in, Rc|]. exact (Forall2_nthd _ x x' [] [] ch HX Rc). }
  rewrite E in F2. destruct (features_inside A _ B thr m a cnt m' a' cnt' (mdistances_some nm n x chs vs l d Hw) F1 F2) as (G1 & G2 & G3 & G4).
  rewrite zlen_mdistances in G3 by lia. rewrite ZA in *. rewrite ZB in *. split; [split; assumption|]. split; [exact G3|]. intros E0. apply G4. destruct A as [|y A]; [reflexivity|]. rewrite zlen_cons in ZA. pose proof (zlen_nonneg A). lia.
Qed.
Print Assumptions C88_longer.

(** Two series put one after the other: the minimum is at most that of each part, and the count is the sum of the counts plus at most one for each of the [(l-1)d] windows that cross.
    A best match in the first part is the one found there alone; a best match in the second part is the one found there alone, moved by the length of the first. *)
Theorem C88_joined : forall (c1 c2 c : call R) T1 T2 T i1 i2 i x1 x2 x n1 n2 k chs vs l d thr nm m1 a1 cnt1 m2 a2 cnt2 m a cnt,
  wf_call c1 -> wf_call c2 -> wf_call c -> same_shapelets c1 c2 -> same_shapelets c1 c -> sample_at c1 i1 x1 -> sample_at c2 i2 x2 -> sample_at c i x ->
  (forall r, In r x1 -> zlen r = n1) -> (forall r, In r x2 -> zlen r = n2) -> joined x1 x2 x ->
  run RN c1 false = Ok T1 -> run RN c2 false = Ok T2 -> run RN c false = Ok T ->
  shapelet_at c1 k chs vs l d thr nm -> (l - 1) * d < n1 -> (l - 1) * d < n2 ->
  cell3 T1 i1 k (m1, a1, cnt1) -> cell3 T2 i2 k (m2, a2, cnt2) -> cell3 T i k (m, a, cnt) ->
  (m <= Rmin m1 m2 /\ cnt1 + cnt2 <= cnt <= cnt1 + cnt2 + IZR ((l - 1) * d))%R /\
  ((a < IZR (n1 - (l - 1) * d))%R -> m = m1 /\ a = a1) /\ ((IZR n1 <= a)%R -> m = m2 /\ a = (IZR n1 + a2)%R).
Proof.
  intros c1 c2 c T1 T2 T i1 i2 i x1 x2 x n1 n2 k chs vs l d thr nm m1 a1 cnt1 m2 a2 cnt2 m a cnt W1 W2 W S12 S1 HS1 HS2 HS Hn1 Hn2 (J1 & J2 & J3) R1 R2 HR HK L1 L2 C1 C2 HC.
  destruct (run_fits RN c1 false T1 i1 x1 k chs vs l d thr nm n1 W1 R1 HS1 HK Hn1) as (Hl & Hd & _).
  assert (Hn : forall r, In r x -> zlen r = n1 + n2).
  { intros r Hr. apply In_nthZ in Hr as (ch & Hr). pose proof (nthZ_range _ _ _ Hr) as Q. destruct (nthZ_some x1 ch ltac:(lia)) as (r1 & Q1). destruct (nthZ_some x2 ch ltac:(lia)) as (r2 & Q2).
    rewrite (J3 ch r1 r2 Q1 Q2) in Hr. injection Hr as <-. rewrite zlen_app, (Hn1 r1), (Hn2 r2); [reflexivity| |]; eapply nthZ_In; eauto. }
  pose proof (cell_features c1 false T1 i1 k x1 chs vs l d thr nm _ _ W1 R1 HS1 HK Hn1 C1) as F1.
  pose proof (cell_features c2 false T2 i2 k x2 chs vs l d thr nm _ _ W2 R2 HS2 (same_shapelet_at c1 c2 k chs vs l d thr nm S12 HK) Hn2 C2) as F2.
  pose proof (cell_features c false T i k x chs vs l d thr nm _ _ W HR HS (same_shapelet_at c1 c k chs vs l d thr nm S1 HK) Hn HC) as FF.
  destruct (mdistances_concat nm n1 n2 x1 x2 x chs vs l d Hd Hl ltac:(lia) ltac:(lia)) as (C & E & ZC).
  { intros ch Hch. pose proof (sample_zlen c1 i1 x1 k chs vs l d thr nm ch W1 HS1 HK Hch) as Rc. destruct (nthZ_some x1 ch Rc) as (r1 & Q1). destruct (nthZ_some x2 ch ltac:(lia)) as (r2 & Q2).
    rewrite (nthd_some _ x1 ch r1 Q1), (nthd_some _ x2 ch r2 Q2), (nthd_some _ x ch _ (J3 ch r1 r2 Q1 Q2)). split; [eapply Hn1, nthZ_In; eauto|]. split; [eapply Hn2, nthZ_In; eauto|reflexivity]. }
  rewrite E in FF. destruct (features_concat _ C _ thr m1 a1 cnt1 m2 a2 cnt2 m a cnt (mdistances_some nm n1 x1 chs vs l d L1) (mdistances_some nm n2 x2 chs vs l d L2) F1 F2 FF) as (G1 & G2 & G3 & G4).
  rewrite ZC in *. rewrite zlen_mdistances in * by lia. split; [split; assumption|]. split; [exact G3|]. intros H.
  replace (IZR n1) with (IZR (n1 - (l - 1) * d) + IZR ((l - 1) * d))%R in * by (rewrite <- plus_IZR; f_equal; lia). exact (G4 H).
Qed.
Print Assumptions C88_joined.

(** With phase invariance the first claim is false: one appended point breaks the window that went round the end, and the minimum goes from 0 up to 1. *)
Theorem C88_phase_refuted : exists x y v D D',
  compute_shapelet_dist_vector RN x v 2 1 false true = Ok D /\ compute_shapelet_dist_vector RN (x ++ [y]) v 2 1 false true = Ok D' /\
  In 0%R D /\ forall t, In t D' -> (1 <= t)%R.
Proof.
  exists [3; 0; 1]%R, 0%R, [1; 3]%R, (distances RN true false [3; 0; 1]%R [1; 3]%R 2 1), (distances RN true false [3; 0; 1; 0]%R [1; 3]%R 2 1).
  split; [apply dist_vector_distances; cbn; lia|]. split; [apply dist_vector_distances; cbn; lia|]. unfold distances. 
  change (zrange 0 (nwin true (zlen [3; 0; 1]%R) 2 1)) with [0; 1; 2]. change (zrange 0 (nwin true (zlen [3; 0; 1; 0]%R) 2 1)) with [0; 1; 2; 3]. cbv -[IZR Rplus Rminus Rabs In Rle].
  split.
  - right. right. left. repeat match goal with |- context [Rabs ?r] => unfold Rabs at 1; destruct (Rcase_abs r); try lra end.
  - intros t [<-|[<-|[<-|[<-|[]]]]]; repeat match goal with |- context [Rabs ?r] => unfold Rabs at 1; destruct (Rcase_abs r); try lra end.
Qed.
Print Assumptions C88_phase_refuted.

(** The first series of the case with any points before and after it can be transformed; the first shapelet still matches it exactly, at least once. *)
Example C88_case : forall pre post, exists T' m' a' cnt',
  run RN (CallUS [[pre ++ map IZR [0; 1; 3; 1; 0; 2] ++ post]] (Cases.caseS IZR)) false = Ok T' /\ cell3 T' 0 0 (m', a', cnt') /\ m' = 0%R /\ (1 <= cnt' <= 1 + IZR (zlen pre) + IZR (zlen post))%R.
Proof.
  intros pre post. set (x' := pre ++ map IZR [0; 1; 3; 1; 0; 2] ++ post). set (c' := CallUS [[x']] (Cases.caseS IZR)).
  assert (ZX : zlen x' = zlen pre + 6 + zlen post) by (unfold x'; rewrite !zlen_app; change (zlen (map IZR [0; 1; 3; 1; 0; 2])) with 6; lia). pose proof (zlen_nonneg pre) as P1. pose proof (zlen_nonneg post) as P2.
  assert (HT' : exists T', run RN c' false = Ok T').
  { eexists. cbn [run c']. apply ApplyUni.U_SL_ok; [intros q [<-|[]]; discriminate|apply Cases.caseS_wf|]. intros i Hi. apply Cases.caseS_fits. change (zlen [[x']]) with 1 in Hi. assert (i = 0) as -> by lia. change (ApplyUni.ser [[x']] 0) with x'. lia. }
  destruct HT' as (T' & HT'). destruct (cases_run RN IZR (caseUS IZR) false (or_introl eq_refl)) as (T & HT).
  assert (HW : wf_call (caseUS IZR)) by (apply (cases_wf IZR); left; reflexivity).
  assert (W : wf_call c') by (split; [intros q [<-|[]]; discriminate|apply Cases.caseS_wf]).
  assert (HK : shapelet_at (caseUS IZR) 0 [0] [[1; 3]]%R 2 1 1%R false) by (constructor; split; [eexists; split; [reflexivity|reflexivity]|]; repeat split; reflexivity).
  assert (HS : sample_at (caseUS IZR) 0 [map IZR [0; 1; 3; 1; 0; 2]]) by (eapply sample_US; reflexivity).
  assert (HS' : sample_at c' 0 [x']) by (eapply sample_US; reflexivity).
  assert (ED : mdistances RN false false 6 [map IZR [0; 1; 3; 1; 0; 2]] [0] [[1; 3]]%R 2 1 = [3; 0; 4; 3; 2]%R).
  { unfold mdistances. change (zrange 0 (nwin false 6 2 1)) with [0; 1; 2; 3; 4]. cbv -[IZR Rplus Rminus Rabs].
    repeat match goal with |- context [Rabs ?r] => unfold Rabs at 1; destruct (Rcase_abs r); try lra end. repeat f_equal; lra. }
  destruct (cell_exists (caseUS IZR) false T 0 0 _ _ _ _ _ _ _ 6 HW HT HS HK ltac:(intros r [<-|[]]; reflexivity)) as (((m & a) & cnt) & HC & HF). rewrite ED in HF.
  destruct (cell_exists c' false T' 0 0 _ _ _ _ _ _ _ (zlen x') W HT' HS' (same_shapelet_at (caseUS IZR) c' 0 _ _ _ _ _ _ (same_US _ _ _) HK) ltac:(intros r [<-|[]]; reflexivity)) as (((m' & a') & cnt') & HC' & HF').
  exists T', m', a', cnt'. split; [exact HT'|]. split; [exact HC'|].
  assert (E : m = 0%R /\ cnt = 1%R).
  { destruct HF as [(E & _)|(k & Hk & Ha & Hm & Hf & Hc)]; [discriminate E|]. pose proof (Hm 1 0%R eq_refl) as M1. apply Rleb_true in M1. split.
    - apply nthZ_In in Hk. destruct Hk as [<-|[<-|[<-|[<-|[<-|[]]]]]]; lra.
    - rewrite Hc. cbn [filter nleb RN nofZ]. repeat match goal with |- context [Rleb ?u ?v] => first [rewrite (proj2 (Rleb_true u v)) by lra|rewrite (proj2 (Rleb_false u v)) by lra] end. reflexivity. }
  destruct E as (-> & ->).
  destruct (C88_longer (caseUS IZR) c' T T' (zlen pre) (zlen post) 0 0 [map IZR [0; 1; 3; 1; 0; 2]] [x'] 6 0 [0] [[1; 3]]%R 2 1 1%R false 0%R a 1%R m' a' cnt'
    HW W (same_US _ _ _) HS HS' ltac:(intros r [<-|[]]; reflexivity) P1 P2) as (Q & _); try assumption; try lia.
  { constructor; [|constructor]. exists pre, post. repeat split. }
  split; [|tauto]. destruct Q as (Q & _). assert (0 <= m')%R; [|lra]. destruct HF' as [(E & _)|(k & Hk & _)].
  - exfalso. apply (f_equal zlen) in E. unfold mdistances in E. rewrite zlen_map, zlen_zrange in E. change (zlen (@nil R)) with 0 in E. unfold nwin in E. lia.
  - apply nthZ_In in Hk. eapply mdistances_nonneg; eauto.
Qed.
