(** Property C95: time reversal. *)
From Coq Require Import ZArith List Bool Reals Lra Lia Permutation.
From Verif Require Import Prelude Num Kernel Apply Spec KernelProofs RealBase RealProofs ApplyUni ApplyMulti TransformProofs TransformLaws SampleLaws Cases PropsNoise PropsSimilar.
Import ListNotations.
Open Scope Z_scope.

(** ** C95.  Time reversal *)

(** the window at [i], read backwards, starts here in the reversed series of [n] points *)
Definition mirror (ph : bool) (n l d i : Z) : Z := pos ph n (n - 1 - (l - 1) * d - i).

Lemma nthZ_rev {A} (l : list A) i : 0 <= i < zlen l -> nthZ (rev l) i = nthZ l (zlen l - 1 - i).
Proof.
  revert i. induction l as [|x l IH]; intros i Hi; [change (zlen (@nil A)) with 0 in Hi; lia|]. rewrite zlen_cons in *. cbn [rev]. rewrite nthZ_app. assert (E : zlen (rev l) = zlen l) by (unfold zlen; rewrite rev_length; reflexivity). rewrite E.
  destruct (Z.ltb_spec i (zlen l)) as [L|L].
  - rewrite IH by lia. rewrite nthZ_cons. replace (zlen l + 1 - 1 - i =? 0) with false by lia. f_equal. lia.
  - replace (i - zlen l) with 0 by lia. rewrite nthZ_cons. replace (zlen l + 1 - 1 - i) with 0 by lia. reflexivity.
Qed.
Lemma zlen_rev {A} (l : list A) : zlen (rev l) = zlen l.
Proof. unfold zlen. rewrite rev_length. reflexivity. Qed.
Lemma pt_rev (r : list R) i : 0 <= i < zlen r -> pt RN (rev r) i = pt RN r (zlen r - 1 - i).
Proof. intros H. unfold pt, nthd. rewrite nthZ_rev by exact H. reflexivity. Qed.
Lemma rev_map_zrange {A} (f : Z -> A) l : 0 <= l -> rev (map f (zrange 0 l)) = map (fun j => f (l - 1 - j)) (zrange 0 l).
Proof.
  intros Hl. apply nthZ_ext.
  - rewrite zlen_rev, !zlen_map. reflexivity.
  - intros i Hi. rewrite zlen_rev, zlen_map, zlen_zrange in Hi. rewrite nthZ_rev by (rewrite zlen_map, zlen_zrange; lia). rewrite !nthZ_map, zlen_map, zlen_zrange. rewrite !nthZ_zrange by lia. cbn [option_map]. do 2 f_equal. lia.
Qed.

Lemma mirror_involutive ph n l d i : 0 <= i < nwin ph n l d -> 0 <= mirror ph n l d i < nwin ph n l d /\ mirror ph n l d (mirror ph n l d i) = i.
Proof.
  unfold mirror, pos, nwin. destruct ph; intros H; [|lia]. set (K := n - 1 - (l - 1) * d). split; [apply Z.mod_pos_bound; lia|].
  rewrite Zminus_mod_idemp_r. replace (K - (K - i)) with i by ring. apply Z.mod_small. exact H.
Qed.

Lemma window_rev ph (r : list R) l d i : 1 <= l -> 0 <= d -> 0 <= i < nwin ph (zlen r) l d -> window RN ph (rev r) l d i = rev (window RN ph r l d (mirror ph (zlen r) l d i)).
Proof.
  intros Hl Hd Hi. unfold window. rewrite rev_map_zrange by lia. apply map_ext_in. intros j Hj. apply in_zrange in Hj. rewrite zlen_rev. set (n := zlen r) in *. unfold mirror, pos, nwin in *. destruct ph.
  - pose proof (Z.mod_pos_bound (i + j * d) n ltac:(lia)) as B. rewrite pt_rev by exact B. fold n. f_equal.
    rewrite Zplus_mod_idemp_l. replace (n - 1 - (l - 1) * d - i + (l - 1 - j) * d) with (n - 1 - (i + j * d)) by ring. rewrite <- Zminus_mod_idemp_r. symmetry. apply Z.mod_small. lia.
  - assert (0 <= j * d <= (l - 1) * d) by nia. rewrite pt_rev by (fold n; lia). fold n. f_equal. ring.
Qed.

Lemma rsum_rev l : rsum (rev l) = rsum l.
Proof. apply rsum_perm, Permutation_sym, Permutation_rev. Qed.
Lemma zscore_rev w : zscore RN (rev w) = rev (zscore RN w).
Proof.
  unfold zscore. assert (A : avg RN (rev w) = avg RN w) by (rewrite !avg_R, rsum_rev, zlen_rev; reflexivity).
  assert (S : sdev RN (rev w) = sdev RN w) by (rewrite !sdev_R, A, zlen_rev; unfold ssq; rewrite map_rev, rsum_rev; reflexivity). rewrite A, S, map_rev. reflexivity.
Qed.
Lemma seen_rev nm w : seen RN nm (rev w) = rev (seen RN nm w).
Proof. destruct nm; [apply zscore_rev|reflexivity]. Qed.
Lemma l1_rev w v : zlen v = zlen w -> l1 RN (rev w) (rev v) = l1 RN w v.
Proof.
  intros E. rewrite !l1_rsum, zlen_rev. pose proof (zlen_nonneg w) as P. rewrite <- (rsum_rev (map (fun j => Rabs (pt RN w j - pt RN v j)%R) (zrange 0 (zlen w)))), rev_map_zrange by exact P.
  apply rsum_map_ext. intros j Hj. apply in_zrange in Hj. rewrite !pt_rev by lia. rewrite E. reflexivity.
Qed.

(** the distances of the reversed series to the reversed shapelet, at the mirrored positions *)
Lemma mdistances_rev ph nm n x chs vs l d : 1 <= l -> 0 <= d -> (forall ch, In ch chs -> 0 <= ch < zlen x) -> (forall r, In r x -> zlen r = n) -> (forall v, In v vs -> zlen v = l) ->
  forall i, 0 <= i < nwin ph n l d -> nthZ (mdistances RN ph nm n (map (@rev R) x) chs (map (@rev R) vs) l d) i = nthZ (mdistances RN ph nm n x chs vs l d) (mirror ph n l d i).
Proof.
  intros Hl Hd HC Hn HV i Hi. unfold mdistances. rewrite !nthZ_map. destruct (mirror_involutive ph n l d i Hi) as (M & _). rewrite !nthZ_zrange by lia. cbn [option_map]. f_equal. rewrite !Z.add_0_l. rewrite !sumF_rsum.
  clear M. revert vs HV. induction chs as [|ch chs IH]; intros vs HV; [reflexivity|]. destruct vs as [|v vs]; [reflexivity|]. cbn [map combine rsum fst snd]. f_equal.
  - destruct (nthZ_some x ch (HC ch (or_introl eq_refl))) as (r & Hr). assert (Hr' : nthZ (map (@rev R) x) ch = Some (rev r)) by (rewrite nthZ_map, Hr; reflexivity).
    rewrite (nthd_some [] x ch r Hr), (nthd_some [] (map (@rev R) x) ch (rev r) Hr'). pose proof (Hn r (nthZ_In _ _ _ Hr)) as Z. rewrite window_rev by (rewrite ?Z; assumption). rewrite Z, seen_rev. apply l1_rev.
    rewrite (HV v (or_introl eq_refl)). symmetry. apply zlen_seen. lia.
  - apply IH; [intros c Hc; apply HC; right; exact Hc|intros q Hq; apply HV; right; exact Hq].
Qed.

Lemma filter_perm {A} (f : A -> bool) l l' : Permutation l l' -> Permutation (filter f l) (filter f l').
Proof.
  intros H. induction H as [|x l l' _ IH|x y l|l l' l'' _ IH1 _ IH2]; cbn [filter].
  - constructor.
  - destruct (f x); [constructor|]; exact IH.
  - destruct (f x), (f y); try constructor; apply Permutation_refl.
  - eapply Permutation_trans; eauto.
Qed.

Lemma NoDup_map_on {A B} (f : A -> B) l : (forall x y, In x l -> In y l -> f x = f y -> x = y) -> NoDup l -> NoDup (map f l).
Proof.
  intros Hf H. induction H as [|x l Hx _ IH]; cbn [map]; constructor.
  - intros Q. apply in_map_iff in Q as (y & E & Hy). apply Hx. rewrite (Hf x y (or_introl eq_refl) (or_intror Hy) (eq_sym E)). exact Hy.
  - apply IH. intros y z Hy Hz. apply Hf; right; assumption.
Qed.

(** two lists with the same entries in other places *)
Lemma mirror_perm {A} (D D' : list A) s w : zlen D = w -> zlen D' = w -> (forall i, 0 <= i < w -> 0 <= s i < w /\ s (s i) = i /\ nthZ D' i = nthZ D (s i)) -> Permutation D' D.
Proof.
  intros Z1 Z2 H. destruct D as [|a0 D0].
  { change (zlen (@nil A)) with 0 in Z1. destruct D' as [|b D']; [constructor|]. rewrite zlen_cons in Z2. pose proof (zlen_nonneg D'). lia. }
  set (D := a0 :: D0) in *. pose proof (zlen_nonneg D) as PW.
  assert (E1 : D = map (nthd a0 D) (zrange 0 w)).
  { apply nthZ_ext; [rewrite zlen_map, zlen_zrange; lia|]. intros i Hi. rewrite nthZ_map, nthZ_zrange by lia. cbn [option_map]. rewrite Z.add_0_l. destruct (nthZ_some D i Hi) as (y & Hy). rewrite Hy, (nthd_some a0 D i y Hy). reflexivity. }
  assert (E2 : D' = map (nthd a0 D) (map s (zrange 0 w))).
  { apply nthZ_ext; [rewrite !zlen_map, zlen_zrange; lia|]. intros i Hi. rewrite !nthZ_map, nthZ_zrange by lia. cbn [option_map]. rewrite Z.add_0_l. destruct (H i ltac:(lia)) as (B & _ & ->). destruct (nthZ_some D (s i) ltac:(lia)) as (y & Hy). rewrite Hy, (nthd_some a0 D (s i) y Hy). reflexivity. }
  rewrite E2. replace (Permutation (map (nthd a0 D) (map s (zrange 0 w))) D) with (Permutation (map (nthd a0 D) (map s (zrange 0 w))) (map (nthd a0 D) (zrange 0 w))) by (rewrite <- E1; reflexivity).
  apply Permutation_map. apply NoDup_Permutation.
  - apply NoDup_map_on; [|apply zrange_NoDup]. intros i j Hi Hj E. apply in_zrange in Hi, Hj. destruct (H i Hi) as (_ & <- & _). destruct (H j Hj) as (_ & <- & _). congruence.
  - apply zrange_NoDup.
  - intros i. rewrite in_map_iff. split.
    + intros (j & <- & Hj). apply in_zrange in Hj. apply in_zrange. apply (H j Hj).
    + intros Hi. apply in_zrange in Hi. exists (s i). destruct (H i Hi) as (A1 & A2 & _). split; [exact A2|]. apply in_zrange. exact A1.
Qed.

Open Scope R_scope.
Lemma features_mirror (D D' : list R) s w thr m a cnt m' a' cnt' : (0 < w)%Z -> zlen D = w -> zlen D' = w -> (forall i, (0 <= i < w)%Z -> (0 <= s i < w)%Z /\ s (s i) = i /\ nthZ D' i = nthZ D (s i)) ->
  is_features RN D thr (m, a, cnt) -> is_features RN D' thr (m', a', cnt') ->
  m' = m /\ cnt' = cnt /\ exists k k', a = IZR k /\ a' = IZR k' /\ (0 <= k < w)%Z /\ (0 <= k' < w)%Z /\ nthZ D (s k') = Some m /\
    (forall j, nthZ D j = Some m -> (k <= j)%Z) /\ (forall j, nthZ D j = Some m -> (k' <= s j)%Z).
Proof.
  intros Hw Z1 Z2 H F1 F2. assert (NE : forall L : list R, zlen L = w -> L <> []) by (intros L E Q; rewrite Q in E; change (zlen (@nil R)) with 0%Z in E; lia).
  destruct F1 as [(E & _)|(k & K1 & K2 & K3 & K4 & K5)]; [destruct (NE _ Z1 E)|]. destruct F2 as [(E & _)|(q & Q1 & Q2 & Q3 & Q4 & Q5)]; [destruct (NE _ Z2 E)|]. cbn [nofZ nleb nltb RN] in *.
  pose proof (nthZ_range _ _ _ K1) as Rk. pose proof (nthZ_range _ _ _ Q1) as Rq. rewrite Z1 in Rk. rewrite Z2 in Rq.
  destruct (H q Rq) as (A1 & A2 & A3). rewrite A3 in Q1. pose proof (K3 _ _ Q1) as L1. apply Rleb_true in L1.
  destruct (H (s k) (proj1 (H k Rk))) as (B1 & B2 & B3). rewrite (proj1 (proj2 (H k Rk))) in B3. rewrite K1 in B3. pose proof (Q3 _ _ B3) as L2. apply Rleb_true in L2. assert (E : m' = m) by lra. split; [exact E|]. split.
  - rewrite K5, Q5. f_equal. pose proof (filter_perm (fun x => Rleb x thr) _ _ (mirror_perm D D' s w Z1 Z2 H)) as P. apply Permutation_length in P. unfold zlen. rewrite P. reflexivity.
  - exists k, q. repeat (split; [assumption || lia|]). split; [rewrite <- E; exact Q1|]. split.
    + intros j Hj. destruct (Z_lt_le_dec j k) as [L|L]; [|exact L]. pose proof (K4 _ _ Hj L) as L3. apply Rltb_true in L3. lra.
    + intros j Hj. pose proof (nthZ_range _ _ _ Hj) as Rj. rewrite Z1 in Rj. destruct (H j Rj) as (C1 & C2 & _). destruct (H (s j) C1) as (_ & _ & C3). rewrite C2, Hj in C3. destruct (Z_lt_le_dec (s j) q) as [L|L]; [|exact L].
      pose proof (Q4 _ _ C3 L) as L3. apply Rltb_true in L3. lra.
Qed.
Close Scope R_scope.

(** All channels of a series and all values of a shapelet read backwards: the same minimum and the same count.  If the minimum occurs once only, the new position is the mirror image of the old one;
    without phase invariance the two positions add up to at most the number of windows minus 1. *)
Theorem C95_reversed : forall (c c' : call R) ph T T' i i' x n k k' chs vs l d thr nm m a cnt m' a' cnt',
  wf_call c -> wf_call c' -> run RN c ph = Ok T -> run RN c' ph = Ok T' -> sample_at c i x -> sample_at c' i' (map (@rev R) x) -> (forall r, In r x -> zlen r = n) -> 0 < nwin ph n l d -> 0 <= d ->
  shapelet_at c k chs vs l d thr nm -> shapelet_at c' k' chs (map (@rev R) vs) l d thr nm -> cell3 T i k (m, a, cnt) -> cell3 T' i' k' (m', a', cnt') ->
  m' = m /\ cnt' = cnt /\
  ((forall j j', nthZ (mdistances RN ph nm n x chs vs l d) j = Some m -> nthZ (mdistances RN ph nm n x chs vs l d) j' = Some m -> j = j') -> exists p, a = IZR p /\ a' = IZR (mirror ph n l d p)) /\
  (ph = false -> (a + a' <= IZR (nwin ph n l d - 1))%R).
Proof.
  intros c c' ph T T' i i' x n k k' chs vs l d thr nm m a cnt m' a' cnt' W W' HT HT' S S' Hn Hw Hd K K' C C'.
  destruct (shapelet_rows c k chs vs l d thr nm W K) as (Hl & HV).
  assert (Hn' : forall r, In r (map (@rev R) x) -> zlen r = n) by (intros r Hr; apply in_map_iff in Hr as (q & <- & Hq); rewrite zlen_rev; apply Hn, Hq).
  pose proof (cell_features c ph T i k x chs vs l d thr nm n _ W HT S K Hn C) as F1. pose proof (cell_features c' ph T' i' k' (map (@rev R) x) chs (map (@rev R) vs) l d thr nm n _ W' HT' S' K' Hn' C') as F2.
  assert (ZL : forall y us, zlen (mdistances RN ph nm n y chs us l d) = nwin ph n l d) by (intros y us; unfold mdistances; rewrite zlen_map, zlen_zrange; lia).
  destruct (features_mirror _ _ (mirror ph n l d) (nwin ph n l d) thr m a cnt m' a' cnt' Hw (ZL x vs) (ZL (map (@rev R) x) (map (@rev R) vs))) as (E1 & E2 & p & q & Ea & Ea' & Rp & Rq & Hq & Mp & Mq); [|exact F1|exact F2|].
  { intros j Hj. destruct (mirror_involutive ph n l d j Hj) as (A & B). split; [exact A|]. split; [exact B|]. apply mdistances_rev; try assumption. intros ch Hch. exact (sample_zlen c i x k chs vs l d thr nm ch W S K Hch). }
  assert (Hp : nthZ (mdistances RN ph nm n x chs vs l d) p = Some m).
  { destruct F1 as [(E & _)|(u & U1 & U2 & _)]; [apply (f_equal zlen) in E; rewrite ZL in E; change (zlen (@nil R)) with 0 in E; lia|]. cbn [nofZ RN] in U2. assert (u = p) by (apply eq_IZR; congruence). subst u. exact U1. }
  split; [exact E1|]. split; [exact E2|]. split.
  - intros HU. exists p. split; [exact Ea|]. rewrite Ea', (HU p (mirror ph n l d q) Hp Hq). destruct (mirror_involutive ph n l d q Rq) as (_ & ->). reflexivity.
  - intros ->. rewrite Ea, Ea', <- plus_IZR. apply IZR_le. specialize (Mq p Hp). unfold mirror, pos, nwin in *. lia.
Qed.
Print Assumptions C95_reversed.

(** A series of 6 points and a shapelet of length 2 and dilation 2 (integers): minimum 1 at position 1 of 0..3, and 1 at position 2 after the reversal.  With phase invariance: positions 1 and 2. *)
Definition c95T v : ushp Z := mkUshp [v] [2] [2] [3] [false].
Example C95_case :
  run ZN (CallUS [[[9; 4; 0; 7; 1; 5]]] (c95T [4; 6])) false = Ok [[1; 1; 1]] /\ run ZN (CallUS [[rev [9; 4; 0; 7; 1; 5]]] (c95T (rev [4; 6]))) false = Ok [[1; 2; 1]] /\
  run ZN (CallUS [[[9; 4; 0; 7; 1; 5]]] (c95T [4; 6])) true = Ok [[1; 1; 2]] /\ run ZN (CallUS [[rev [9; 4; 0; 7; 1; 5]]] (c95T (rev [4; 6]))) true = Ok [[1; 2; 2]] /\
  mirror false 6 2 2 1 = 2 /\ mirror true 6 2 2 1 = 2.
Proof. repeat split; vm_compute; reflexivity. Qed.
