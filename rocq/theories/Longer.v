(** Distances and features of a series and of a longer one that contains it, without phase invariance (used by PropsLonger.v). *)
From Coq Require Import ZArith List Bool Reals Lra Lia.
From Verif Require Import Prelude Num Kernel Spec KernelProofs RealBase RealProofs TransformProofs TransformLaws SampleLaws.
Import ListNotations.
Open Scope Z_scope.

Lemma zlen_filter {A} (f : A -> bool) l : zlen (filter f l) <= zlen l.
Proof. induction l as [|y l IH]; [reflexivity|]. cbn [filter]. destruct (f y); rewrite !zlen_cons; lia. Qed.

Section L.
Context {F : Type} (N : NumOps F).

Lemma pt_inside (pre r post : list F) i : 0 <= i < zlen r -> pt N (pre ++ r ++ post) (zlen pre + i) = pt N r i.
Proof.
  intros H. unfold pt, nthd. pose proof (zlen_nonneg pre). rewrite nthZ_app. destruct (Z.ltb_spec (zlen pre + i) (zlen pre)); [lia|].
  replace (zlen pre + i - zlen pre) with i by lia. rewrite nthZ_app. destruct (Z.ltb_spec i (zlen r)); [reflexivity|lia].
Qed.
Lemma window_inside (pre r post : list F) l d i : 0 <= i -> 0 <= d -> i + (l - 1) * d < zlen r ->
  window N false (pre ++ r ++ post) l d (zlen pre + i) = window N false r l d i.
Proof.
  intros Hi Hd H. unfold window. apply map_ext_in. intros j Hj. apply in_zrange in Hj. unfold pos. replace (zlen pre + i + j * d) with (zlen pre + (i + j * d)) by lia. apply pt_inside. nia.
Qed.
Lemma zrange_move p a b : zrange (p + a) (p + b) = map (Z.add p) (zrange a b).
Proof.
  apply nthZ_ext.
  - rewrite zlen_map, !zlen_zrange. lia.
  - intros i Hi. rewrite zlen_zrange in Hi. rewrite nthZ_map, !nthZ_zrange by lia. cbn. f_equal. lia.
Qed.

(** every channel of [x'] is the channel of [x] with [p] points before it and [q] after it *)
Definition inside (p q : Z) (r r' : list F) : Prop := exists pre post, r' = pre ++ r ++ post /\ zlen pre = p /\ zlen post = q.

Lemma mdistances_inside nm n x x' chs vs l d p q : 0 <= p -> 0 <= q -> 0 <= d -> 1 <= l -> (l - 1) * d <= n ->
  (forall ch, In ch chs -> zlen (nthd [] x ch) = n /\ inside p q (nthd [] x ch) (nthd [] x' ch)) ->
  exists A B, mdistances N false nm (p + n + q) x' chs vs l d = A ++ mdistances N false nm n x chs vs l d ++ B /\ zlen A = p /\ zlen B = q.
Proof.
  intros Hp Hq Hd Hl Hn HX. unfold mdistances. unfold nwin. set (w := n - (l - 1) * d). replace (p + n + q - (l - 1) * d) with (p + w + q) by lia. assert (0 <= w) by lia.
  rewrite (zrange_app 0 p (p + w + q)), (zrange_app p (p + w) (p + w + q)) by lia. rewrite !map_app.
  match goal with |- exists A B, ?u ++ ?v ++ ?z = _ /\ _ => exists u, z; split; [|rewrite !zlen_map, !zlen_zrange; lia] end. f_equal. f_equal.
  replace (zrange p (p + w)) with (map (Z.add p) (zrange 0 w)) by (rewrite <- zrange_move; f_equal; lia). rewrite map_map. apply map_ext_in. intros i Hi. apply in_zrange in Hi. f_equal.
  apply map_ext_in. intros (ch & v) Hc. cbn [fst snd]. apply in_combine_l in Hc. destruct (HX ch Hc) as (Z1 & pre & post & E & Z2 & Z3). do 2 f_equal. rewrite E, <- Z2. apply window_inside; lia.
Qed.
End L.

Open Scope R_scope.

(** features of a list and of a longer one that contains it *)
Lemma features_inside A D B thr m a c m' a' c' : D <> [] -> is_features RN D thr (m, a, c) -> is_features RN (A ++ D ++ B) thr (m', a', c') ->
  m' <= m /\ c <= c' <= c + IZR (zlen A) + IZR (zlen B) /\
  (IZR (zlen A) <= a' < IZR (zlen A) + IZR (zlen D) -> m' = m /\ a' = IZR (zlen A) + a) /\
  (A = [] -> m' = m -> a' = a).
Proof.
  intros HN HF HF'. destruct HF as [(E & _)|(k & Hk & Ha & Hmin & Hfst & Hc)]; [congruence|].
  destruct HF' as [(E & _)|(k' & Hk' & Ha' & Hmin' & Hfst' & Hc')]; [destruct A; [destruct D; [congruence|discriminate E]|discriminate E]|]. cbn [nofZ nleb nltb RN] in *.
  assert (G : forall i, (0 <= i < zlen D)%Z -> nthZ (A ++ D ++ B) (zlen A + i) = nthZ D i).
  { intros i Hi. pose proof (zlen_nonneg A). rewrite nthZ_app. destruct (Z.ltb_spec (zlen A + i) (zlen A)); [lia|]. replace (zlen A + i - zlen A)%Z with i by lia. rewrite nthZ_app. destruct (Z.ltb_spec i (zlen D)); [reflexivity|lia]. }
  pose proof (nthZ_range _ _ _ Hk) as Rk. assert (M : m' <= m). { apply Rleb_true. apply (Hmin' (zlen A + k)%Z). rewrite G by exact Rk. exact Hk. }
  split; [exact M|]. split; [|split].
  - rewrite Hc, Hc', !filter_app, !zlen_app, !plus_IZR. set (f := fun x : R => Rleb x thr). 
    assert (B1 : forall l, 0 <= IZR (zlen (filter f l)) <= IZR (zlen l)).
    { intros l. split; apply IZR_le; [apply zlen_nonneg|apply zlen_filter]. }
    pose proof (B1 A). pose proof (B1 B). lra.
  - intros Hr. rewrite Ha' in Hr. assert (Q : (zlen A <= k' < zlen A + zlen D)%Z) by (rewrite <- plus_IZR in Hr; split; [apply le_IZR|apply lt_IZR]; lra).
    assert (E' : nthZ D (k' - zlen A) = Some m') by (rewrite <- G by lia; replace (zlen A + (k' - zlen A))%Z with k' by lia; exact Hk').
    pose proof (Hmin _ _ E') as M2. apply Rleb_true in M2. assert (EM : m' = m) by lra. split; [exact EM|]. rewrite Ha', Ha, <- plus_IZR. f_equal.
    destruct (Z.lt_trichotomy (k' - zlen A) k) as [L|[L|L]]; [|lia|].
    + pose proof (Hfst _ _ E' L) as Q2. apply Rltb_true in Q2. lra.
    + assert (E2 : nthZ (A ++ D ++ B) (zlen A + k) = Some m) by (rewrite G by exact Rk; exact Hk). pose proof (Hfst' _ _ E2 ltac:(lia)) as Q2. apply Rltb_true in Q2. lra.
  - intros -> EM. change (zlen (@nil R)) with 0%Z in *. cbn [app] in *. rewrite Ha, Ha'. f_equal. pose proof (G k Rk) as Gk. rewrite Z.add_0_l in Gk. destruct (Z.lt_trichotomy k' k) as [L|[L|L]]; [|exact L|].
    + pose proof (nthZ_range _ _ _ Hk'). pose proof (G k' ltac:(lia)) as Gk'. rewrite Z.add_0_l in Gk'. rewrite Gk' in Hk'. pose proof (Hfst _ _ Hk' L) as Q2. apply Rltb_true in Q2. lra.
    + rewrite Hk in Gk. pose proof (Hfst' _ _ Gk L) as Q2. apply Rltb_true in Q2. lra.
Qed.

Close Scope R_scope.
(** the distances of two series put one after the other: those of the first, those of the windows that cross, those of the second *)
Lemma mdistances_concat nm n1 n2 x1 x2 x' chs vs l d : 0 <= d -> 1 <= l -> (l - 1) * d <= n1 -> (l - 1) * d <= n2 ->
  (forall ch, In ch chs -> zlen (nthd [] x1 ch) = n1 /\ zlen (nthd [] x2 ch) = n2 /\ nthd [] x' ch = nthd [] x1 ch ++ nthd [] x2 ch) ->
  exists C, mdistances RN false nm (n1 + n2) x' chs vs l d = mdistances RN false nm n1 x1 chs vs l d ++ C ++ mdistances RN false nm n2 x2 chs vs l d /\ zlen C = (l - 1) * d.
Proof.
  intros Hd Hl H1 H2 HX. assert (0 <= (l - 1) * d) by nia.
  destruct (mdistances_inside RN nm n1 x1 x' chs vs l d 0 n2) as (A & B & E & ZA & ZB); try lia.
  { intros ch Hc. destruct (HX ch Hc) as (U & V & W). split; [exact U|]. exists [], (nthd [] x2 ch). repeat split; [exact W|exact V]. }
  destruct (mdistances_inside RN nm n2 x2 x' chs vs l d n1 0) as (A' & B' & E' & ZA' & ZB'); try lia.
  { intros ch Hc. destruct (HX ch Hc) as (U & V & W). split; [exact V|]. exists (nthd [] x1 ch), []. rewrite app_nil_r. repeat split; [exact W|exact U]. }
  assert (A = []) as -> by (destruct A; [reflexivity|rewrite zlen_cons in ZA; pose proof (zlen_nonneg A); lia]).
  assert (B' = []) as -> by (destruct B' as [|y B']; [reflexivity|rewrite zlen_cons in ZB'; pose proof (zlen_nonneg B'); lia]).
  cbn [app] in E. rewrite app_nil_r in E'. replace (0 + n1 + n2) with (n1 + n2) in E by lia. replace (n1 + n2 + 0) with (n1 + n2) in E' by lia. 
  set (D1 := mdistances RN false nm n1 x1 chs vs l d) in *. set (D2 := mdistances RN false nm n2 x2 chs vs l d) in *.
  assert (Z1 : zlen D1 = n1 - (l - 1) * d) by (unfold D1, mdistances; rewrite zlen_map, zlen_zrange; unfold nwin; lia).
  assert (Q : D1 ++ B = A' ++ D2) by congruence. apply app_eq_app in Q as (C & [(Q1 & Q2)|(Q1 & Q2)]).
  - assert (C = []) as ->. { destruct C as [|y C]; [reflexivity|]. apply (f_equal zlen) in Q1. rewrite zlen_app, zlen_cons in Q1. pose proof (zlen_nonneg C). lia. }
    exists []. rewrite app_nil_r in Q1. cbn [app] in *. split; [rewrite E, Q2; reflexivity|]. change (zlen (@nil R)) with 0. rewrite Q1 in Z1. lia.
  - exists C. split; [rewrite E, Q2; reflexivity|]. apply (f_equal zlen) in Q1. rewrite zlen_app in Q1. lia.
Qed.
Open Scope R_scope.

Lemma features_concat D1 C D2 thr m1 a1 c1 m2 a2 c2 m a c : D1 <> [] -> D2 <> [] ->
  is_features RN D1 thr (m1, a1, c1) -> is_features RN D2 thr (m2, a2, c2) -> is_features RN (D1 ++ C ++ D2) thr (m, a, c) ->
  m <= Rmin m1 m2 /\ c1 + c2 <= c <= c1 + c2 + IZR (zlen C) /\
  (a < IZR (zlen D1) -> m = m1 /\ a = a1) /\ (IZR (zlen D1) + IZR (zlen C) <= a -> m = m2 /\ a = IZR (zlen D1) + IZR (zlen C) + a2).
Proof.
  intros N1 N2 F1 F2 FF.
  destruct (features_inside [] D1 (C ++ D2) thr _ _ _ _ _ _ N1 F1 FF) as (A1 & A2 & A3 & A4).
  assert (FF' : is_features RN ((D1 ++ C) ++ D2 ++ []) thr (m, a, c)) by (rewrite app_nil_r, <- app_assoc; exact FF).
  destruct (features_inside (D1 ++ C) D2 [] thr _ _ _ _ _ _ N2 F2 FF') as (B1 & B2 & B3 & B4).
  assert (RA : 0 <= a < IZR (zlen D1) + IZR (zlen C) + IZR (zlen D2)).
  { destruct FF as [(E & _)|(k & Hk & -> & _)]; [apply app_eq_nil in E; tauto|]. apply nthZ_range in Hk. rewrite !zlen_app in Hk. cbn [nofZ RN]. rewrite <- !plus_IZR. split; [apply IZR_le; lia|apply IZR_lt; lia]. }
  rewrite zlen_app, plus_IZR in B3. change (zlen (@nil R)) with 0%Z in *. 
  split; [apply Rmin_glb; assumption|]. split; [|split].
  - destruct F1 as [(E & _)|(_ & _ & _ & _ & _ & ->)]; [congruence|]. destruct F2 as [(E & _)|(_ & _ & _ & _ & _ & ->)]; [congruence|]. 
    destruct FF as [(E & _)|(_ & _ & _ & _ & _ & ->)]; [apply app_eq_nil in E; tauto|]. cbn [nofZ RN]. rewrite !filter_app, !zlen_app, !plus_IZR.
    assert (Q : 0 <= IZR (zlen (filter (fun x => nleb RN x thr) C)) <= IZR (zlen C)).
    { split; apply IZR_le; [apply zlen_nonneg|apply zlen_filter]. }
    lra.
  - intros H. destruct A3 as (A5 & A6); [lra|]. split; [exact A5|lra].
  - intros H. apply B3. lra.
Qed.
