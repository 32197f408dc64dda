(** C75: the input transformers of the ensemble on the arrays and lists a caller passes. *)
From Coq Require Import String ZArith List Bool Reals Lra Lia.
From Verif Require Import Prelude Num Kernel KernelProofs RealBase Apply ApplyProofs ApplyUni ApplyMulti Gen Checks ChecksProofs Estimator EstimatorNum
  Classifiers InputTrans EndToEnd PropsEndToEnd.
Import ListNotations.
Open Scope Z_scope.

(** [X] is an int64 or float64 array of [n] series of [nf] channels of [t] points, with values [v]. *)
Definition numeric_array (X : pyv R) (n nf t : Z) (v : Z -> Z -> Z -> R) : Prop :=
  exists dt cells, X = VArr [n; nf; t] dt cells /\ (dt = DInt64 \/ dt = DFloat64) /\ zlen cells = n * nf * t /\
    forall i ch j, 0 <= i < n -> 0 <= ch < nf -> 0 <= j < t ->
      exists cell, nthZ cells ((i * nf + ch) * t + j) = Some cell /\ as_F RN cell = Ok (v i ch j).

Lemma numeric_passes X n nf t v : numeric_array X n nf t v -> 0 <= t -> passes X n nf (fun _ => t) v false.
Proof.
  intros (dt & cells & -> & Hdt & Hl & Hv) Ht. apply (passes_array _ _ _ _ _ dt t cells); auto. destruct Hdt; subst; discriminate.
Qed.

(** A function applied to each row of an array. *)
Lemma rowwise (g : list (pyv R) -> res (list (pyv R))) n nf t t' (cells : list (pyv R)) v' : 0 <= n -> 0 <= nf -> 0 <= t -> 0 <= t' ->
  zlen cells = n * nf * t ->
  (forall i ch r, 0 <= i < n -> 0 <= ch < nf -> zlen r = t -> (forall j, 0 <= j < t -> nthZ r j = nthZ cells ((i * nf + ch) * t + j)) ->
     exists r', g r = Ok r' /\ zlen r' = t' /\ forall j, 0 <= j < t' -> exists cell, nthZ r' j = Some cell /\ as_F RN cell = Ok (v' i ch j)) ->
  exists rows, mapM g (rows2 (n * nf) t cells) = Ok rows /\ zlen (concat rows) = n * nf * t' /\
    forall i ch j, 0 <= i < n -> 0 <= ch < nf -> 0 <= j < t' ->
      exists cell, nthZ (concat rows) ((i * nf + ch) * t' + j) = Some cell /\ as_F RN cell = Ok (v' i ch j).
Proof.
  intros Hn Hf Ht Ht' Hl Hg.
  destruct (mapM_indexed g (rows2 (n * nf) t cells) (fun k r' => zlen r' = t' /\
     forall j, 0 <= j < t' -> exists cell, nthZ r' j = Some cell /\ as_F RN cell = Ok (v' (k / nf) (k mod nf) j))) as (rows & E & L & H).
  - intros k r Hr. pose proof (nthZ_range _ _ _ Hr) as Rk. rewrite rows2_zlen in Rk by nia.
    destruct (rm_range n nf k Hf Rk) as (A & B & C).
    destruct (rows2_nth (n * nf) t cells k Rk Ht Hl) as (r2 & E1 & E2 & E3). rewrite E1 in Hr. injection Hr as ->.
    destruct (Hg (k / nf) (k mod nf) r A B E2) as (r' & G1 & G2 & G3); [intros j Hj; rewrite E3 by exact Hj; rewrite C at 1; reflexivity|].
    exists r'. auto.
  - exists rows. rewrite rows2_zlen in L by nia. split; [exact E|].
    assert (HR : KernelProofs.regular t' rows).
    { intros r Hr. apply In_nthZ in Hr as (k & Hk). apply (H k r Hk). }
    split; [rewrite (concat_regular_len _ _ HR), L; reflexivity|]. intros i ch j Hi Hch Hj.
    destruct (nthZ_some rows (i * nf + ch)) as (r & Hr); [nia|]. destruct (H _ _ Hr) as [_ Hv]. destruct (Hv j Hj) as (cell & C1 & C2).
    exists cell. split; [apply (nthZ_concat t' rows _ r j cell HR Hr C1)|]. rewrite C2. f_equal. f_equal.
    + symmetry. apply Z.div_unique with (r := ch); lia.
    + symmetry. apply Z.mod_unique with (q := i); lia.
Qed.

Lemma nthZ_skipn1 {A} (r : list A) j : 0 <= j -> nthZ (skipn 1 r) j = nthZ r (j + 1).
Proof.
  intros Hj. destruct r as [|a r]; cbn [skipn].
  - unfold nthZ. destruct (Z.ltb_spec j 0), (Z.ltb_spec (j + 1) 0); try lia. destruct (Z.to_nat j), (Z.to_nat (j + 1)); reflexivity.
  - rewrite nthZ_cons. destruct (Z.eqb_spec (j + 1) 0); [lia|]. f_equal. lia.
Qed.
Lemma nthZ_combine {A B} (l : list A) (m : list B) i a b : nthZ l i = Some a -> nthZ m i = Some b -> nthZ (combine l m) i = Some (a, b).
Proof.
  unfold nthZ. destruct (i <? 0); [discriminate|]. generalize (Z.to_nat i) as k. intros k. revert l m.
  induction k as [|k IH]; intros [|x l] [|y m] H1 H2; cbn in *; try discriminate; [congruence|auto].
Qed.

(** one difference *)
Lemma np_diff_ok X n nf t v : numeric_array X n nf t v -> 0 <= n -> 0 <= nf -> 1 <= t ->
  exists X', np_diff RN X = Ok X' /\ numeric_array X' n nf (t - 1) (fun i ch j => v i ch (j + 1)%Z - v i ch j)%R.
Proof.
  intros (dt & cells & -> & Hdt & Hl & Hv) Hn Hf Ht.
  destruct (rowwise (diff_row RN) n nf t (t - 1) cells (fun i ch j => v i ch (j + 1)%Z - v i ch j)%R Hn Hf ltac:(lia) ltac:(lia) Hl) as (rows & E & L & H).
  { intros i ch r Hi Hch Lr Hr. unfold diff_row.
    destruct (mapM_indexed (fun p => sub_cell RN (fst p) (snd p)) (combine (skipn 1 r) r) (fun j c => as_F RN c = Ok (v i ch (j + 1)%Z - v i ch j)%R)) as (r' & G1 & G2 & G3).
    - intros j [a b] Hj. pose proof (nthZ_range _ _ _ Hj) as Rj.
      assert (Rj' : 0 <= j < t - 1).
      { unfold zlen in Rj, Lr. rewrite combine_length, skipn_length in Rj. lia. }
      destruct (Hv i ch (j + 1) Hi Hch ltac:(lia)) as (c1 & A1 & A2). destruct (Hv i ch j Hi Hch ltac:(lia)) as (c0 & B1 & B2).
      rewrite <- Hr in A1, B1 by lia.
      assert (Ep : nthZ (combine (skipn 1 r) r) j = Some (c1, c0)) by (apply nthZ_combine; [rewrite nthZ_skipn1 by lia|]; assumption).
      rewrite Ep in Hj. injection Hj as <- <-. cbn [fst snd].
      assert (G : exists c, sub_cell RN c1 c0 = Ok c /\ as_F RN c = Ok (v i ch (j + 1)%Z - v i ch j)%R).
      { unfold sub_cell. destruct c1; try discriminate; destruct c0; try discriminate; cbn [as_F bind] in *;
          try (eexists; split; [reflexivity|]; cbn [as_F]; injection A2 as <-; injection B2 as <-; try reflexivity).
        cbn. f_equal. apply minus_IZR. }
      exact G.
    - exists r'. split; [exact G1|].
      assert (L' : zlen r' = t - 1) by (rewrite G2; unfold zlen in *; rewrite combine_length, skipn_length; lia).
      split; [exact L'|]. intros j Hj. destruct (nthZ_some r' j) as (c & Hc); [lia|]. exists c. split; [exact Hc|]. apply (G3 j c Hc). }
  unfold np_diff. assert (Eg : guard (numeric_dtype dt) TypeError = Ok tt) by (destruct Hdt; subst; reflexivity).
  rewrite Eg. cbn [bind]. rewrite E. cbn [bind]. eexists. split; [reflexivity|]. exists dt, (concat rows).
  rewrite Z.max_r by lia. split; [reflexivity|]. split; [exact Hdt|]. split; [exact L|exact H].
Qed.

(** The k-th finite differences of the values. *)
Fixpoint differences (k : nat) (v : Z -> Z -> Z -> R) (i ch j : Z) : R :=
  match k with O => v i ch j | S k' => (differences k' v i ch (j + 1)%Z - differences k' v i ch j)%R end.

(** Derivate(order) on an array of at least order points: the array of the differences of that order, series by series and
    channel by channel, with [order] points less; fit keeps the order unless random. *)
Theorem C75_derivate : forall order choice X n nf t v, numeric_array X n nf t v -> 0 <= n -> 0 <= nf -> 0 <= order <= t ->
  exists X', derivate_apply RN (derivate_fit choice (mkDer order false)) X = Ok X' /\
    numeric_array X' n nf (t - order) (differences (Z.to_nat order) v).
Proof.
  intros order choice X n nf t v HX Hn Hf Ho. unfold derivate_apply, derivate_fit. cbn [de_random de_order].
  assert (G : forall k, 0 <= k <= order -> exists X', foldM (fun X _ => np_diff RN X) (zrange 0 k) X = Ok X' /\
     numeric_array X' n nf (t - k) (differences (Z.to_nat k) v)).
  { intros k Hk. rewrite <- (Z2Nat.id k) in Hk |- * by lia. remember (Z.to_nat k) as q eqn:Eq. clear Eq k. rewrite Nat2Z.id.
    induction q as [|q IH].
    - exists X. split; [reflexivity|]. rewrite Z.sub_0_r. exact HX.
    - destruct IH as (X1 & E1 & H1); [lia|]. destruct (np_diff_ok X1 n nf _ _ H1 Hn Hf) as (X2 & E2 & H2); [lia|].
      exists X2. split.
      + replace (Z.of_nat (S q)) with (Z.of_nat q + 1) by lia. rewrite zrange_snoc by lia. rewrite foldM_app, E1. cbn [bind foldM]. rewrite E2. reflexivity.
      + replace (t - Z.of_nat (S q)) with (t - Z.of_nat q - 1) by lia. exact H2. }
  apply G. lia.
Qed.
Print Assumptions C75_derivate.

(** Periodigram on an array of n series of nf channels: channel [ch] of series [i] becomes the periodogram of that channel,
    whatever the other series; scipy gives t // 2 + 1 values for t points ([pg]). *)
Theorem C75_periodigram : forall pg window X n nf t v, numeric_array X n nf t v -> 1 <= n -> 1 <= nf -> 1 <= t ->
  (forall x, x <> [] -> exists p, pg window x = Ok p /\ zlen p = zlen x / 2 + 1) ->
  exists X' v', periodigram_apply RN pg window X = Ok X' /\ numeric_array X' n nf (t / 2 + 1) v' /\
    forall i ch, 0 <= i < n -> 0 <= ch < nf -> pg window (points v i ch t) = Ok (points v' i ch (t / 2 + 1)).
Proof.
  intros pg window X n nf t v (dt & cells & -> & Hdt & Hl & Hv) Hn Hf Ht Hpg.
  assert (Hp : forall i ch, exists p, pg window (points v i ch t) = Ok p /\ zlen p = t / 2 + 1).
  { intros i ch. destruct (Hpg (points v i ch t)) as (p & E1 & E2).
    - intros Q. pose proof (zlen_points v i ch t ltac:(lia)) as Z. rewrite Q in Z. change (zlen (@nil R)) with 0 in Z. lia.
    - exists p. split; [exact E1|]. rewrite E2, zlen_points by lia. reflexivity. }
  set (v' := fun i ch j => match pg window (points v i ch t) with Ok p => nthd 0%R p j | Err _ => 0%R end).
  assert (Hv' : forall i ch, pg window (points v i ch t) = Ok (points v' i ch (t / 2 + 1))).
  { intros i ch. destruct (Hp i ch) as (p & E1 & E2). rewrite E1. f_equal. unfold points, v'. fold (points v i ch t). rewrite E1, <- E2. symmetry. apply map_nthd_zrange. }
  assert (Hrow : forall i ch r, 0 <= i < n -> 0 <= ch < nf -> zlen r = t -> (forall j, 0 <= j < t -> nthZ r j = nthZ cells ((i * nf + ch) * t + j)) ->
     mapM (as_F RN) r = Ok (points v i ch t)).
  { intros i ch r Hi Hch Lr Hr.
    destruct (mapM_indexed (as_F RN) r (fun j c => c = v i ch j)) as (q & G1 & G2 & G3).
    - intros j x Hj. pose proof (nthZ_range _ _ _ Hj) as Rj. rewrite Lr in Rj. destruct (Hv i ch j Hi Hch Rj) as (cell & C1 & C2).
      rewrite <- Hr in C1 by exact Rj. assert (x = cell) by congruence. subst x. eexists. split; [exact C2|reflexivity].
    - rewrite G1. f_equal. apply nthZ_ext; [rewrite G2, zlen_points by lia; exact Lr|]. intros j Hj. rewrite G2, Lr in Hj.
      destruct (nthZ_some q j) as (c & Hc); [lia|]. rewrite Hc, (G3 j c Hc). unfold points. rewrite nthZ_map, nthZ_zrange by lia. reflexivity. }
  assert (T' : 0 <= t / 2 + 1) by lia.
  destruct (rowwise (fun r => let* x := mapM (as_F RN) r in let* p := pg window x in store_row (t / 2 + 1) p) n nf t (t / 2 + 1) cells v'
    ltac:(lia) ltac:(lia) ltac:(lia) T' Hl) as (new & E & L & H).
  { intros i ch r Hi Hch Lr Hr. rewrite (Hrow i ch r Hi Hch Lr Hr). cbn [bind]. rewrite Hv'. cbn [bind]. unfold store_row.
    rewrite zlen_points, Z.eqb_refl by exact T'. cbn [guard bind]. eexists. split; [reflexivity|]. split; [rewrite zlen_map; apply zlen_points; exact T'|].
    intros j Hj. rewrite nthZ_map. unfold points at 1. rewrite nthZ_map, nthZ_zrange by (rewrite Z.sub_0_r; exact Hj). cbn [option_map]. eexists. split; [reflexivity|]. reflexivity. }
  unfold periodigram_apply. assert (Eg : guard (numeric_dtype dt) TypeError = Ok tt) by (destruct Hdt; subst; reflexivity).
  rewrite Eg. cbn [bind].
  assert (E0 : (0 <? n) && (0 <? nf) = true) by (apply andb_true_iff; split; apply Z.ltb_lt; lia). rewrite E0. cbn [guard bind].
  destruct (mapM (mapM (as_F RN)) (rows2 (n * nf) t cells)) as [rows|e] eqn:ER.
  2:{ exfalso. clear -ER E. revert ER new E. induction (rows2 (n * nf) t cells) as [|r q IH]; intros ER new E; cbn [mapM] in *; [discriminate|].
      destruct (mapM (as_F RN) r) as [x|]; cbn [bind] in *; [|discriminate]. destruct (pg window x) as [p|]; cbn [bind] in E; [|discriminate].
      destruct (store_row (t / 2 + 1) p); cbn [bind] in E; [|discriminate].
      destruct (mapM (mapM (as_F RN)) q); cbn [bind] in ER; [discriminate|]. injection ER as ->.
      destruct (mapM (fun r => let* x := mapM (as_F RN) r in let* p := pg window x in store_row (t / 2 + 1) p) q) as [n'|]; cbn [bind] in E; [|discriminate].
      apply (IH eq_refl n' eq_refl). }
  cbn [bind].
  assert (EN : mapM (fun r => let* p := pg window r in store_row (t / 2 + 1) p) rows = Ok new).
  { clear -ER E. revert rows ER new E. induction (rows2 (n * nf) t cells) as [|r q IH]; intros rows ER new E; cbn [mapM] in *; [injection ER as <-; exact E|].
    destruct (mapM (as_F RN) r) as [x|]; cbn [bind] in *; [|discriminate]. destruct (mapM (mapM (as_F RN)) q) as [rows'|]; cbn [bind] in ER; [|discriminate].
    injection ER as <-. cbn [mapM]. destruct (pg window x) as [p|]; cbn [bind] in *; [|discriminate]. destruct (store_row (t / 2 + 1) p); cbn [bind] in *; [|discriminate].
    destruct (mapM (fun r => let* x := mapM (as_F RN) r in let* p := pg window x in store_row (t / 2 + 1) p) q) as [n'|] eqn:EQ; cbn [bind] in E; [|discriminate].
    rewrite (IH rows' eq_refl n' eq_refl). exact E. }
  assert (R0 : get rows 0 = Ok (points v 0 0 t)).
  { destruct (rows2_nth (n * nf) t cells 0 ltac:(nia) ltac:(lia) Hl) as (r & E1 & E2 & E3).
    assert (ER' : Forall2 (fun a b => mapM (as_F RN) a = Ok b) (rows2 (n * nf) t cells) rows) by (apply mapM_Forall2; exact ER).
    inversion ER' as [Q Q2|a b la lb Hab Hlab Q1 Q2].
    - rewrite <- Q in E1. discriminate.
    - rewrite <- Q1 in E1. change (Some a = Some r) in E1. injection E1 as ->. rewrite (Hrow 0 0 r) in Hab; [injection Hab as <-; reflexivity|lia|lia|exact E2|].
      intros j Hj. rewrite E3 by exact Hj. f_equal. }
  rewrite R0. cbn [bind]. rewrite Hv'. cbn [bind]. rewrite zlen_points by exact T'. rewrite EN. cbn [bind].
  eexists. exists v'. split; [reflexivity|]. split; [|intros; apply Hv'].
  exists DFloat64, (concat new). auto.
Qed.
Print Assumptions C75_periodigram.

(** The transformer of the default ensemble that takes no list: Periodigram indexes its argument by [0, 0, :], so it raises
    TypeError on every list of series, of equal or different lengths (the tags of the ensemble claim variable lengths). *)
Theorem C75_lists_refuted : forall pg window (items : list (pyv R)), periodigram_apply RN pg window (VList items) = Err TypeError /\
  (forall k, periodigram_apply RN pg window (VArr [k] DObject items) = Err IndexError).
Proof. intros. split; reflexivity. Qed.
Print Assumptions C75_lists_refuted.

(** FastHankelTransform with the default use_optimal_offset: the offset does not depend on mu.  Two transformers that differ
    in mu give fht the same offset, so with scipy's fhtoffset (which does depend on mu) it is not the optimal offset. *)
Theorem C75_hankel_refuted : forall fht fhtoffset dln mu offset bias X,
  (forall r, In r (concat X) -> fht r dln mu (fhtoffset dln mu 0%R bias) bias <> fht r dln mu (fhtoffset dln dln bias 0%R) bias) -> concat X <> [] ->
  hankel_apply RN fht fhtoffset (mkHan dln mu offset bias true) X <> map (map (fun r => fht r dln mu (fhtoffset dln mu 0%R bias) bias)) X.
Proof.
  intros fht fhtoffset dln mu offset bias X H HX E. unfold hankel_apply in E. cbn [hk_optimal hk_dln hk_mu hk_bias] in E.
  destruct (concat X) as [|r q] eqn:EX; [congruence|]. apply (H r (or_introl eq_refl)).
  assert (In r (concat X)) as Hr by (rewrite EX; left; reflexivity). apply in_concat in Hr as (s & Hs & Hr).
  assert (G : forall (f g : list R -> list R), map (map f) X = map (map g) X -> f r = g r).
  { intros f g Efg. assert (A : map f s = map g s).
    { clear -Efg Hs. induction X as [|a b IH]; [destruct Hs|]. cbn [map] in Efg. injection Efg as E1 E2. destruct Hs as [->|Hs]; auto. }
    clear -A Hr. induction s as [|a b IH]; [destruct Hr|]. cbn [map] in A. injection A as E1 E2. destruct Hr as [->|Hr]; auto. }
  symmetry. exact (G _ _ E).
Qed.
Print Assumptions C75_hankel_refuted.

(** ** A case: one series of two channels of four points *)
Definition case_cells : list (pyv R) := [VInt 1; VInt 2; VInt 4; VInt 8; VInt 5; VInt 3; VInt 3; VInt 9].
Definition case_v (i ch j : Z) : R := match nthZ case_cells ((i * 2 + ch) * 4 + j) with Some (VInt z) => IZR z | _ => 0%R end.

Example C75_case :
  numeric_array (VArr [1; 2; 4] DInt64 case_cells) 1 2 4 case_v /\
  derivate_apply RN (mkDer 2 false) (VArr [1; 2; 4] DInt64 case_cells) = Ok (VArr [1; 2; 2] DInt64 [VInt 1; VInt 2; VInt 2; VInt 6]) /\
  (forall x : list R, x <> [] -> exists p, (fun (_ : string) (x : list R) => Ok (slice x 0 (zlen x / 2 + 1))) "boxcar"%string x = Ok p /\ zlen p = zlen x / 2 + 1) /\
  (forall r, In r (concat [[[1; 2]]])%R ->
     (fun r _ _ off _ => map (Rplus off) r) r 1 2 ((fun _ mu _ _ => mu) 1 2 0 0) 0 <> (fun (r : list R) (_ _ off _ : R) => map (Rplus off) r) r 1 2 ((fun (_ mu _ _ : R) => mu) 1 1 0 0) 0)%R.
Proof.
  split; [|split; [vm_compute; reflexivity|split]].
  - exists DInt64, case_cells. split; [reflexivity|]. split; [left; reflexivity|]. split; [reflexivity|]. intros i ch j Hi Hch Hj.
    unfold case_v. destruct (nthZ_some case_cells ((i * 2 + ch) * 4 + j)) as (c & Hc); [change (zlen case_cells) with 8; lia|].
    rewrite Hc. exists c. split; [reflexivity|]. apply nthZ_In in Hc. unfold case_cells in Hc. repeat (destruct Hc as [<-|Hc]; [reflexivity|]). destruct Hc.
  - intros x Hx. eexists. split; [reflexivity|]. assert (0 < zlen x) by (destruct x; [congruence|rewrite zlen_cons; pose proof (zlen_nonneg x); lia]).
    apply zlen_slice0. lia.
  - intros r [<-|[]]. cbn [map]. intros Q. injection Q. intros. lra.
Qed.
