(** The transform on machine integers (Int64.v) is the transform on unbounded integers while the arrays are smaller than 2^62. *)
From Coq Require Import ZArith List Bool Lia.
From Verif Require Import Prelude Num Kernel Spec KernelProofs Parallel CombProofs Apply ApplyProofs ApplyUni ApplyMulti TransformProofs TransformLaws Cases Int64.
Import ListNotations.
Open Scope Z_scope.

Definition B62 : Z := 2 ^ 62.

Lemma w64_id z : - (2 * B62) <= z < 2 * B62 -> w64 z = z.
Proof.
  unfold w64, B62. change (2 * 2 ^ 62) with (2 ^ 63). intros H. rewrite Z.mod_small; [lia|].
  change (2 ^ 64) with (2 * 2 ^ 63). lia.
Qed.
Lemma B62_big : 2 ^ 61 <= B62. Proof. unfold B62. lia. Qed.
Opaque B62.

(** two loops with the same steps as long as an invariant holds *)
Lemma foldM_same {S} (f g : S -> Z -> res S) (I : Z -> S -> Prop) b : forall n a s, Z.to_nat (b - a) = n -> I a s ->
  (forall i s, a <= i < b -> I i s -> f s i = g s i) -> (forall i s s', a <= i < b -> I i s -> g s i = Ok s' -> I (i + 1) s') ->
  foldM f (zrange a b) s = foldM g (zrange a b) s.
Proof.
  induction n as [|n IH]; intros a s En HI Hs Hi.
  - rewrite zrange_empty by lia. reflexivity.
  - rewrite zrange_cons by lia. cbn [foldM]. rewrite (Hs a s) by (auto; lia). destruct (g s a) as [s'|e] eqn:E; [|reflexivity]. cbn [bind].
    apply IH; [lia|apply (Hi a s s'); auto; lia| |]; intros i t; [intros Hr; apply Hs; lia|intros t' Hr; apply Hi; lia].
Qed.

Lemma mapM_zlen' {A C} (f : A -> res C) l ys : mapM f l = Ok ys -> zlen ys = zlen l.
Proof. intros H. apply mapM_Forall2 in H. apply Forall2_length in H. unfold zlen. lia. Qed.

Ltac same_loop I b := match goal with |- bind (foldM ?f ?l ?s) _ = bind (foldM ?g _ _) _ =>
  let E := fresh in assert (E : foldM f l s = foldM g l s); [apply (foldM_same f g I b _ 0 s eq_refl)|rewrite E] end.

Section P.
Context {F : Type} (N : NumOps F).

(** ** Windows *)

Lemma idx64 i j l d : 0 <= i < B62 -> 0 <= j < l -> 0 <= d -> (l - 1) * d <= B62 -> w64 (i + w64 (j * d)) = i + j * d.
Proof.
  intros Hi Hj Hd H. assert (0 <= j * d <= B62) by (split; [nia|]; assert (j * d <= (l - 1) * d) by (apply Z.mul_le_mono_nonneg_r; lia); lia).
  rewrite (w64_id (j * d)) by lia. apply w64_id. lia.
Qed.

Lemma win64 n l d : 0 <= n <= B62 -> 1 <= l -> 0 <= d -> (l - 1) * d <= B62 -> l <= B62 -> w64 (n - w64 (w64 (l - 1) * d)) = n - (l - 1) * d.
Proof.
  intros Hn Hl Hd H Hl'. assert (0 <= (l - 1) * d) by nia. rewrite (w64_id (l - 1)) by lia. rewrite (w64_id ((l - 1) * d)) by lia. apply w64_id. lia.
Qed.

Lemma strides64_1D x l d ph : zlen x <= B62 -> 1 <= l <= B62 -> 0 <= d -> (l - 1) * d <= B62 ->
  i_generate_strides_1D x l d ph = generate_strides_1D (F := F) x l d ph.
Proof.
  intros Hx Hl Hd H. pose proof (zlen_nonneg x) as Z0. destruct ph; unfold i_generate_strides_1D, generate_strides_1D.
  - unfold i_strides_1D_phase, strides_1D_phase. destruct (guard _ _); [|reflexivity]. cbn [bind].
    apply mapM_ext. intros i Hi. apply in_zrange in Hi. apply mapM_ext. intros j Hj. apply in_zrange in Hj. rewrite (idx64 i j l d) by lia. reflexivity.
  - unfold i_strides_1D, strides_1D. rewrite win64 by lia. destruct (guard _ _); [|reflexivity]. cbn [bind].
    apply mapM_ext. intros i Hi. apply in_zrange in Hi. assert (0 <= (l - 1) * d) by nia. apply mapM_ext. intros j Hj. apply in_zrange in Hj. rewrite (idx64 i j l d) by lia. reflexivity.
Qed.

Lemma shape1_le (X : list (list F)) : (forall r, In r X -> zlen r <= B62) -> 0 <= shape1 X <= B62.
Proof. pose proof B62_big. destruct X as [|r X]; cbn [shape1]; intros HX; [lia|]. split; [apply zlen_nonneg|apply HX; left; reflexivity]. Qed.

Lemma strides64_2D x l d ph : (forall r, In r x -> zlen r <= B62) -> 1 <= l <= B62 -> 0 <= d -> (l - 1) * d <= B62 ->
  i_generate_strides_2D x l d ph = generate_strides_2D (F := F) x l d ph.
Proof.
  intros Hx Hl Hd H. pose proof (shape1_le x Hx) as Z0. destruct ph; unfold i_generate_strides_2D, generate_strides_2D.
  - unfold i_strides_2D_phase, strides_2D_phase. destruct (guard _ _); [|reflexivity]. cbn [bind]. apply mapM_ext. intros ft _.
    apply mapM_ext. intros i Hi. apply in_zrange in Hi. apply mapM_ext. intros j Hj. apply in_zrange in Hj. rewrite (idx64 i j l d) by lia. reflexivity.
  - unfold i_strides_2D, strides_2D. rewrite win64 by lia. destruct (guard _ _); [|reflexivity]. cbn [bind]. apply mapM_ext. intros ft _.
    apply mapM_ext. intros i Hi. apply in_zrange in Hi. assert (0 <= (l - 1) * d) by nia. apply mapM_ext. intros j Hj. apply in_zrange in Hj. rewrite (idx64 i j l d) by lia. reflexivity.
Qed.

Lemma strides_size x l d ph st : zlen x <= B62 -> 1 <= l -> 0 <= d -> generate_strides_1D (F := F) x l d ph = Ok st -> zlen st <= B62.
Proof.
  intros Hx Hl Hd H. pose proof (zlen_nonneg x). assert (0 <= (l - 1) * d) by nia. destruct ph; unfold generate_strides_1D, strides_1D_phase, strides_1D in H; apply bind_inv in H as (u & _ & H); apply mapM_zlen' in H; rewrite H, zlen_zrange; lia.
Qed.
Lemma strides_size2 x l d ph st : (forall r, In r x -> zlen r <= B62) -> 1 <= l -> 0 <= d -> generate_strides_2D (F := F) x l d ph = Ok st -> forall r, In r st -> zlen r <= B62.
Proof.
  intros Hx Hl Hd H r Hr. pose proof (shape1_le x Hx). assert (0 <= (l - 1) * d) by nia.
  destruct ph; unfold generate_strides_2D, strides_2D_phase, strides_2D in H; apply bind_inv in H as (u & _ & H); apply mapM_Forall2 in H;
    apply In_nthZ in Hr as (k & Hk); pose proof (nthZ_range _ _ _ Hk) as Rk; pose proof (Forall2_length _ _ _ H) as Hlen;
    destruct (nthZ_some (zrange 0 (zlen x)) k) as (q & Hq); try (unfold zlen in *; lia);
    pose proof (Cases.Forall2_nthZ _ _ _ H k q r Hq Hk) as E; cbv beta in E; apply mapM_zlen' in E; rewrite E, zlen_zrange; lia.
Qed.

(** ** Features *)

Lemma feat64 thr st i dist : 0 <= snd st <= i -> i < B62 -> i_feat_step N thr st i dist = feat_step N thr st i dist.
Proof.
  destruct st as [[mn am] cnt]. cbn [snd]. intros H Hi. unfold i_feat_step, feat_step. rewrite w64_id by lia. reflexivity.
Qed.
Lemma feat_cnt thr st i dist : 0 <= snd st <= i -> 0 <= snd (feat_step N thr st i dist) <= i + 1.
Proof.
  destruct st as [[mn am] cnt]. cbn [snd]. intros H. unfold feat_step. destruct (nltb N dist mn || neqb N mn (nm1 N)); destruct (nleb N dist thr); cbn [snd]; lia.
Qed.

Lemma one64_u x v thr : zlen x <= B62 -> i_apply_one_univariate N x v thr = apply_one_univariate N x v thr.
Proof.
  intros Hx. unfold i_apply_one_univariate, apply_one_univariate.
  same_loop (fun i (st : F * Z * Z) => 0 <= snd st <= i) (zlen x); [cbn; lia| | |reflexivity].
  - intros i st Hi HI. destruct (get x i); [|reflexivity]. cbn [bind]. destruct (manhattan N a v); [|reflexivity]. cbn [bind]. rewrite feat64 by (auto; lia). reflexivity.
  - intros i st st' Hi HI E. apply bind_inv in E as (row & _ & E). apply bind_inv in E as (dd & _ & E). injection E as <-. apply feat_cnt. exact HI.
Qed.

Lemma one64_m x v thr : shape1 x <= B62 -> i_apply_one_multivariate N x v thr = apply_one_multivariate N x v thr.
Proof.
  intros Hx. unfold i_apply_one_multivariate, apply_one_multivariate.
  same_loop (fun i (st : F * Z * Z) => 0 <= snd st <= i) (shape1 x); [cbn; lia| | |reflexivity].
  - intros i st Hi HI. match goal with |- bind ?m _ = bind ?m _ => destruct m; [|reflexivity] end. cbn [bind]. rewrite feat64 by (auto; lia). reflexivity.
  - intros i st st' Hi HI E. apply bind_inv in E as (dd & _ & E). injection E as <-. apply feat_cnt. exact HI.
Qed.

(** ** Groups of shapelets *)

Lemma cumsum64 l : forall s M, Forall (fun x => 0 <= x <= M) l -> 0 <= s -> 0 <= M -> s + zlen l * M < 2 * B62 -> i_cumsum_from s l = cumsum_from s l.
Proof.
  induction l as [|x l IH]; intros s M HF Hs HM HB; [reflexivity|]. inversion_clear HF as [|? ? Hx Hl]. rewrite zlen_cons in HB. pose proof (zlen_nonneg l).
  cbn [i_cumsum_from cumsum_from]. assert (0 <= zlen l * M) by nia. rewrite w64_id by lia. f_equal. apply (IH _ M); auto; try lia.
Qed.
Lemma cumsum64_total l : forall s, Forall (fun x => 0 <= x) l -> 0 <= s -> s + zsum l < 2 * B62 -> i_cumsum_from s l = cumsum_from s l.
Proof.
  induction l as [|x l IH]; intros s HF Hs HB; [reflexivity|]. inversion_clear HF as [|? ? Hx Hl]. rewrite zsum_cons in HB.
  assert (0 <= zsum l) by (clear - Hl; induction Hl; [cbn; lia|rewrite zsum_cons; lia]).
  cbn [i_cumsum_from cumsum_from]. rewrite w64_id by lia. f_equal. apply IH; auto; lia.
Qed.

Lemma comb64 x y : zlen x <= B62 -> i_combinations_1d x y = combinations_1d x y.
Proof.
  intros Hx. unfold i_combinations_1d, combinations_1d.
  match goal with |- bind ?m _ = bind ?m _ => destruct m as [mask|]; [|reflexivity] end. cbn [bind].
  same_loop (fun i (st : list (list bool) * list (Z * Z) * Z) => 0 <= snd st <= i) (zlen x); [cbn; lia| | |reflexivity].
  - intros i [[m comb] k] Hi HI. cbn [snd] in HI.
    repeat (match goal with |- bind ?u _ = bind ?u _ => destruct u; [|reflexivity] end; cbn [bind]). destruct a3; [|reflexivity].
    repeat (match goal with |- bind ?u _ = bind ?u _ => destruct u; [|reflexivity] end; cbn [bind]). rewrite w64_id by lia. reflexivity.
  - intros i [[m comb] k] st' Hi HI E. cbn [snd] in HI. do 5 (apply bind_inv in E as (? & _ & E)). destruct x4.
    + do 2 (apply bind_inv in E as (? & _ & E)). injection E as <-. cbn [snd]. lia.
    + injection E as <-. cbn [snd]. lia.
Qed.

Lemma dedup_zlen (l : list (Z * Z)) : zlen (dedup l) <= zlen l.
Proof.
  pose proof (NoDup_incl_length (dedup_NoDup l) (fun p => proj1 (in_dedup l p))) as H. unfold zlen. lia.
Qed.

Lemma ix_zlen ls ds p : zlen ls = zlen ds -> zlen (ix_of ls ds p) <= zlen ls.
Proof.
  intros HL. pose proof (groups_bound ls ds [p] HL ltac:(constructor; [intros []|constructor])) as H. cbn [map concat] in H. rewrite app_nil_r in H. exact H.
Qed.

Lemma group64 ls ds : zlen ls = zlen ds -> zlen ls <= 2 ^ 30 -> i_group_shapelets ls ds = group_shapelets ls ds.
Proof.
  intros HL HB. pose proof B62_big as H62. pose proof (zlen_nonneg ls) as Z0. unfold i_group_shapelets. rewrite comb64 by lia.
  destruct (group_shapelets_ok ls ds HL) as (rest & HG). pose proof HG as HG'. unfold group_shapelets in HG'. unfold group_shapelets.
  rewrite combinations_1d_ok in * by exact HL. cbn [bind] in *. set (ps := dedup (combine ls ds)) in *.
  assert (Hp : zlen ps <= zlen ls) by (unfold ps; pose proof (dedup_zlen (combine ls ds)) as Q; rewrite zlen_combine in Q by exact HL; exact Q). pose proof (zlen_nonneg ps).
  rewrite (w64_id (zlen ps + 1)) by lia.
  match goal with |- bind (foldM ?f _ _) _ = bind (foldM ?g _ _) _ => set (fm := f); set (gm := g) in * end.
  same_loop (fun (i : Z) (st : Z * list Z * list Z) => 0 <= fst (fst st) <= zlen ls /\ zlen (snd (fst st)) = zlen ls) (zlen ps).
  - cbn [fst snd]. rewrite zlen_repeat. lia.
  - intros i [[a idx] cnt] Hi [HI HI2]. cbn [fst snd] in HI, HI2. unfold fm, gm. destruct (get ps i) as [p|]; [|reflexivity]. cbn [bind].
    change (where_ (map (fun q : Z * Z => (fst q =? fst p) && (snd q =? snd p)) (combine ls ds))) with (ix_of ls ds p). pose proof (ix_zlen ls ds p HL). pose proof (zlen_nonneg (ix_of ls ds p)).
    rewrite !w64_id by lia. reflexivity.
  - intros i [[a idx] cnt] st' Hi [HI HI2] E. cbn [fst snd] in HI, HI2. unfold gm in E. apply bind_inv in E as (p & _ & E).
    change (where_ (map (fun q : Z * Z => (fst q =? fst p) && (snd q =? snd p)) (combine ls ds))) with (ix_of ls ds p) in E. pose proof (zlen_nonneg (ix_of ls ds p)).
    cbv zeta in E. apply bind_inv in E as (idx' & E1 & E). apply bind_inv in E as (cnt' & _ & E). injection E as <-. cbn [fst snd].
    unfold set_slice in E1. rewrite HI2 in E1. set (b' := Z.max (clip (zlen ls) a) (clip (zlen ls) (a + zlen (ix_of ls ds p)))) in E1.
    assert (EA : clip (zlen ls) a = a) by (unfold clip, wrap; destruct (Z.ltb_spec a 0); lia).
    assert (EB : b' = Z.max a (Z.min (zlen ls) (a + zlen (ix_of ls ds p)))) by (unfold b'; rewrite EA; unfold clip, wrap; destruct (Z.ltb_spec (a + zlen (ix_of ls ds p)) 0); lia).
    rewrite EA in E1. destruct (Z.eqb_spec (b' - a) (zlen (ix_of ls ds p))) as [EQ|]; [|discriminate]. injection E1 as <-. split; [lia|].
    rewrite !zlen_app. unfold zlen in *. rewrite firstn_length, skipn_length. lia.
  - destruct (foldM gm _ _) as [[[a idx] cnt]|e] eqn:E; [|reflexivity]. cbn [bind]. cbn [bind] in HG'. injection HG' as E1 E2.
    f_equal. f_equal. unfold i_cumsum, cumsum. assert (EC : cnt = 0 :: map (fun p => zlen (ix_of ls ds p)) ps).
    { revert E2. unfold cumsum. generalize (0 :: map (fun p => zlen (ix_of ls ds p)) ps) as l2. clear. generalize 0. induction cnt as [|x c IH]; intros s [|y l2]; try discriminate; [reflexivity|].
      cbn [cumsum_from]. intros Q. assert (x = y) by (injection Q; lia). subst y. f_equal. apply (IH (s + x)). injection Q as Q. exact Q. }
    rewrite EC. apply (cumsum64 _ 0 (zlen ls)); try lia.
    + constructor; [lia|]. apply Forall_forall. intros z Hz. apply in_map_iff in Hz as (p & <- & _). split; [apply zlen_nonneg|apply ix_zlen; exact HL].
    + rewrite zlen_cons, zlen_map. nia.
Qed.

(** ** Tasks *)

Lemma writes64 i k f : 0 <= k < 2 ^ 30 -> i_feature_writes (F := F) i k f = feature_writes i k f.
Proof. pose proof B62_big. destruct f as [[m a] c]. intros Hk. unfold i_feature_writes, feature_writes. rewrite !(w64_id (3 * k)) by lia. rewrite !w64_id by lia. reflexivity. Qed.

Section Tasks.
Context {ST : Type} (so so' : Z -> Z -> Z -> res ST) (nst : ST -> ST) (one one' : ST -> Z -> Z -> res (F * F * F)) (ls ds : list Z) (nm : list bool) (n_samples : Z).
Context (good : ST -> Prop).
Hypothesis HL : zlen ls = zlen ds.
Hypothesis HB : zlen ls <= 2 ^ 30.
Hypothesis Hso : forall i k l d, 0 <= i < n_samples -> nthZ ls k = Some l -> nthZ ds k = Some d -> so' i l d = so i l d.
Hypothesis Hgood : forall i k l d st, 0 <= i < n_samples -> nthZ ls k = Some l -> nthZ ds k = Some d -> so i l d = Ok st -> good st /\ good (nst st).
Hypothesis Hone : forall st k l, good st -> nthZ ls k = Some l -> one' st k l = one st k l.

Lemma tasks64 : i_apply_tasks so' nst one' ls ds nm n_samples = apply_tasks so nst one ls ds nm n_samples.
Proof.
  pose proof B62_big as H62. pose proof (zlen_nonneg ls). unfold i_apply_tasks, apply_tasks. rewrite group64 by assumption. destruct (group_shapelets_ok ls ds HL) as (rest & HG). rewrite HG. cbn [bind].
  set (ps := dedup (combine ls ds)) in *. set (cum := cumsum (0 :: map (fun p => zlen (ix_of ls ds p)) ps)) in *.
  assert (Hp : zlen ps <= zlen ls) by (unfold ps; pose proof (dedup_zlen (combine ls ds)) as Q; rewrite zlen_combine in Q by exact HL; exact Q). pose proof (zlen_nonneg ps).
  assert (Hc : zlen cum = zlen ps + 1) by (unfold cum; rewrite zlen_cumsum, zlen_cons, zlen_map; lia).
  rewrite w64_id by lia. apply mapM_ext. intros [i j] Hin. apply in_flat_map in Hin as (i2 & Hi2 & Hin). apply in_map_iff in Hin as (j2 & E & Hj2).
  injection E as -> ->. apply in_zrange in Hi2, Hj2. cbn [fst snd]. destruct (nthZ_some ps j) as ((l & d) & Hpj); [lia|].
  pose proof (nthZ_In _ _ _ Hpj) as Hin. apply in_params in Hin as (k & Hl & Hd).
  unfold i_apply_task, apply_task. rewrite (proj2 (get_nthZ ps j (l, d) ltac:(lia))) by exact Hpj. cbn [bind]. rewrite (Hso i k l d) by assumption.
  destruct (so i l d) as [st|] eqn:Est; [|reflexivity]. cbn [bind]. destruct (Hgood i k l d st) as [G1 G2]; try assumption.
  destruct (group_slice ls ds ps rest j (l, d) HL Hpj) as (a & b & Ga & Gb & Gs). fold cum in Ga, Gb. rewrite w64_id by lia. rewrite Ga, Gb. cbn [bind]. rewrite Gs.
  destruct (mapM (get nm) (ix_of ls ds (l, d))) as [flags|] eqn:Ef; [|reflexivity]. cbn [bind]. pose proof (mapM_zlen' _ _ _ Ef) as Lf.
  rewrite !mapM_get_where by (rewrite ?map_length; unfold zlen in Lf; lia). cbn [bind].
  assert (Hone' : forall fl st0, good st0 -> mapM (fun i_shp => let* f := one' st0 i_shp l in Ok (i_feature_writes i i_shp f)) (mask_select fl (ix_of ls ds (l, d))) =
    mapM (fun i_shp => let* f := one st0 i_shp l in Ok (feature_writes i i_shp f)) (mask_select fl (ix_of ls ds (l, d)))).
  { intros fl st0 G. apply mapM_ext. intros q Hq. assert (Hq' : In q (ix_of ls ds (l, d))).
    { clear - Hq. revert fl Hq. unfold mask_select. induction (ix_of ls ds (l, d)) as [|x t IH]; intros [|f0 fl] Hq; try (destruct Hq; fail). cbn [combine filter map fst snd] in Hq.
      destruct f0; [destruct Hq as [<-|Hq]; [left; reflexivity|right; eapply IH; exact Hq]|right; eapply IH; exact Hq]. }
    apply in_ix_of in Hq' as [Q1 Q2]; [|exact HL]. cbn [fst] in Q1. rewrite (Hone st0 q l G Q1). apply nthZ_range in Q1. destruct (one st0 q l); [|reflexivity]. cbn [bind].
    rewrite writes64 by lia. reflexivity. }
  rewrite (Hone' _ st G1). match goal with |- bind ?u _ = bind ?u _ => destruct u; [|reflexivity] end. cbn [bind].
  destruct (0 <? zlen (mask_select flags (ix_of ls ds (l, d)))); [|reflexivity]. cbv zeta. rewrite (Hone' _ (nst st) G2). reflexivity.
Qed.
End Tasks.

Lemma new64 n k : 0 <= k <= 2 ^ 30 -> i_X_new0 N n k = X_new0 N n k.
Proof. pose proof B62_big. intros Hk. unfold i_X_new0, X_new0. rewrite w64_id by lia. reflexivity. Qed.


(** ** The four functions *)

Lemma U64 (srs : Z -> list F) (get_sr : Z -> res (list F)) s ph n : wf_ushp s -> zlen (us_len s) <= 2 ^ 30 ->
  (forall i, 0 <= i < n -> get_sr i = Ok (srs i) /\ zlen (srs i) <= B62) ->
  (forall k l d, nthZ (us_len s) k = Some l -> nthZ (us_dil s) k = Some d -> 1 <= l <= B62 /\ 0 <= d /\ (l - 1) * d <= B62) ->
  i_apply_tasks (fun i l d => let* x := get_sr i in i_generate_strides_1D x l d ph) (map (znorm N)) (i_u_one N s) (us_len s) (us_dil s) (us_norm s) n =
  apply_tasks (fun i l d => let* x := get_sr i in generate_strides_1D x l d ph) (map (znorm N)) (u_one N s) (us_len s) (us_dil s) (us_norm s) n.
Proof.
  intros (W1 & W2 & _) HB HX HS. apply (tasks64 _ _ _ _ _ _ _ _ _ (fun st => zlen st <= B62)); [lia|exact HB| | |].
  - intros i k l d Hi Hl Hd. destruct (HX i Hi) as (E & Hz). rewrite E. cbn [bind]. destruct (HS k l d Hl Hd) as (A & B & C). apply strides64_1D; assumption.
  - intros i k l d st Hi Hl Hd. destruct (HX i Hi) as (E & Hz). rewrite E. cbn [bind]. destruct (HS k l d Hl Hd) as (A & B & C). intros Hst. rewrite zlen_map.
    assert (zlen st <= B62) by (eapply strides_size; try exact Hst; auto; lia). auto.
  - intros st k l G Hl. unfold i_u_one, u_one. destruct (get (us_values s) k); [|reflexivity]. cbn [bind]. destruct (get (us_thr s) k); [|reflexivity]. cbn [bind]. apply one64_u. exact G.
Qed.

Lemma offsets64 {A} (gs : list (list A)) : zlen (concat gs) <= B62 -> i_offsets (map (@zlen A) gs) = offsets (map (@zlen A) gs).
Proof.
  intros H. pose proof B62_big. unfold i_offsets, offsets, i_cumsum, cumsum. f_equal. apply cumsum64_total; [|lia|].
  - apply Forall_forall. intros z Hz. apply in_map_iff in Hz as (g & <- & _). apply zlen_nonneg.
  - rewrite zsum_zlen. lia.
Qed.

Lemma zlen_concat_in {A} (gs : list (list A)) g : In g gs -> zlen g <= zlen (concat gs).
Proof.
  induction gs as [|h gs IH]; intros H; [destruct H|]. cbn [concat]. rewrite zlen_app. pose proof (zlen_nonneg (concat gs)). destruct H as [->|H]; [lia|]. specialize (IH H). pose proof (zlen_nonneg h). lia.
Qed.

Lemma reshape64 (v : list F) n l : 0 <= n <= B62 -> 0 <= l -> n * l <= B62 -> i_reshape v n l = reshape v n l.
Proof.
  intros Hn Hl H. pose proof B62_big. assert (0 <= n * l) by nia. unfold i_reshape, reshape. rewrite (w64_id (n * l)) by lia. destruct (guard _ _); [|reflexivity]. cbn [bind]. f_equal.
  apply map_ext_in. intros c Hc. apply in_zrange in Hc. assert (0 <= c * l <= n * l) by nia. assert (0 <= (c + 1) * l <= n * l) by nia.
  rewrite (w64_id (c + 1)), (w64_id (c * l)), (w64_id ((c + 1) * l)) by lia. reflexivity.
Qed.

Lemma m_one64 s L st k l : packed s L -> zlen (ms_values s) <= B62 -> zlen (ms_chan s) <= B62 -> zlen (ms_len s) <= 2 ^ 30 ->
  (forall r, In r st -> zlen r <= B62) -> nthZ (ms_len s) k = Some l -> i_m_one N s st k l = m_one N s st k l.
Proof.
  intros HP HV HC HB HS Hl. pose proof B62_big as H62. pose proof HP as (P1 & P2 & P3 & P4 & P5 & P6 & P7 & P8 & P9).
  pose proof (nthZ_range _ _ _ Hl) as Hk. destruct (nthZ_some L k) as ((chs & vs) & HL); [lia|]. destruct (P8 k _ l HL Hl) as (E1 & E2 & E4 & E5). cbn [fst snd] in *.
  assert (EZ : i_zmul_list (ms_nch s) (ms_len s) = zmul_list (ms_nch s) (ms_len s)).
  { unfold i_zmul_list. transitivity (map w64 (zmul_list (ms_nch s) (ms_len s))); [unfold zmul_list; rewrite map_map; reflexivity|].
    rewrite (packed_a1 s L HP). rewrite <- (map_id (map (@zlen F) (map (fun p => concat (snd p)) L))) at 2. apply map_ext_in. intros z Hz.
    apply in_map_iff in Hz as (g & <- & Hg). apply w64_id. pose proof (zlen_nonneg g). pose proof (zlen_concat_in _ g Hg) as Q. rewrite <- P2 in Q. lia. }
  unfold i_m_one, m_one. rewrite EZ, (packed_a1 s L HP), offsets64 by (rewrite <- P2; exact HV).
  assert (E3 : ms_nch s = map (@zlen Z) (map fst L)) by (rewrite P3, map_map; reflexivity). rewrite E3, offsets64 by (rewrite <- P1; exact HC).
  rewrite (w64_id (k + 1)) by lia. do 4 (match goal with |- bind ?u _ = bind ?u _ => destruct u; [|reflexivity] end; cbn [bind]).
  assert (G3 : get (map (@zlen Z) (map fst L)) k = Ok (zlen chs)) by (apply get_nthZ; [lia|]; rewrite !nthZ_map, HL; reflexivity). rewrite G3. cbn [bind].
  assert (HN : zlen chs * l <= B62).
  { assert (Hin : In (concat vs) (map (fun p => concat (snd p)) L)) by (apply in_map_iff; exists (chs, vs); split; [reflexivity|eapply nthZ_In; exact HL]).
    pose proof (zlen_concat_in _ _ Hin) as Q. rewrite <- P2, (concat_regular_len vs l E4), E1 in Q. lia. }
  rewrite reshape64 by nia. do 2 (match goal with |- bind ?u _ = bind ?u _ => destruct u; [|reflexivity] end; cbn [bind]).
  match goal with |- bind ?u _ = bind ?u _ => destruct u as [sel|] eqn:Es; [|reflexivity] end. cbn [bind].
  apply one64_m. apply mapM_Forall2 in Es. destruct Es as [|c0 r q sel' Hy Hr]; cbn [shape1]; [lia|].
  apply HS. unfold get in Hy. destruct (nthZ st (wrap (zlen st) c0)) as [r'|] eqn:En; [|discriminate]. injection Hy as <-. eapply nthZ_In. exact En.
Qed.

Lemma M64 (srs : Z -> list (list F)) (get_sr : Z -> res (list (list F))) s L ph n : packed s L -> zlen (ms_values s) <= B62 -> zlen (ms_chan s) <= B62 -> zlen (ms_len s) <= 2 ^ 30 ->
  (forall i, 0 <= i < n -> get_sr i = Ok (srs i) /\ forall r, In r (srs i) -> zlen r <= B62) ->
  (forall k l d, nthZ (ms_len s) k = Some l -> nthZ (ms_dil s) k = Some d -> 1 <= l <= B62 /\ 0 <= d /\ (l - 1) * d <= B62) ->
  i_apply_tasks (fun i l d => let* x := get_sr i in i_generate_strides_2D x l d ph) (map (map (znorm N))) (i_m_one N s) (ms_len s) (ms_dil s) (ms_norm s) n =
  apply_tasks (fun i l d => let* x := get_sr i in generate_strides_2D x l d ph) (map (map (znorm N))) (m_one N s) (ms_len s) (ms_dil s) (ms_norm s) n.
Proof.
  intros HP HV HC HB HX HS. pose proof HP as (_ & _ & _ & P4 & P5 & _). apply (tasks64 _ _ _ _ _ _ _ _ _ (fun st => forall r, In r st -> zlen r <= B62)); [lia|exact HB| | |].
  - intros i k l d Hi Hl Hd. destruct (HX i Hi) as (E & Hz). rewrite E. cbn [bind]. destruct (HS k l d Hl Hd) as (A & B & C). apply strides64_2D; assumption.
  - intros i k l d st Hi Hl Hd. destruct (HX i Hi) as (E & Hz). rewrite E. cbn [bind]. destruct (HS k l d Hl Hd) as (A & B & C). intros Hst.
    assert (G : forall r, In r st -> zlen r <= B62) by (eapply strides_size2; try exact Hst; auto; lia). split; [exact G|].
    intros r Hr. apply in_map_iff in Hr as (r0 & <- & Hr). rewrite zlen_map. apply G. exact Hr.
  - intros st k l G Hl. eapply m_one64; eauto.
Qed.

End P.
