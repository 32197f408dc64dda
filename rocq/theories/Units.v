(** Change of units: the same code run on data and on the data multiplied by [c] and shifted by [b].  Runs are compared
    step by step. *)
From Coq Require Import ZArith String List Bool Reals Lra Lia.
From Verif Require Import Prelude Num Kernel Spec KernelProofs KernelLaws RealBase RealProofs Apply Gen GenSched NumbaUtilsProofs.
Import ListNotations.
Open Scope Z_scope.

(** ** Related results and related computations *)

Definition rres {A B} (P : A -> B -> Prop) (m : res A) (m' : res B) : Prop :=
  match m, m' with Ok a, Ok b => P a b | Err e, Err e' => e = e' | _, _ => False end.
Definition rG {S A B} (P : A -> B -> Prop) (m : G S A) (m' : G S B) : Prop :=
  forall s, rres (fun p p' => P (fst p) (fst p') /\ snd p = snd p') (m s) (m' s).

Lemma rres_bind {A B A' B'} (P : A -> A' -> Prop) (Q : B -> B' -> Prop) m m' f f' :
  rres P m m' -> (forall a a', P a a' -> rres Q (f a) (f' a')) -> rres Q (bind m f) (bind m' f').
Proof. destruct m, m'; cbn; intros H HF; try contradiction; auto. Qed.
Lemma rres_refl {A} (m : res A) : rres eq m m.
Proof. destruct m; reflexivity. Qed.
Lemma rres_impl {A B} (P Q : A -> B -> Prop) m m' : (forall a b, P a b -> Q a b) -> rres P m m' -> rres Q m m'.
Proof. destruct m, m'; cbn; auto. Qed.
Lemma rres_ok {A B} (P : A -> B -> Prop) m m' a : rres P m m' -> m = Ok a -> exists b, m' = Ok b /\ P a b.
Proof. intros H ->. destruct m'; [eauto|contradiction]. Qed.

Lemma rG_bind {S A B A' B'} (P : A -> A' -> Prop) (Q : B -> B' -> Prop) (m : G S A) (m' : G S A') f f' :
  rG P m m' -> (forall a a', P a a' -> rG Q (f a) (f' a')) -> rG Q (bindG m f) (bindG m' f').
Proof.
  intros H HF s. unfold bindG. eapply rres_bind; [apply H|]. intros [a s1] [a' s2] [HP E]. cbn [fst snd] in *. subst s2. apply HF. exact HP.
Qed.
Lemma rG_lift {S A B} (P : A -> B -> Prop) m m' : rres P m m' -> rG (S := S) P (liftG m) (liftG m').
Proof. intros H s. unfold liftG. eapply rres_bind; [exact H|]. intros a a' HP. cbn. auto. Qed.
Lemma rG_ret {S A B} (P : A -> B -> Prop) a b : P a b -> rG (S := S) P (retG a) (retG b).
Proof. intros H s. cbn. auto. Qed.
Lemma rG_refl {S A} (m : G S A) : rG eq m m.
Proof. intros s. destruct (m s) as [[a s']|]; cbn; auto. Qed.

Lemma foldM_rr {A T T'} (P : T -> T' -> Prop) (f : T -> A -> res T) f' l s s' : P s s' -> (forall t t' a, In a l -> P t t' -> rres P (f t a) (f' t' a)) ->
  rres P (foldM f l s) (foldM f' l s').
Proof.
  revert s s'. induction l as [|a l IH]; intros s s' H0 H; cbn [foldM]; [exact H0|]. eapply rres_bind; [apply H; [left; reflexivity|exact H0]|].
  intros t t' Ht. apply IH; [exact Ht|]. intros u u' x Hx. apply H. right. exact Hx.
Qed.
Lemma foldG_rr {S A T T'} (P : T -> T' -> Prop) (f : T -> A -> G S T) f' l t t' : P t t' -> (forall t t' a, In a l -> P t t' -> rG P (f t a) (f' t' a)) ->
  rG P (foldG f l t) (foldG f' l t').
Proof.
  revert t t'. induction l as [|a l IH]; intros t t' H0 H; cbn [foldG]; [apply rG_ret; exact H0|]. eapply rG_bind; [apply H; [left; reflexivity|exact H0]|].
  intros u u' Hu. apply IH; [exact Hu|]. intros w w' x Hx. apply H. right. exact Hx.
Qed.
Lemma mapM_rr {A B B'} (g : B -> B') (f : A -> res B) f' l : (forall a, In a l -> rres (fun x x' => x' = g x) (f a) (f' a)) -> rres (fun x x' => x' = map g x) (mapM f l) (mapM f' l).
Proof.
  induction l as [|a l IH]; intros H; cbn [mapM]; [reflexivity|]. eapply rres_bind; [apply H; left; reflexivity|]. intros x x' ->.
  eapply rres_bind; [apply IH; intros; apply H; right; assumption|]. intros y y' ->. reflexivity.
Qed.
Lemma get_rr {A B} (g : A -> B) l i : rres (fun x x' => x' = g x) (get l i) (get (map g l) i).
Proof. rewrite get_map. destruct (get l i); reflexivity. Qed.
Lemma get_F2 {A B} (P : A -> B -> Prop) l l' i : Forall2 P l l' -> rres P (get l i) (get l' i).
Proof.
  intros H. unfold get. assert (E : zlen l = zlen l') by (unfold zlen; pose proof H as Q; apply Forall2_length in Q; rewrite Q; reflexivity). rewrite E. generalize (wrap (zlen l') i) as j. clear E. intros j.
  revert j. induction H as [|a b l l' H0 H IH]; intros j; [unfold nthZ; destruct (j <? 0); [reflexivity|destruct (Z.to_nat j); reflexivity]|].
  rewrite !nthZ_cons. destruct (Z.eqb_spec j 0); [exact H0|apply IH].
Qed.
Lemma set_F2 {A B} (P : A -> B -> Prop) l l' i x x' : Forall2 P l l' -> P x x' -> rres (Forall2 P) (set l i x) (set l' i x').
Proof.
  intros H HP. unfold set. assert (E : zlen l = zlen l') by (unfold zlen; pose proof H as Q; apply Forall2_length in Q; rewrite Q; reflexivity). rewrite E. destruct (_ && _); [|reflexivity]. cbn [rres].
  generalize (Z.to_nat (wrap (zlen l') i)) as k. clear E. induction H as [|a b l l' H0 H IH]; intros k; [destruct k; constructor|]. destruct k as [|k]; cbn [upd]; constructor; auto.
Qed.

(** ** The kernels *)

Section U.
Context (c b : R).
Hypothesis Hc : c <> 0%R.
Notation f := (fun x : R => (c * x + b)%R).
(** distances and thresholds *)
Notation g := (Rmult (Rabs c)).

Lemma f_zlen (x : list R) : zlen (map f x) = zlen x.
Proof. apply zlen_map. Qed.

Lemma strides_units x w d ph : rres (fun r r' => r' = map (map f) r) (generate_strides_1D x w d ph) (generate_strides_1D (map f x) w d ph).
Proof.
  unfold generate_strides_1D, strides_1D, strides_1D_phase. rewrite f_zlen. destruct ph; (eapply rres_bind; [apply rres_refl|]; intros _ _ _; apply mapM_rr; intros i _; apply mapM_rr; intros j _; apply get_rr).
Qed.

Lemma manhattan_units x v : rres (fun r r' => r' = g r) (manhattan RN x v) (manhattan RN (map f x) (map f v)).
Proof.
  unfold manhattan. rewrite f_zlen. apply foldM_rr; [cbn; ring|]. intros t t' i _ ->. eapply rres_bind; [apply get_rr|]. intros p p' ->. eapply rres_bind; [apply get_rr|]. intros q q' ->.
  cbn. replace (c * p + b - (c * q + b))%R with (c * (p - q))%R by ring. rewrite Rabs_mult. ring.
Qed.

Lemma walk_units x step n i : rres (fun r r' => r' = map f r) (walk x step n i) (walk (map f x) step n i).
Proof.
  revert i. induction n as [|n IH]; intros i; cbn [walk]; [reflexivity|]. eapply rres_bind; [apply get_rr|]. intros p p' ->. eapply rres_bind; [apply IH|]. intros t t' ->. reflexivity.
Qed.

(** the values of a shapelet *)
Definition fv (nm : bool) (v : list R) : list R := if nm then v else map f v.

Lemma znorm_units v : c = 1%R -> znorm RN (map f v) = znorm RN v.
Proof.
  intros ->. rewrite !znorm_is_zscore. replace (map (fun x : R => (1 * x + b)%R) v) with (map (fun x : R => (x + b)%R) v) by (apply map_ext; intros; ring). apply zscore_shift.
Qed.

Lemma subsequence_units x i l d nm ph : (nm = true -> c = 1%R) ->
  rres (fun r r' => r' = fv nm r /\ zlen r = l /\ (nm = false -> incl r x)) (get_subsequence RN x i l d nm ph) (get_subsequence RN (map f x) i l d nm ph).
Proof.
  intros Hn. assert (W : forall step n j r, walk x step n j = Ok r -> length r = n /\ incl r x).
  { intros step. induction n as [|n IH]; intros j r H; cbn [walk] in H; [inversion H; split; [reflexivity|apply incl_nil_l]|]. apply bind_inv in H as (y & Hy & H). apply bind_inv in H as (t & Ht & H).
    apply IH in Ht as [E1 E2]. inversion H; subst. split; [cbn; congruence|]. apply incl_cons; [|exact E2]. unfold get in Hy. destruct (nthZ x _) eqn:Q; [|discriminate]. apply nthZ_In in Q. congruence. }
  unfold get_subsequence, get_subsequence_phase, get_subsequence_nophase. rewrite f_zlen.
  destruct ph; (eapply rres_bind with (P := fun _ _ => 0 <= l); [unfold guard; destruct (Z.leb_spec 0 l); [cbn; assumption|reflexivity]|]; intros _ _ Hl;
    match goal with |- rres _ (bind (walk x ?st ?n i) _) _ => pose proof (walk_units x st n i) as Q; pose proof (W st n i) as Q2; destruct (walk x st n i) as [r|]; destruct (walk (map f x) st n i) as [r'|]; cbn [rres] in Q; try contradiction; [|exact Q] end;
    cbn [bind rres]; subst r'; destruct (Q2 r eq_refl) as [E1 E2]; destruct nm; (split; [|split; [|intros; try discriminate; exact E2]]);
    [cbn [fv]; apply znorm_units; auto|unfold znorm; rewrite zlen_map; unfold zlen; lia|reflexivity|unfold zlen; lia]).
Qed.

Lemma dists_units x v l d nm ph : (nm = true -> c = 1%R) ->
  rres (fun r r' => r' = map g r) (compute_shapelet_dist_vector RN x v l d nm ph) (compute_shapelet_dist_vector RN (map f x) (fv nm v) l d nm ph).
Proof.
  intros Hn. pose proof (strides_units x l d ph) as HS. unfold generate_strides_1D in HS.
  unfold compute_shapelet_dist_vector, dist_vector, dist_vector_norm, dist_vector_phase, dist_vector_norm_phase, fv.
  assert (M : forall rows, rres (fun r r' => r' = map g r) (mapM (fun row => manhattan RN row v) rows) (mapM (fun row => manhattan RN row (map f v)) (map (map f) rows))).
  { intros rows. induction rows as [|r t IH]; cbn [map mapM]; [reflexivity|]. eapply rres_bind; [apply manhattan_units|]. intros p p' ->. eapply rres_bind; [exact IH|]. intros q q' ->. reflexivity. }
  assert (M' : c = 1%R -> forall rows, rres (fun r r' => r' = map g r) (mapM (fun row => manhattan RN (znorm RN row) v) rows) (mapM (fun row => manhattan RN (znorm RN row) v) (map (map f) rows))).
  { intros E1. assert (EG : forall r : list R, map g r = r) by (intros r; rewrite <- (map_id r) at 2; apply map_ext; intros; rewrite E1, Rabs_R1; ring).
    assert (Q : forall rows, mapM (fun row => manhattan RN (znorm RN row) v) (map (map f) rows) = mapM (fun row => manhattan RN (znorm RN row) v) rows).
    { induction rows as [|r t IH]; cbn [map mapM]; [reflexivity|]. rewrite znorm_units by exact E1. rewrite IH. reflexivity. }
    intros rows. rewrite Q. eapply rres_impl; [|apply rres_refl]. intros p q <-. symmetry. apply EG. }
  destruct nm, ph; cbn [andb negb]; (eapply rres_bind; [exact HS|]; intros r r' ->); auto.
Qed.

(** ** Percentiles *)
Lemma gpos : (0 < Rabs c)%R.
Proof. apply Rabs_pos_lt. exact Hc. Qed.

Lemma leb_units x y : Rleb (g x) (g y) = Rleb x y.
Proof.
  pose proof gpos as P. destruct (Rleb x y) eqn:E; [apply Rleb_true in E; apply Rleb_true; apply Rmult_le_compat_l; lra|]. apply Rleb_false in E. apply Rleb_false. apply Rmult_lt_compat_l; assumption.
Qed.

Lemma finsert_units x l : finsert RN (g x) (map g l) = map g (finsert RN x l).
Proof. induction l as [|y t IH]; cbn [finsert map]; [reflexivity|]. cbn [nleb RN] in *. rewrite leb_units. destruct (Rleb x y); cbn [map]; [reflexivity|]. rewrite IH. reflexivity. Qed.
Lemma fsort_units l : fsort RN (map g l) = map g (fsort RN l).
Proof. unfold fsort. induction l as [|y t IH]; cbn [fold_right map]; [reflexivity|]. rewrite IH. apply finsert_units. Qed.

Lemma percentile1_units a q : rres (fun x x' => x' = g x) (percentile1 RN a q) (percentile1 RN (map g a) q).
Proof.
  unfold percentile1. rewrite zlen_map, fsort_units. destruct (zlen a =? 1); [apply get_rr|]. destruct (neqb RN q _); [apply get_rr|]. destruct (neqb RN q _); [apply get_rr|]. cbv zeta.
  eapply rres_bind; [apply get_rr|]. intros x x' ->. eapply rres_bind; [apply get_rr|]. intros y y' ->. cbn. ring.
Qed.

Lemma percentiles_units a q1 q2 : rres (fun p p' => p' = (g (fst p), g (snd p))) (percentiles RN a q1 q2) (percentiles RN (map g a) q1 q2).
Proof.
  unfold percentiles. cbv zeta. eapply rres_bind; [apply rres_refl|]. intros _ _ _. rewrite zlen_map. destruct (zlen a =? 0).
  - cbn. f_equal; unfold Rdiv; ring.
  - eapply rres_bind; [apply percentile1_units|]. intros x x' ->. eapply rres_bind; [apply percentile1_units|]. intros y y' ->. reflexivity.
Qed.

Lemma threshold_units {S} (rng : Rng R S) a q1 q2 : rG (fun x x' => x' = g x) (draw_threshold RN rng a q1 q2) (draw_threshold RN rng (map g a) q1 q2).
Proof.
  unfold draw_threshold. eapply rG_bind; [apply rG_lift; apply percentiles_units|]. intros p p' ->. unfold uniform. eapply rG_bind; [apply rG_refl|]. intros u u' <-. apply rG_ret. cbn. ring.
Qed.
End U.
