(** Ranks in exact arithmetic, and the matrix of non-significant pairs. *)
From Coq Require Import ZArith List Bool Lia Permutation Reals Lra.
From Verif Require Import Prelude Num Kernel Spec RealBase RealProofs ApplyProofs ExperimentsProofs PlotUtils PlotProofs.
Import ListNotations.
Open Scope Z_scope.

Lemma count_swap {A B} (f : A -> B -> bool) (la : list A) (lb : list B) :
  zsum (map (fun a => zlen (filter (f a) lb)) la) = zsum (map (fun b => zlen (filter (fun a => f a b) la)) lb).
Proof.
  induction la as [|a la IH]; simpl.
  - clear. induction lb as [|b lb IH]; [reflexivity|]. cbn [map]. rewrite zsum_cons, <- IH. reflexivity.
  - rewrite zsum_cons, IH. clear IH. induction lb as [|b lb IH]; [reflexivity|]. cbn [map filter]. rewrite !zsum_cons.
    destruct (f a b); rewrite ?zlen_cons; lia.
Qed.

Lemma zsum_map_add {A} (f g : A -> Z) l : zsum (map (fun x => f x + g x) l) = zsum (map f l) + zsum (map g l).
Proof. induction l as [|x l IH]; [reflexivity|]. cbn [map]. rewrite !zsum_cons, IH. lia. Qed.
Lemma zsum_map_const {A} k (l : list A) : zsum (map (fun _ => k) l) = k * zlen l.
Proof. induction l as [|x l IH]; [change (zlen (@nil A)) with 0; cbn; lia|]. cbn [map]. rewrite zsum_cons, IH, zlen_cons. lia. Qed.
Lemma zsum_map_ext {A} (f g : A -> Z) l : (forall x, In x l -> f x = g x) -> zsum (map f l) = zsum (map g l).
Proof. intros H. f_equal. apply map_ext_in. exact H. Qed.

Definition n_above (col : list R) (v : R) : Z := zlen (filter (fun u => Rltb v u) col).
Definition n_equal (col : list R) (v : R) : Z := zlen (filter (fun u => Reqb v u) col).
Definition n_below (col : list R) (v : R) : Z := zlen (filter (fun u => Rltb u v) col).

Lemma above_equal_below col v : n_above col v + n_equal col v + n_below col v = zlen col.
Proof.
  apply filter_partition3. intros u _. destruct (Rltb v u) eqn:E1, (Reqb v u) eqn:E2, (Rltb u v) eqn:E3; try reflexivity; exfalso;
    rewrite ?Rltb_true, ?Rltb_false, ?Reqb_true, ?Reqb_false in *; subst; lra.
Qed.

Lemma ranks_total col : 2 * zsum (map (n_above col) col) + zsum (map (n_equal col) col) = zlen col * zlen col.
Proof.
  assert (E : zsum (map (n_above col) col) = zsum (map (n_below col) col)) by (unfold n_above, n_below; apply (count_swap (fun a b => Rltb a b))).
  assert (K : zsum (map (fun v => n_above col v + n_equal col v + n_below col v) col) = zlen col * zlen col).
  { rewrite (zsum_map_ext _ (fun _ => zlen col)) by (intros; apply above_equal_below). apply zsum_map_const. }
  rewrite !zsum_map_add in K. lia.
Qed.

Lemma rank_in_R col v : rank_in RN col v = (IZR (n_above col v) + (IZR (n_equal col v) + 1) / 2)%R.
Proof. unfold rank_in, n_above, n_equal. simpl. rewrite plus_IZR. reflexivity. Qed.

Lemma rsum_IZR {A} (f : A -> Z) l : rsum (map (fun x => IZR (f x)) l) = IZR (zsum (map f l)).
Proof. induction l as [|x l IH]; [reflexivity|]. cbn [map]. rewrite zsum_cons, plus_IZR, <- IH. reflexivity. Qed.

Lemma rank_sum col : rsum (map (rank_in RN col) col) = (IZR (zlen col) * (IZR (zlen col) + 1) / 2)%R.
Proof.
  rewrite (rsum_map_ext _ (fun v => (IZR (n_above col v) + (1/2) * (IZR (n_equal col v) + 1))%R)) by (intros; rewrite rank_in_R; field).
  rewrite rsum_map_plus, rsum_map_scal, rsum_map_plus, rsum_map_const, !rsum_IZR.
  pose proof (ranks_total col) as H. apply (f_equal IZR) in H. rewrite plus_IZR, !mult_IZR in H. lra.
Qed.

Lemma n_equal_self col v : In v col -> 1 <= n_equal col v.
Proof.
  intros H. unfold n_equal. assert (K : In v (filter (fun u => Reqb v u) col)) by (apply filter_In; split; [auto|apply Reqb_true; reflexivity]).
  destruct (filter (fun u => Reqb v u) col); [destruct K|]. rewrite zlen_cons. pose proof (zlen_nonneg l). lia.
Qed.

Lemma rank_bounds col v : In v col -> (1 <= rank_in RN col v <= IZR (zlen col))%R.
Proof.
  intros H. rewrite rank_in_R. pose proof (n_equal_self col v H) as H1. pose proof (above_equal_below col v) as H2.
  assert (A1 : 0 <= n_above col v) by apply zlen_nonneg. assert (A2 : 0 <= n_below col v) by apply zlen_nonneg.
  assert (H3 : (IZR (n_above col v) + IZR (n_equal col v) <= IZR (zlen col))%R) by (rewrite <- plus_IZR; apply IZR_le; lia).
  apply IZR_le in H1. apply IZR_le in A1. lra.
Qed.

(** A higher accuracy gives a smaller rank. *)
Lemma rank_lt col v w : In w col -> (w < v)%R -> In v col -> (rank_in RN col v < rank_in RN col w)%R.
Proof.
  intros Hw Hlt Hv. rewrite !rank_in_R.
  assert (K : n_above col v + n_equal col v <= n_above col w).
  { unfold n_above, n_equal. clear Hw Hv. induction col as [|u col IH]; [reflexivity|]. simpl.
    destruct (Rltb v u) eqn:E1, (Reqb v u) eqn:E2, (Rltb w u) eqn:E3; rewrite ?zlen_cons; try lia; exfalso;
      rewrite ?Rltb_true, ?Rltb_false, ?Reqb_true, ?Reqb_false in *; subst; lra. }
  pose proof (n_equal_self col v Hv). pose proof (n_equal_self col w Hw).
  assert (K2 : (IZR (n_above col v) + IZR (n_equal col v) <= IZR (n_above col w))%R) by (rewrite <- plus_IZR; apply IZR_le; exact K).
  apply IZR_le in H, H0. lra.
Qed.

Lemma rsum_swap {A B} (f : A -> B -> R) la lb :
  rsum (map (fun a => rsum (map (f a) lb)) la) = rsum (map (fun b => rsum (map (fun a => f a b) la)) lb).
Proof.
  induction la as [|a la IH]; simpl.
  - rewrite rsum_map_const. lra.
  - rewrite IH, rsum_map_plus. reflexivity.
Qed.

Lemma rsum_map_lt {A} (f g : A -> R) l : l <> [] -> (forall x, In x l -> (f x < g x)%R) -> (rsum (map f l) < rsum (map g l))%R.
Proof.
  intros Hne H. destruct l as [|x l]; [contradiction|]. simpl. pose proof (H x (or_introl eq_refl)).
  assert (rsum (map f l) <= rsum (map g l))%R by (apply rsum_map_le; intros y Hy; apply Rlt_le, H; right; auto). lra.
Qed.

(** * The matrix of [_form_cliques] *)

Section CLIQUE.
Context {F : Type}.

Definition gcell (g : list (list Z)) (a b : Z) : Z := nthd 0 (nthd [] g a) b.

Lemma where_first (names : list Z) c i : NoDup names -> nthZ names i = Some c -> exists t, where_ (map (Z.eqb c) names) = i :: t.
Proof.
  intros Hnd Hi. pose proof (in_where (map (Z.eqb c) names)) as HW. destruct (where_ (map (Z.eqb c) names)) as [|k t] eqn:E.
  - exfalso. apply (proj2 (HW i)). rewrite nthZ_map, Hi. simpl. rewrite Z.eqb_refl. reflexivity.
  - exists t. f_equal. assert (K : nthZ (map (Z.eqb c) names) k = Some true) by (apply HW; left; auto).
    rewrite nthZ_map in K. destruct (nthZ names k) as [c'|] eqn:Ek; [|discriminate]. simpl in K. injection K as K. apply Z.eqb_eq in K. subst c'.
    clear HW E. revert i k Hi Ek. induction Hnd as [|x l Hx Hnd IH]; intros i k Hi Ek; [destruct (nthZ_nil_none _ _ Hi)|].
    pose proof (nthZ_range _ _ _ Hi). pose proof (nthZ_range _ _ _ Ek).
    rewrite nthZ_cons in Hi. rewrite nthZ_cons in Ek. destruct (Z.eqb_spec i 0), (Z.eqb_spec k 0); try lia.
    + injection Hi as ->. apply nthZ_In in Ek. contradiction.
    + injection Ek as ->. apply nthZ_In in Hi. contradiction.
    + pose proof (IH (i - 1) (k - 1) Hi Ek). lia.
Qed.

Definition square (m : Z) (g : list (list Z)) : Prop := zlen g = m /\ forall r, In r g -> zlen r = m.

Lemma clique_matrix_ok (pvs : list (@pval F)) names : NoDup names ->
  (forall c1 c2 p b, In (c1, c2, p, b) pvs -> In c1 names /\ In c2 names) ->
  exists g, clique_matrix pvs names = Ok g /\ square (zlen names) g /\
  forall a b, 0 <= a < zlen names -> 0 <= b < zlen names ->
    (gcell g a b = 1 <-> a <= b /\ exists c1 c2 p, In (c1, c2, p, false) pvs /\
        ((nthZ names a = Some c1 /\ nthZ names b = Some c2) \/ (nthZ names a = Some c2 /\ nthZ names b = Some c1))) /\
    (gcell g a b = 0 \/ gcell g a b = 1).
Proof.
  intros Hnd Hin. unfold clique_matrix. cbv zeta. set (m := zlen names). pose proof (zlen_nonneg names) as Hm. fold m in Hm.
  assert (EF : full m 0 = Ok (repeat 0 (Z.to_nat m))) by (unfold full; destruct (Z.ltb_spec m 0); [lia|reflexivity]).
  rewrite EF, bind_Ok. set (g0 := repeat (repeat 0 (Z.to_nat m)) (Z.to_nat m)).
  set (stepf := fun g (p : @pval F) => _).
  assert (S0 : square m g0).
  { split; [unfold g0; rewrite zlen_repeat; lia|]. intros r Hr. apply repeat_spec in Hr. subst r. rewrite zlen_repeat. lia. }
  assert (C0 : forall a b, 0 <= a < m -> 0 <= b < m -> gcell g0 a b = 0).
  { intros a b Ha Hb. unfold gcell, g0, nthd. rewrite nthZ_repeat by lia. rewrite nthZ_repeat by lia. reflexivity. }
  assert (G : forall post pre g, pvs = pre ++ post -> square m g ->
    (forall a b, 0 <= a < m -> 0 <= b < m ->
       (gcell g a b = 1 <-> a <= b /\ exists c1 c2 p, In (c1, c2, p, false) pre /\
          ((nthZ names a = Some c1 /\ nthZ names b = Some c2) \/ (nthZ names a = Some c2 /\ nthZ names b = Some c1))) /\ (gcell g a b = 0 \/ gcell g a b = 1)) ->
    exists g', foldM stepf post g = Ok g' /\ square m g' /\
    (forall a b, 0 <= a < m -> 0 <= b < m ->
       (gcell g' a b = 1 <-> a <= b /\ exists c1 c2 p, In (c1, c2, p, false) pvs /\
          ((nthZ names a = Some c1 /\ nthZ names b = Some c2) \/ (nthZ names a = Some c2 /\ nthZ names b = Some c1))) /\ (gcell g' a b = 0 \/ gcell g' a b = 1))).
  { induction post as [|[[[c1 c2] p] bb] post IH]; intros pre g E HS HC.
    - exists g. rewrite app_nil_r in E. subst pre. auto.
    - cbn [foldM]. assert (Hv : In (c1, c2, p, bb) pvs) by (rewrite E; apply in_or_app; right; left; auto).
      destruct (Hin c1 c2 p bb Hv) as [H1 H2]. apply In_nthZ in H1 as (i & Hi). apply In_nthZ in H2 as (j & Hj).
      assert (E2 : pvs = (pre ++ [(c1, c2, p, bb)]) ++ post) by (rewrite <- app_assoc; exact E).
      destruct bb.
      + change (stepf g (c1, c2, p, true)) with (Ok g). rewrite bind_Ok. apply (IH _ g E2 HS). intros a b Ha Hb. destruct (HC a b Ha Hb) as [K1 K2]. split; [|exact K2].
        rewrite K1. split; intros (Hab & d1 & d2 & q & Hd & Hn); (split; [exact Hab|]); exists d1, d2, q; (split; [|exact Hn]).
        * apply in_or_app. auto.
        * apply in_app_or in Hd as [Hd|[Hd|[]]]; [exact Hd|discriminate].
      + destruct (where_first names c1 i Hnd Hi) as (t1 & W1). destruct (where_first names c2 j Hnd Hj) as (t2 & W2).
        assert (ES : stepf g (c1, c2, p, false) = let* row := get g (Z.min i j) in let* row' := set row (Z.max i j) 1 in set g (Z.min i j) row').
        { unfold stepf. cbn [snd fst]. rewrite W1, W2. reflexivity. }
        rewrite ES. clear ES. pose proof (nthZ_range _ _ _ Hi) as Ri. pose proof (nthZ_range _ _ _ Hj) as Rj. fold m in Ri, Rj.
        set (lo := Z.min i j). set (hi := Z.max i j). assert (Rlo : 0 <= lo < m) by (unfold lo; lia). assert (Rhi : 0 <= hi < m) by (unfold hi; lia).
        destruct HS as [HS1 HS2]. destruct (get_ok g lo) as (row & Eg & Er); [lia|]. rewrite Eg, bind_Ok.
        assert (Hrow : zlen row = m) by (apply HS2; eapply nthZ_In; eauto).
        rewrite set_ok by lia. rewrite bind_Ok, set_ok by lia. rewrite bind_Ok.
        set (row' := upd row (Z.to_nat hi) 1). set (g1 := upd g (Z.to_nat lo) row').
        assert (Hcell : forall a b, 0 <= a < m -> 0 <= b < m -> gcell g1 a b = if (a =? lo) && (b =? hi) then 1 else gcell g a b).
        { intros a b Ha Hb. unfold gcell, g1, nthd. rewrite nthZ_upd by lia. destruct (Z.eqb_spec a lo) as [->|Hna]; simpl.
          - unfold row'. rewrite nthZ_upd by lia. rewrite Er. destruct (b =? hi) eqn:Eb; reflexivity.
          - reflexivity. }
        apply (IH _ g1 E2).
        * split; [unfold g1; rewrite zlen_upd; exact HS1|]. intros r Hr. apply In_nthZ in Hr as (k & Hk). unfold g1 in Hk. rewrite nthZ_upd in Hk by lia.
          destruct (k =? lo); [injection Hk as <-; unfold row'; rewrite zlen_upd; exact Hrow|apply HS2; eapply nthZ_In; eauto].
        * intros a b Ha Hb. rewrite (Hcell a b Ha Hb). destruct (HC a b Ha Hb) as [K1 K2].
          destruct (Z.eqb_spec a lo) as [Ea|Ea]; [destruct (Z.eqb_spec b hi) as [Eb|Eb]|]; simpl.
          -- split; [|auto]. split; [intros _|reflexivity]. split; [unfold lo, hi in *; lia|]. exists c1, c2, p. split; [apply in_or_app; right; left; auto|].
             unfold lo, hi in *. destruct (Z.le_ge_cases i j); [left|right]; (split; [rewrite Ea|rewrite Eb]).
             ++ rewrite Z.min_l by lia. exact Hi.
             ++ rewrite Z.max_r by lia. exact Hj.
             ++ rewrite Z.min_r by lia. exact Hj.
             ++ rewrite Z.max_l by lia. exact Hi.
          -- split; [|exact K2]. rewrite K1. split; intros (Hab & d1 & d2 & q & Hd & Hn); (split; [exact Hab|]); exists d1, d2, q.
             ++ split; [apply in_or_app; auto|exact Hn].
             ++ apply in_app_or in Hd as [Hd|[Hd|[]]]; [auto|]. injection Hd as <- <- <-. exfalso.
                assert (U : forall x y c, nthZ names x = Some c -> nthZ names y = Some c -> x = y).
                { intros x y c Hx Hy. destruct (where_first names c x Hnd Hx) as (u1 & V1). destruct (where_first names c y Hnd Hy) as (u2 & V2). congruence. }
                destruct Hn as [[N1 N2]|[N1 N2]].
                ** pose proof (U _ _ _ N1 Hi). pose proof (U _ _ _ N2 Hj). unfold lo, hi in *. lia.
                ** pose proof (U _ _ _ N1 Hj). pose proof (U _ _ _ N2 Hi). unfold lo, hi in *. lia.
          -- split; [|exact K2]. rewrite K1. split; intros (Hab & d1 & d2 & q & Hd & Hn); (split; [exact Hab|]); exists d1, d2, q.
             ++ split; [apply in_or_app; auto|exact Hn].
             ++ apply in_app_or in Hd as [Hd|[Hd|[]]]; [auto|]. injection Hd as <- <- <-. exfalso.
                assert (U : forall x y c, nthZ names x = Some c -> nthZ names y = Some c -> x = y).
                { intros x y c Hx Hy. destruct (where_first names c x Hnd Hx) as (u1 & V1). destruct (where_first names c y Hnd Hy) as (u2 & V2). congruence. }
                destruct Hn as [[N1 N2]|[N1 N2]].
                ** pose proof (U _ _ _ N1 Hi). pose proof (U _ _ _ N2 Hj). unfold lo, hi in *. lia.
                ** pose proof (U _ _ _ N1 Hj). pose proof (U _ _ _ N2 Hi). unfold lo, hi in *. lia. }
  apply (G pvs [] g0 eq_refl S0). intros a b Ha Hb. rewrite (C0 a b Ha Hb). split; [|auto]. split; [discriminate|]. intros (_ & c1 & c2 & p & [] & _).
Qed.
End CLIQUE.
