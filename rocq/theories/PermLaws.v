(** The permutation drawn by [permutation] (Fisher-Yates) as a function of the integers consumed. *)
From Coq Require Import ZArith List Bool Reals Lra Lia Permutation.
From Verif Require Import Prelude Num Kernel KernelProofs Gen GenBase.
Import ListNotations.
Open Scope Z_scope.

(** a generator that reads its integers from a list *)
Definition tape {F} (x : F) : Rng F (list Z) :=
  {| r_seed := fun _ => []; r_int := fun _ s => match s with [] => (0, []) | j :: t => (j, t) end; r_unif := fun s => (x, s) |}.

(** the sequences of integers [permutation] can consume on [m + 1] elements: below m + 1, then below m, ... below 2 *)
Fixpoint countdown (m : nat) (js : list Z) : Prop :=
  match m, js with
  | O, [] => True
  | Datatypes.S m', j :: t => 0 <= j <= Z.of_nat m /\ countdown m' t
  | _, _ => False
  end.

Lemma swap_ok {A} (l : list A) i j : 0 <= i < zlen l -> 0 <= j < zlen l -> exists x y l', nthZ l i = Some x /\ nthZ l j = Some y /\ swap l i j = Ok l' /\ zlen l' = zlen l /\ Permutation l l' /\
  forall k, nthZ l' k = if k =? j then Some x else if k =? i then Some y else nthZ l k.
Proof.
  intros Hi Hj. destruct (get_ok l i Hi) as (x & Gx & Hx). destruct (get_ok l j Hj) as (y & Gy & Hy). exists x, y, (upd (upd l (Z.to_nat i) y) (Z.to_nat j) x).
  split; [exact Hx|]. split; [exact Hy|]. assert (E : swap l i j = Ok (upd (upd l (Z.to_nat i) y) (Z.to_nat j) x)).
  { unfold swap. rewrite Gx, Gy. cbn [bind]. rewrite set_ok by exact Hi. cbn [bind]. rewrite set_ok by (rewrite zlen_upd; exact Hj). reflexivity. }
  split; [exact E|]. split; [rewrite !zlen_upd; reflexivity|]. split; [eapply swap_perm; [| |exact E]; lia|].
  intros k. rewrite nthZ_upd by (rewrite zlen_upd; exact Hj). destruct (Z.eqb_spec k j); [reflexivity|]. apply nthZ_upd. exact Hi.
Qed.

Lemma NoDup_nthZ {A} (l : list A) i j x : NoDup l -> nthZ l i = Some x -> nthZ l j = Some x -> i = j.
Proof.
  intros H. revert i j. induction H as [|a t Ha H IH]; intros i j Hi Hj; [apply nthZ_range in Hi; cbn in Hi; lia|].
  rewrite nthZ_cons in Hi. rewrite nthZ_cons in Hj. destruct (Z.eqb_spec i 0), (Z.eqb_spec j 0); [lia| | |].
  - exfalso. apply Ha. replace a with x by congruence. eapply nthZ_In; eauto.
  - exfalso. apply Ha. replace a with x by congruence. eapply nthZ_In; eauto.
  - specialize (IH _ _ Hi Hj). lia.
Qed.

Section FY.
Context {F S : Type} (rng : Rng F S) {A : Type}.

(** the last [m] steps *)
Definition FY (n : Z) (m : nat) (l : list A) : G S (list A) :=
  foldG (fun l' k => let i := n - 1 - k in let! j := draw_int rng (i + 1) in liftG (swap l' i j)) (zrange (n - 1 - Z.of_nat m) (n - 1)) l.

Lemma FY_0 n l s : FY n 0 l s = Ok (l, s).
Proof. unfold FY. replace (n - 1 - Z.of_nat 0) with (n - 1) by lia. unfold zrange. replace (Z.to_nat (n - 1 - (n - 1))) with O by lia. reflexivity. Qed.

Lemma FY_S n m l s : FY n (Datatypes.S m) l s = bind (swap l (Z.of_nat (Datatypes.S m)) (fst (r_int rng (Z.of_nat m + 2) s))) (fun l' => FY n m l' (snd (r_int rng (Z.of_nat m + 2) s))).
Proof.
  unfold FY. rewrite zrange_cons by lia. cbn [foldG]. unfold bindG at 1 2, draw_int at 1. cbn [bind].
  replace (n - 1 - (n - 1 - Z.of_nat (Datatypes.S m)) + 1) with (Z.of_nat m + 2) by lia. replace (n - 1 - (n - 1 - Z.of_nat (Datatypes.S m))) with (Z.of_nat (Datatypes.S m)) by lia.
  destruct (r_int rng (Z.of_nat m + 2) s) as [j s1]. cbn [fst snd]. unfold liftG at 1. destruct (swap l (Z.of_nat (Datatypes.S m)) j) as [l'|]; cbn [bind fst snd]; [|reflexivity].
  replace (n - 1 - Z.of_nat (Datatypes.S m) + 1) with (n - 1 - Z.of_nat m) by lia. reflexivity.
Qed.

Lemma permutation_FY (l : list A) m s : zlen l = Z.of_nat m + 1 -> permutation rng l s = FY (zlen l) m l s.
Proof. intros H. unfold permutation, FY. replace (zlen l - 1 - Z.of_nat m) with 0 by lia. reflexivity. Qed.

End FY.

Section Tape.
Context {F : Type} (x0 : F) {A : Type}.
Notation tp := (tape x0).

(** the last [m] steps leave the places above [m] alone *)
Lemma FY_keeps n m : forall (l : list A) js p js', zlen l = n -> Z.of_nat m < n -> countdown m js -> FY tp n m l js = Ok (p, js') ->
  forall t, Z.of_nat m < t -> nthZ p t = nthZ l t.
Proof.
  induction m as [|m IH]; intros l js p js' Hl Hm HC H t Ht.
  - rewrite FY_0 in H. congruence.
  - destruct js as [|j js]; [destruct HC|]. destruct HC as [Hj HC]. rewrite FY_S in H. cbn [r_int tape fst snd] in H.
    destruct (swap_ok l (Z.of_nat (Datatypes.S m)) j) as (x & y & l' & _ & _ & E & EL & _ & HN); [lia|lia|]. rewrite E in H. cbn [bind] in H.
    rewrite (IH l' js p js') by (auto; lia). rewrite HN. destruct (Z.eqb_spec t j); [lia|]. destruct (Z.eqb_spec t (Z.of_nat (Datatypes.S m))); [lia|reflexivity].
Qed.

Lemma FY_bijective n m : forall (l p : list A), zlen l = n -> Z.of_nat m < n -> NoDup l -> Permutation l p -> (forall t, Z.of_nat m < t -> nthZ p t = nthZ l t) ->
  exists js, (countdown m js /\ FY tp n m l js = Ok (p, [])) /\ forall js', countdown m js' -> FY tp n m l js' = Ok (p, []) -> js' = js.
Proof.
  induction m as [|m IH]; intros l p Hl Hm HD HP HT.
  - exists []. assert (E : p = l).
    { destruct l as [|a r]; [cbn in Hl; lia|]. destruct p as [|b r']; [apply Permutation_length in HP; discriminate|].
      assert (E : r' = r). { apply nthZ_ext.
        - apply Permutation_length in HP. cbn [length] in HP. unfold zlen. lia.
        - intros t Q. specialize (HT (t + 1) ltac:(lia)). rewrite !nthZ_cons in HT. destruct (Z.eqb_spec (t + 1) 0); [lia|]. replace (t + 1 - 1) with t in HT by lia. exact HT. }
      subst r'. inversion HD; subst. destruct (Permutation_in a HP (or_introl eq_refl)) as [Q|Q]; [congruence|contradiction]. }
    subst p. split; [split; [exact I|apply FY_0]|]. intros js' HC _. destruct js'; [reflexivity|destruct HC].
  - assert (Zp : zlen p = n). { unfold zlen in *. rewrite <- (Permutation_length HP). exact Hl. }
    assert (HDp : NoDup p) by (eapply Permutation_NoDup; eauto).
    destruct (nthZ_some p (Z.of_nat (Datatypes.S m))) as (x & Hx); [lia|].
    assert (HI : In x l) by (eapply Permutation_in; [symmetry; exact HP|eapply nthZ_In; exact Hx]). apply In_nthZ in HI as (j & Hj). pose proof (nthZ_range _ _ _ Hj) as Rj.
    assert (Bj : j <= Z.of_nat (Datatypes.S m)). { destruct (Z_le_gt_dec j (Z.of_nat (Datatypes.S m))) as [Q|Q]; [exact Q|]. rewrite <- HT in Hj by lia. pose proof (NoDup_nthZ _ _ _ _ HDp Hx Hj). lia. }
    destruct (swap_ok l (Z.of_nat (Datatypes.S m)) j) as (a & b & l' & Ha & Hb & E & EL & EP & HN); [lia|lia|]. assert (b = x) by congruence. subst b.
    destruct (IH l' p) as (js & [C1 C2] & U).
    + lia.
    + lia.
    + eapply Permutation_NoDup; eauto.
    + eapply perm_trans; [symmetry; exact EP|exact HP].
    + intros t Ht. rewrite HN. destruct (Z.eqb_spec t j) as [->|N1].
      * assert (j = Z.of_nat (Datatypes.S m)) by lia. subst j. congruence.
      * destruct (Z.eqb_spec t (Z.of_nat (Datatypes.S m))) as [->|N2]; [congruence|]. apply HT. lia.
    + exists (j :: js). split.
      * split; [split; [lia|exact C1]|]. rewrite FY_S. cbn [r_int tape fst snd]. rewrite E. cbn [bind]. exact C2.
      * intros js' HC' H'. destruct js' as [|j' js']; [destruct HC'|]. destruct HC' as [Hj' HC']. rewrite FY_S in H'. cbn [r_int tape fst snd] in H'.
        destruct (swap_ok l (Z.of_nat (Datatypes.S m)) j') as (a' & b' & l2 & Ha' & Hb' & E' & EL' & EP' & HN'); [lia|lia|]. rewrite E' in H'. cbn [bind] in H'.
        pose proof (FY_keeps n m l2 js' p [] ltac:(lia) ltac:(lia) HC' H' (Z.of_nat (Datatypes.S m)) ltac:(lia)) as K. rewrite HN' in K.
        assert (Ej : j' = j).
        { destruct (Z.eqb_spec (Z.of_nat (Datatypes.S m)) j') as [Q|Q].
          - assert (a' = x) by congruence. subst a'. rewrite <- Q. exact (NoDup_nthZ _ _ _ _ HD Ha' Hj).
          - rewrite Z.eqb_refl in K. assert (b' = x) by congruence. subst b'. exact (NoDup_nthZ _ _ _ _ HD Hb' Hj). }
        subst j'. assert (l2 = l') by congruence. subst l2. f_equal. apply U; assumption.
Qed.
End Tape.

(** with any generator the result is the one of the integers it produced *)
Fixpoint counted {F S} (rng : Rng F S) (m : nat) (s : S) : list Z * S :=
  match m with
  | O => ([], s)
  | Datatypes.S m' => let '(j, s1) := r_int rng (Z.of_nat m + 1) s in let '(js, s2) := counted rng m' s1 in (j :: js, s2)
  end.

Lemma FY_counted {F F' S} (rng : Rng F S) (x0 : F') {A} n m : forall (l : list A) s js s', counted rng m s = (js, s') ->
  FY rng n m l s = bind (FY (tape x0) n m l js) (fun p => Ok (fst p, s')).
Proof.
  induction m as [|m IH]; intros l s js s' H.
  - cbn [counted] in H. injection H as <- <-. rewrite !FY_0. reflexivity.
  - cbn [counted] in H. replace (Z.of_nat (Datatypes.S m) + 1) with (Z.of_nat m + 2) in H by lia. rewrite !FY_S. destruct (r_int rng (Z.of_nat m + 2) s) as [j s1]. destruct (counted rng m s1) as [jt s2] eqn:E.
    injection H as <- <-. cbn [r_int tape fst snd]. destruct (swap l (Z.of_nat (Datatypes.S m)) j) as [l'|]; cbn [bind]; [|reflexivity]. apply IH. exact E.
Qed.

Lemma counted_ok {F S} (N : NumOps F) (rng : Rng F S) (L : RngLaws N rng) m : forall s, countdown m (fst (counted rng m s)).
Proof.
  induction m as [|m IH]; intros s; [exact I|]. cbn [counted]. pose proof (rl_int L (Z.of_nat (Datatypes.S m) + 1) s ltac:(lia)) as H. destruct (r_int rng (Z.of_nat (Datatypes.S m) + 1) s) as [j s1].
  specialize (IH s1). destruct (counted rng m s1) as [jt s2]. cbn [fst] in *. split; [lia|exact IH].
Qed.

(** [chs]: the first [k] of the [nf] channels in the ordering that the integers drawn from [s] stand for *)
Definition drawn_channels {F S} (rng : Rng F S) (nf k : Z) (s : S) (chs : list Z) (s' : S) : Prop :=
  exists js p, counted rng (Z.to_nat (nf - 1)) s = (js, s') /\ countdown (Z.to_nat (nf - 1)) js /\
    permutation (tape 0) (zrange 0 nf) js = Ok (p, []) /\ Permutation (zrange 0 nf) p /\ chs = slice p 0 k /\ 0 <= k <= nf.

Lemma channels_law {F S} (N : NumOps F) (rng : Rng F S) (L : RngLaws N rng) nf k s chs s' : choice_norep rng (zrange 0 nf) k s = Ok (chs, s') -> drawn_channels rng nf k s chs s'.
Proof.
  intros H. unfold choice_norep in H. apply bind_liftG in H as ([] & Hg & H). apply guard_ok in Hg.
  apply andb_true_iff in Hg as [Hg G3]. apply andb_true_iff in Hg as [G1 G2]. apply Z.ltb_lt in G1. apply Z.leb_le in G2, G3. rewrite zlen_zrange in G1, G3.
  apply bindG_inv in H as (p & s1 & Hp & H). unfold retG in H. assert (chs = slice p 0 k /\ s1 = s') as [-> ->] by (split; congruence).
  assert (E : zlen (zrange 0 nf) = Z.of_nat (Z.to_nat (nf - 1)) + 1) by (rewrite zlen_zrange; lia).
  rewrite (permutation_FY _ _ _ _ E) in Hp. destruct (counted rng (Z.to_nat (nf - 1)) s) as [js s2] eqn:Ec.
  rewrite (FY_counted rng 0 _ _ _ _ js s2 Ec) in Hp. apply bind_inv in Hp as ([p' js'] & Hp & Q). cbn [fst] in Q. assert (p' = p /\ s2 = s') as [-> ->] by (split; congruence).
  pose proof (counted_ok N rng L (Z.to_nat (nf - 1)) s) as HC. rewrite Ec in HC. cbn [fst] in HC.
  rewrite <- (permutation_FY _ _ _ _ E) in Hp.
  assert (HP : Permutation (zrange 0 nf) p).
  { rewrite (permutation_FY _ _ _ _ E) in Hp. assert (Hlt : Z.of_nat (Z.to_nat (nf - 1)) < zlen (zrange 0 nf)) by lia. clear - Hp HC Hlt. revert Hp HC Hlt. generalize (zlen (zrange 0 nf)) at 1 as n. intros n. generalize (zrange 0 nf) as l.
    revert js. induction (Z.to_nat (nf - 1)) as [|m IH]; intros js l Hp HC Hlt; [rewrite FY_0 in Hp; assert (l = p) by congruence; subst; apply Permutation_refl|].
    destruct js as [|j js]; [destruct HC|]. destruct HC as [Hj HC]. rewrite FY_S in Hp. cbn [r_int tape fst snd] in Hp.
    destruct (swap_ok l (Z.of_nat (Datatypes.S m)) j) as (x & y & l' & _ & _ & Es & EL & EP & _); [lia|lia|]. rewrite Es in Hp. cbn [bind] in Hp.
    eapply perm_trans; [exact EP|]. eapply IH; [exact Hp|exact HC|lia]. }
  assert (Ejs : js' = []).
  { rewrite (permutation_FY _ _ _ _ E) in Hp. clear - Hp HC. revert Hp HC. generalize (zlen (zrange 0 nf)) as n. intros n. generalize (zrange 0 nf) as l.
    revert js. induction (Z.to_nat (nf - 1)) as [|m IH]; intros js l Hp HC; [rewrite FY_0 in Hp; destruct js; [congruence|destruct HC]|].
    destruct js as [|j js]; [destruct HC|]. destruct HC as [Hj HC]. rewrite FY_S in Hp. cbn [r_int tape fst snd] in Hp. apply bind_inv in Hp as (l' & _ & Hp). eapply IH; [exact Hp|exact HC]. }
  subst js'. exists js, p. split; [exact Ec|]. split; [exact HC|]. split; [exact Hp|]. split; [exact HP|]. split; [reflexivity|lia].
Qed.
