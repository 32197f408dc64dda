(** The critical difference diagram: cliques, bars and names. *)
From Coq Require Import ZArith List Bool Lia Permutation Reals Lra.
From Verif Require Import Prelude Num RealBase Kernel PlotUtils PlotProofs PlotReal CdDiagram ApplyProofs TransformProofs.
Import ListNotations.
Open Scope Z_scope.

(** ** Cliques *)

(** Two vertices joined in the undirected graph of a matrix. *)
Definition edge (g : list (list Z)) (a b : Z) : Prop := nthd 0 (nthd [] g a) b <> 0 \/ nthd 0 (nthd [] g b) a <> 0.
(** A non-empty set of vertices joined two by two, and one to which no vertex can be added. *)
Definition clique (g : list (list Z)) (q : list Z) : Prop :=
  q <> [] /\ NoDup q /\ (forall v, In v q -> 0 <= v < zlen g) /\ forall a b, In a q -> In b q -> a <> b -> edge g a b.
Definition maximal (g : list (list Z)) (q : list Z) : Prop :=
  clique g q /\ forall v, 0 <= v < zlen g -> ~ In v q -> exists a, In a q /\ ~ edge g a v.
(** What networkx documents for find_cliques: all maximal cliques, and nothing else. *)
Definition enumerates (fc : list (list Z) -> list (list Z)) : Prop := forall g,
  (forall q, In q (fc g) -> maximal g q) /\
  (forall q, maximal g q -> exists q', In q' (fc g) /\ forall v, In v q <-> In v q').

Lemma edge_sym g a b : edge g a b -> edge g b a.
Proof. unfold edge. tauto. Qed.
Lemma edge_dec g a b : {edge g a b} + {~ edge g a b}.
Proof.
  unfold edge. destruct (Z.eq_dec (nthd 0 (nthd [] g a) b) 0), (Z.eq_dec (nthd 0 (nthd [] g b) a) 0); [right; tauto|left..]; tauto.
Qed.

Definition extend (g : list (list Z)) (q : list Z) (v : Z) : list Z :=
  if in_dec Z.eq_dec v q then q
  else if forallb (fun a => if edge_dec g a v then true else false) q then v :: q else q.

Lemma extend_incl g q v : incl q (extend g q v).
Proof.
  unfold extend. destruct (in_dec Z.eq_dec v q); [apply incl_refl|]. destruct (forallb _ q); [apply incl_tl, incl_refl|apply incl_refl].
Qed.
Lemma extend_clique g q v : 0 <= v < zlen g -> clique g q -> clique g (extend g q v).
Proof.
  intros Hv (H0 & H1 & H2 & H3). unfold extend. destruct (in_dec Z.eq_dec v q) as [Hin|Hin]; [repeat split; auto; apply H2; auto|].
  destruct (forallb _ q) eqn:E; [|repeat split; auto; apply H2; auto].
  rewrite forallb_forall in E. assert (HE : forall a, In a q -> edge g a v) by (intros a Ha; specialize (E a Ha); destruct (edge_dec g a v); [assumption|discriminate]).
  split; [discriminate|]. split; [constructor; assumption|]. split.
  - intros w [<-|Hw]; [exact Hv|apply H2, Hw].
  - intros a b [<-|Ha] [<-|Hb] Hab; [congruence|apply edge_sym, HE, Hb|apply HE, Ha|apply H3; auto].
Qed.
Lemma extend_done g q v : In v (extend g q v) \/ exists a, In a q /\ ~ edge g a v.
Proof.
  unfold extend. destruct (in_dec Z.eq_dec v q) as [Hin|Hin]; [left; exact Hin|].
  destruct (forallb _ q) eqn:E; [left; left; reflexivity|]. right.
  assert (G : forall l, forallb (fun a => if edge_dec g a v then true else false) l = false -> exists a, In a l /\ ~ edge g a v).
  { induction l as [|x l IH]; [discriminate|]. cbn [forallb]. destruct (edge_dec g x v); cbn [andb].
    - intros K. destruct (IH K) as (a & Ha & Hn). exists a. split; [right|]; assumption.
    - intros _. exists x. split; [left; reflexivity|assumption]. }
  apply G, E.
Qed.

(** Every clique is contained in a maximal one. *)
Lemma clique_extends g q : clique g q -> exists q', maximal g q' /\ incl q q'.
Proof.
  intros Hq.
  assert (G : forall l q, (forall v, In v l -> 0 <= v < zlen g) -> clique g q ->
    let q' := fold_left (extend g) l q in clique g q' /\ incl q q' /\ forall v, In v l -> In v q' \/ exists a, In a q' /\ ~ edge g a v).
  { induction l as [|x l IH]; intros p Hl Hp; cbn [fold_left].
    - split; [exact Hp|]. split; [apply incl_refl|intros v []].
    - destruct (IH (extend g p x)) as (K1 & K2 & K3); [intros; apply Hl; right; auto|apply extend_clique; [apply Hl; left; reflexivity|exact Hp]|].
      split; [exact K1|]. split; [eapply incl_tran; [apply extend_incl|exact K2]|].
      intros v [<-|Hv]; [|apply K3, Hv]. destruct (extend_done g p x) as [K|(a & Ha & Hn)]; [left; apply K2, K|].
      right. exists a. split; [apply K2, extend_incl, Ha|exact Hn]. }
  destruct (G (zrange 0 (zlen g)) q) as (K1 & K2 & K3); [intros v Hv; apply in_zrange in Hv; exact Hv|exact Hq|].
  exists (fold_left (extend g) (zrange 0 (zlen g)) q). split; [|exact K2]. split; [exact K1|].
  intros v Hv Hn. destruct (K3 v) as [K|K]; [apply in_zrange; exact Hv|contradiction|exact K].
Qed.

(** ** The parts of the diagram, for any arithmetic *)
Section CD.
Context {F : Type} (N : NumOps F).

(** the names written, from left to right and top to bottom *)
Definition names_written (l : list (cmd F)) : list Z :=
  flat_map (fun x => match x with CText _ _ (LName c) _ => [c] | _ => [] end) l.

Section RANKS.
Context (ssums : list F) (nnames : list Z) (width textspace : F) (reverse labels : bool) (highlight : option Z).
Context (lo hi : Z).
Notation pos := (rankpos N width textspace reverse lo hi).
Notation bar := (bar N ssums nnames width textspace reverse lo hi).

Definition bar_of (clq : list Z) (c : cmd F) : Prop :=
  exists a b s1 s2 y, min_list clq = Ok a /\ max_list clq = Ok b /\ nthZ ssums a = Some s1 /\ nthZ ssums b = Some s2 /\
    c = CLine 4 [(nsub N (pos s1) (nsub N (n0 N) (dec N 2 100)), y); (nadd N (pos s2) (nsub N (n0 N) (dec N 2 100)), y)] false.

(** the height of a line *)
Definition line_height (c : cmd F) (y : F) : Prop := exists w x t r, c = CLine w ((x, y) :: t) r.

(** the height of the next bar: the current one or, once, the start of the right half *)
Definition next_start (st : (F * bool) * list (cmd F)) (clq : list Z) (y : F) (ah : bool) : Prop :=
  (y = fst (fst st) /\ ah = snd (fst st)) \/ (snd (fst st) = false /\ y = nadd N (cline N) (dec N 25 100) /\ ah = true).

Lemma bar_step st clq : (forall v, In v clq -> 0 <= v < zlen ssums) -> clq <> [] -> zlen clq <> 1 ->
  exists c y ah, bar st clq = Ok ((nadd N y (dec N 1 10), ah), snd st ++ [c]) /\ bar_of clq c /\ line_height c y /\ next_start st clq y ah.
Proof.
  intros Hr Hne E. unfold CdDiagram.bar. destruct (Z.eqb_spec (zlen clq) 1) as [E'|_]; [contradiction|].
  destruct st as [[start ah] out]. unfold next_start. cbn [fst snd].
  destruct (min_list_ok clq Hne) as (a & Ea), (max_list_ok clq Hne) as (b & Eb). rewrite Ea, Eb, !bind_Ok.
  destruct (get_ok ssums a) as (s1 & E1 & E1'); [apply Hr; apply (min_list_spec _ _ Ea)|].
  destruct (get_ok ssums b) as (s2 & E2 & E2'); [apply Hr; apply (max_list_spec _ _ Eb)|].
  destruct ((zlen nnames <=? 2 * a) && negb ah) eqn:EC; rewrite E1, E2, !bind_Ok; do 3 eexists;
    (split; [reflexivity|split; [exists a, b, s1, s2; eexists; repeat split; eauto|split; [do 4 eexists; reflexivity|]]]).
  - right. apply andb_prop in EC as [_ EC]. destruct ah; [discriminate|auto].
  - left. auto.
Qed.

(** The bars drawn are one per clique of more than one vertex, in order. *)
Lemma bars_gen cliques : forall st, (forall q, In q cliques -> q <> [] /\ forall v, In v q -> 0 <= v < zlen ssums) ->
  exists st' bars, foldM bar cliques st = Ok st' /\ snd st' = snd st ++ bars /\
  Forall2 bar_of (filter (fun q => negb (zlen q =? 1)) cliques) bars.
Proof.
  induction cliques as [|q l IH]; intros st Hl; cbn [foldM].
  - exists st, []. rewrite app_nil_r. split; [reflexivity|]. split; [reflexivity|constructor].
  - destruct (Hl q (or_introl eq_refl)) as [Hne Hr]. cbn [filter]. destruct (Z.eqb_spec (zlen q) 1) as [E|E]; cbn [negb].
    + assert (EB : bar st q = Ok st) by (unfold CdDiagram.bar; rewrite (proj2 (Z.eqb_eq _ _) E); reflexivity).
      rewrite EB, bind_Ok. apply IH. intros; apply Hl; right; auto.
    + destruct (bar_step st q Hr Hne E) as (c & y & ah & EB & Hb & _). rewrite EB, bind_Ok.
      destruct (IH ((nadd N y (dec N 1 10), ah), snd st ++ [c])) as (st' & bars & K1 & K2 & K3); [intros; apply Hl; right; auto|].
      exists st', (c :: bars). split; [exact K1|]. split; [rewrite K2; cbn [snd]; rewrite <- app_assoc; reflexivity|constructor; assumption].
Qed.

(** The commands for one name. *)
Definition name_of (i : Z) (l : list (cmd F)) : Prop :=
  exists s c y edge xt, nthZ ssums i = Some s /\ nthZ nnames i = Some c /\ names_written l = [c] /\
    (forall w p r, In (CLine w p r) l -> w = 2) /\ (forall x y a r, ~ In (CText x y (LRank a) r) l) /\
    In (CLine 2 [(pos s, cline N); (pos s, y); (edge, y)] (is_highlight highlight c)) l /\
    In (CText xt y (LName c) (is_highlight highlight c)) l.

Lemma name_ok i row e xt xl : zlen nnames = zlen ssums -> 0 <= i < zlen ssums ->
  exists l, name_cmds N ssums nnames width textspace reverse labels highlight lo hi i row e xt xl = Ok l /\ name_of i l.
Proof.
  intros Hz Hi. destruct (get_ok ssums i Hi) as (s & E1 & E1'), (get_ok nnames i) as (c & E2 & E2'); [lia|].
  unfold name_cmds. rewrite E1, E2, !bind_Ok. eexists. split; [reflexivity|].
  exists s, c. do 3 eexists. split; [exact E1'|]. split; [exact E2'|]. split.
  - unfold names_written. destruct labels; reflexivity.
  - split; [|split; [|split]].
    + intros w p r K. destruct labels; cbn in K; repeat destruct K as [K|K]; try discriminate; try (injection K as <- _ _; reflexivity); destruct K.
    + intros x y a r K. destruct labels; cbn in K; repeat destruct K as [K|K]; try discriminate; destruct K.
    + left. reflexivity.
    + apply in_or_app. right. apply in_or_app. right. left. reflexivity.
Qed.

Lemma names_written_app l l' : names_written (l ++ l') = names_written l ++ names_written l'.
Proof. unfold names_written. apply flat_map_app. Qed.

(** All the names, worst first. *)
Lemma names_ok : zlen nnames = zlen ssums ->
  exists l r, left_names N ssums nnames width textspace reverse labels highlight lo hi = Ok l /\
    right_names N ssums nnames width textspace reverse labels highlight lo hi = Ok r /\
    names_written (l ++ r) = nnames /\ (forall w p b, In (CLine w p b) (l ++ r) -> w = 2) /\
    (forall x y a b, ~ In (CText x y (LRank a) b) (l ++ r)) /\
    forall i, 0 <= i < zlen ssums -> exists s c y edge xt, nthZ ssums i = Some s /\ nthZ nnames i = Some c /\
      In (CLine 2 [(pos s, cline N); (pos s, y); (edge, y)] (is_highlight highlight c)) (l ++ r) /\
      In (CText xt y (LName c) (is_highlight highlight c)) (l ++ r).
Proof.
  intros Hz. unfold left_names, right_names. set (k := zlen ssums). pose proof (zlen_nonneg ssums) as Hk. fold k in Hk.
  assert (Hh : 0 <= (k + 1) / 2 <= k).
  { split; [apply Z.div_pos; lia|]. destruct (Z.eq_dec k 0) as [->|]; [reflexivity|]. apply Z.div_le_upper_bound; lia. }
  match goal with |- context[bind (mapM ?f (zrange 0 _)) _] => destruct (mapM_exists f name_of (zrange 0 ((k + 1) / 2))) as (ls & EL & HL) end.
  { intros i Hi. apply in_zrange in Hi. apply name_ok; [exact Hz|fold k; lia]. }
  match goal with |- context[bind (mapM ?f (zrange ((k + 1) / 2) _)) _] => destruct (mapM_exists f name_of (zrange ((k + 1) / 2) k)) as (rs & ER & HR) end.
  { intros i Hi. apply in_zrange in Hi. apply name_ok; [exact Hz|fold k; lia]. }
  rewrite EL, ER, !bind_Ok. exists (concat ls), (concat rs). split; [reflexivity|]. split; [reflexivity|].
  rewrite <- concat_app.
  assert (HA : Forall2 name_of (zrange 0 k) (ls ++ rs)).
  { rewrite (zrange_app 0 ((k + 1) / 2) k) by lia. apply Forall2_app; assumption. }
  clear EL ER HL HR. split; [|split; [|split]].
  - assert (G : forall is l, Forall2 name_of is l -> (forall i, In i is -> 0 <= i) -> names_written (concat l) = map (nthd 0 nnames) is).
    { induction 1 as [|i c is l Hc _ IH]; intros Hp; [reflexivity|]. cbn [concat map]. rewrite names_written_app, IH by (intros; apply Hp; right; auto).
      destruct Hc as (s & n & y & e & xt & _ & Hn & Hw & _). rewrite Hw. cbn [app]. f_equal. symmetry. exact (nthd_some _ _ _ _ Hn). }
    rewrite (G _ _ HA) by (intros i Hi; apply in_zrange in Hi; lia). unfold k. rewrite <- Hz. apply map_nthd_zrange.
  - intros w p b Hin. apply in_concat in Hin as (l & Hl & Hin).
    assert (G : exists i, name_of i l) by (clear -HA Hl; induction HA; [destruct Hl|destruct Hl as [<-|Hl]; eauto]).
    destruct G as (i & s & n & y & e & xt & _ & _ & _ & H1 & _). eapply H1; eauto.
  - intros x y a b Hin. apply in_concat in Hin as (l & Hl & Hin).
    assert (G : exists i, name_of i l) by (clear -HA Hl; induction HA; [destruct Hl|destruct Hl as [<-|Hl]; eauto]).
    destruct G as (i & s & n & y' & e & xt & _ & _ & _ & _ & H1 & _). eapply H1; eauto.
  - intros i Hi. assert (G : exists l, In l (ls ++ rs) /\ name_of i l).
    { assert (Hin : In i (zrange 0 k)) by (apply in_zrange; exact Hi). clear -HA Hin. induction HA as [|i' l' is l Hc _ IH]; [destruct Hin|].
      destruct Hin as [<-|Hin]; [exists l'; split; [left; auto|exact Hc]|]. destruct (IH Hin) as (l0 & H1 & H2). exists l0. split; [right; auto|exact H2]. }
    destruct G as (l & Hl & s & n & y & e & xt & H1 & H2 & _ & _ & _ & H3 & H4). exists s, n, y, e, xt. split; [exact H1|]. split; [exact H2|].
    split; apply in_concat; exists l; auto.
Qed.
End RANKS.
End CD.

(** ** In exact arithmetic *)
Section REAL.
Open Scope R_scope.

Lemma minF_R l m : minF RN l = Ok m -> In m l.
Proof.
  destruct l as [|v t]; [discriminate|]. cbn [minF]. intros H. injection H as <-.
  assert (G : forall t v, In (fold_left (fun m x => if nltb RN x m then x else m) t v) (v :: t)).
  { clear. induction t as [|x t IH]; intros v; [left; reflexivity|]. cbn [fold_left]. destruct (nltb RN x v).
    - right. apply IH.
    - destruct (IH v) as [K|K]; [left; exact K|right; right; exact K]. }
  apply G.
Qed.
Lemma maxF_R l m : maxF RN l = Ok m -> In m l.
Proof.
  destruct l as [|v t]; [discriminate|]. cbn [maxF]. intros H. injection H as <-.
  assert (G : forall t v, In (fold_left (fun m x => if nltb RN m x then x else m) t v) (v :: t)).
  { clear. induction t as [|x t IH]; intros v; [left; reflexivity|]. cbn [fold_left]. destruct (nltb RN v x).
    - right. apply IH.
    - destruct (IH v) as [K|K]; [left; exact K|right; right; exact K]. }
  apply G.
Qed.

(** The axis goes from 1 to the number of classifiers. *)
Lemma axis_R ssums : ssums <> [] -> (forall r, In r ssums -> 1 <= r <= IZR (zlen ssums)) ->
  lowv RN ssums = Ok 1%Z /\ highv RN ssums = Ok (zlen ssums).
Proof.
  intros Hne H. unfold lowv, highv. destruct ssums as [|v t] eqn:E; [contradiction|]. rewrite <- E in *.
  destruct (minF RN ssums) as [a|] eqn:Ea; [|rewrite E in Ea; discriminate]. destruct (maxF RN ssums) as [b|] eqn:Eb; [|rewrite E in Eb; discriminate].
  rewrite !bind_Ok. apply minF_R, H in Ea. apply maxF_R, H in Eb. split; f_equal.
  - change (nfloor RN a) with (Rfloor a). destruct (Rfloor_spec a) as [A B]. assert (0 < Rfloor a)%Z by (apply lt_IZR; lra). lia.
  - unfold ceilF. change (nfloor RN (nsub RN (n0 RN) b)) with (Rfloor (0 - b)). destruct (Rfloor_spec (0 - b)) as [A B].
    assert (- zlen ssums < Rfloor (0 - b) + 1)%Z by (apply lt_IZR; rewrite opp_IZR, plus_IZR; lra). lia.
Qed.

(** No two bars are at the same height. *)
Lemma heights_R ssums nnames width textspace reverse lo hi cliques :
  (forall q, In q cliques -> q <> [] /\ forall v, In v q -> 0 <= v < zlen ssums)%Z ->
  forall st, foldM (bar RN ssums nnames width textspace reverse lo hi) cliques ((nadd RN (cline RN) (dec RN 2 10), false), []) = Ok st ->
  exists ys, Forall2 line_height (snd st) ys /\ NoDup ys.
Proof.
  intros Hq st HF. unfold cline, dec in HF. cbn in HF.
  set (inv := fun st : (R * bool) * list (cmd R) => exists ys i, Forall2 line_height (snd st) ys /\ NoDup ys /\ (0 <= i)%Z /\
    if snd (fst st) then fst (fst st) = 4 / 10 + 25 / 100 + 25 / 100 + IZR i / 10 /\
         forall y, In y ys -> (exists k, y = 4 / 10 + 25 / 100 + 2 / 10 + IZR k / 10) \/ (exists k, (k < i)%Z /\ y = 4 / 10 + 25 / 100 + 25 / 100 + IZR k / 10)
    else fst (fst st) = 4 / 10 + 25 / 100 + 2 / 10 + IZR i / 10 /\ forall y, In y ys -> exists k, (k < i)%Z /\ y = 4 / 10 + 25 / 100 + 2 / 10 + IZR k / 10).
  assert (G : inv st).
  { revert HF. apply (foldM_inv _ (fun _ => inv)).
    - exists [], 0%Z. cbn [fst snd]. split; [constructor|]. split; [constructor|]. split; [lia|]. split; [lra|intros y []].
    - intros pre q post s s' EL (ys & i & I1 & I2 & I3 & I4) EB. assert (Hin : In q cliques) by (rewrite EL; apply in_or_app; right; left; reflexivity). destruct (Z.eq_dec (zlen q) 1) as [E|E].
      + unfold bar in EB. rewrite (proj2 (Z.eqb_eq _ _) E) in EB. injection EB as <-. exists ys, i. auto.
      + destruct (Hq q Hin) as [Hne Hr]. destruct (bar_step RN ssums nnames width textspace reverse lo hi s q Hr Hne E) as (c & y & ah & EB' & _ & Hh & Hn).
        rewrite EB in EB'. injection EB' as ->. unfold next_start in Hn.
        destruct s as [[s0 a0] out]. cbn [fst snd] in *.
        assert (D : forall k k', 4 / 10 + 25 / 100 + 2 / 10 + IZR k / 10 <> 4 / 10 + 25 / 100 + 25 / 100 + IZR k' / 10).
        { intros k k' K. assert (K2 : IZR (2 * (k - k')) = IZR 1) by (rewrite mult_IZR, minus_IZR; lra). apply eq_IZR in K2. lia. }
        assert (EY : exists i', (0 <= i')%Z /\ (if ah then y = 4 / 10 + 25 / 100 + 25 / 100 + IZR i' / 10 /\
           (forall y', In y' ys -> (exists k, y' = 4 / 10 + 25 / 100 + 2 / 10 + IZR k / 10) \/ (exists k, (k < i')%Z /\ y' = 4 / 10 + 25 / 100 + 25 / 100 + IZR k / 10))
           else y = 4 / 10 + 25 / 100 + 2 / 10 + IZR i' / 10 /\ forall y', In y' ys -> exists k, (k < i')%Z /\ y' = 4 / 10 + 25 / 100 + 2 / 10 + IZR k / 10)).
        { destruct Hn as [[-> ->]|(-> & -> & ->)].
          - exists i. split; [exact I3|]. destruct a0; exact I4.
          - exists 0%Z. split; [lia|]. destruct I4 as [_ I4]. split; [unfold cline, dec; cbn; lra|]. intros y' Hy'. destruct (I4 y' Hy') as (k & _ & K). left. exists k. exact K. }
        destruct EY as (i' & Hi' & EY). exists (ys ++ [y]), (i' + 1)%Z. cbn [fst snd]. split; [apply Forall2_app; [exact I1|constructor; [exact Hh|constructor]]|].
        assert (Hny : ~ In y ys).
        { intros Hy. destruct ah; destruct EY as [Ey EY]; specialize (EY y Hy).
          - destruct EY as [(k & K)|(k & Hk & K)]; [rewrite Ey in K; symmetry in K; exact (D _ _ K)|].
            assert (IZR k = IZR i') by lra. apply eq_IZR in H. lia.
          - destruct EY as (k & Hk & K). assert (IZR k = IZR i') by lra. apply eq_IZR in H. lia. }
        split; [apply (Permutation_NoDup (l := y :: ys)); [apply Permutation_cons_append|constructor; assumption]|]. split; [lia|].
        destruct ah; destruct EY as [Ey EY]; (split; [unfold dec; cbn; rewrite plus_IZR; lra|]); intros y' Hy'; apply in_app_or in Hy' as [Hy'|[<-|[]]].
        * destruct (EY y' Hy') as [K|(k & Hk & K)]; [left; exact K|right; exists k; split; [lia|exact K]].
        * right. exists i'. split; [lia|exact Ey].
        * destruct (EY y' Hy') as (k & Hk & K). exists k. split; [lia|exact K].
        * exists i'. split; [lia|exact Ey]. }
  destruct G as (ys & i & G1 & G2 & _). exists ys. auto.
Qed.
End REAL.
