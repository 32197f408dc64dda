(** The experiment loop of PaperScripts/test_models.py (lines 32-72), which is meant to be restarted after a crash. *)
From Coq Require Import ZArith List Bool Lia String.
From Coq Require Import Floats.
From Verif Require Import Prelude.
Import ListNotations.
Open Scope Z_scope.

(** test_models.py 36: the cells of the columns 'dataset' and 'model', 0 until they are assigned a name. *)
Inductive label := Blank | Name (s : string).

(** test_models.py 37-38: one line of the table. *)
Record line := Line { l_dataset : label; l_model : label; l_acc : float; l_acc_std : float; l_time : float; l_time_std : float }.

(** test_models.py 36-39: the table before the first experiment. *)
Definition blank : line := Line Blank Blank 0 0 0 0.
Definition blank_table (names models : list string) : list line := repeat blank (List.length names * List.length models)%nat.

(** test_models.py 57: [pd.isna(acc) or acc == 0.0]. *)
Definition todo (l : line) : bool := (is_nan (l_acc l) || (l_acc l =? 0)%float)%bool.

(** test_models.py 62-68: what one experiment can come to: the four numbers, an exception, or the end of the process during
    it. An end of the process after an experiment and before the table is saved is not different from one during it;
    an end of the process while the file is being written is not modelled. *)
Inductive outcome := Scores (acc acc_std time time_std : float) | Raises | Dies.

(** test_models.py 63-68: the line after an experiment. *)
Definition filled (name model : string) (a b c d : float) : line := Line (Name name) (Name model) a b c d.

Inductive status := Finished | Failed | Died | NoLine.

(** test_models.py 52-72: the loop over the pairs, with i_df = [i], the table [df] in memory and the file [disk]. [score] gives
    the outcome of the experiment of the i-th line in this session: the models are not seeded, so it may differ from one
    session to the next. The result is the file, how the session ended, and the experiments that ended with scores.
    [df.loc] of a line that does not exist raises KeyError. *)
Fixpoint loop (score : Z -> string -> string -> outcome) (pairs : list (string * string)) (i : Z) (df disk : list line) :
  list line * status * list (Z * line) :=
  match pairs with
  | [] => (disk, Finished, [])
  | (name, model) :: t =>
    match nthZ df i with
    | None => (disk, NoLine, [])
    | Some l =>
      if todo l then
        match score i name model with
        | Scores a b c d => let new := filled name model a b c d in
                            let df' := upd df (Z.to_nat i) new in
                            let '(disk', s, tr) := loop score t (i + 1) df' df' in (disk', s, (i, new) :: tr)
        | Raises => (disk, Failed, [])
        | Dies => (disk, Died, [])
        end
      else loop score t (i + 1) df disk
    end
  end.

(** test_models.py 53-55: the order of the experiments. *)
Definition pairs_of (names models : list string) : list (string * string) := flat_map (fun n => map (fun m => (n, m)) models) names.

(** test_models.py 31-72: one execution of the script. [reread] is what a line becomes by to_csv and read_csv. *)
Definition session (reread : line -> line) (names models : list string) (resume : bool) (score : Z -> string -> string -> outcome) (disk : list line) :
  list line * status * list (Z * line) :=
  if resume then loop score (pairs_of names models) 0 (map reread disk) disk
  else loop score (pairs_of names models) 0 (blank_table names models) (blank_table names models).

(** Several executions after each other, all but the first with resume = True: the file, how the last one ended, and the
    experiments in the order in which they were made. *)
Fixpoint resumed (reread : line -> line) (names models : list string) (disk : list line) (s : status) (scores : list (Z -> string -> string -> outcome)) :
  list line * status * list (Z * line) :=
  match scores with
  | [] => (disk, s, [])
  | sc :: t =>
    let '(disk1, s1, tr1) := session reread names models true sc disk in
    let '(disk2, s2, tr2) := resumed reread names models disk1 s1 t in (disk2, s2, (tr1 ++ tr2)%list)
  end.

Definition campaign (reread : line -> line) (names models : list string) (score : Z -> string -> string -> outcome) (scores : list (Z -> string -> string -> outcome)) :
  list line * status * list (Z * line) :=
  let '(disk1, s1, tr1) := session reread names models false score [] in
  let '(disk2, s2, tr2) := resumed reread names models disk1 s1 scores in (disk2, s2, (tr1 ++ tr2)%list).

(** test_models.py 42-49: the models that are fitted once before the timings; the keys of dict_models are compared with the
    names 'R_DST_Ensemble' and 'R_DST_Ridge'. *)
Definition compiled (models : list string) : list string :=
  filter (fun m => (String.eqb m "R_DST_Ensemble" || String.eqb m "R_DST_Ridge")%bool) models.

(** test_models.py 25-28 *)
Definition script_models : list string := ["R_DST"%string; "R_DST_Ensemble"%string].

(** ** Proofs *)

(** the pair of line [i] *)
Definition pair_at (names models : list string) (i : Z) (n m : string) : Prop := nthZ (pairs_of names models) i = Some (n, m).

Lemma pairs_length names models : List.length (pairs_of names models) = (List.length names * List.length models)%nat.
Proof. unfold pairs_of. induction names as [|n t IH]; [reflexivity|]. cbn [flat_map List.length]. rewrite app_length, map_length, IH. lia. Qed.

(** a line read and written [k] times *)
Fixpoint reread_n (reread : line -> line) (k : nat) (l : line) : line := match k with O => l | S k' => reread (reread_n reread k' l) end.

(** reading the table back keeps what matters: done lines keep their labels and are still done, lines to do are still to do. *)
Definition csv_ok (reread : line -> line) : Prop :=
  forall l, todo (reread l) = todo l /\ (todo l = false -> l_dataset (reread l) = l_dataset l /\ l_model (reread l) = l_model l).

Lemma reread_n_ok reread k l : csv_ok reread -> todo (reread_n reread k l) = todo l /\
  (todo l = false -> l_dataset (reread_n reread k l) = l_dataset l /\ l_model (reread_n reread k l) = l_model l).
Proof.
  intros H. induction k as [|k [IH1 IH2]]; [split; [reflexivity|split; reflexivity]|]. cbn [reread_n].
  destruct (H (reread_n reread k l)) as [H1 H2]. split; [congruence|]. intros T. destruct (IH2 T) as [A B]. rewrite <- IH1 in T. destruct (H2 T) as [C D]. split; congruence.
Qed.

(** lines before [i] stay as they are *)
Lemma loop_below score : forall ps i0 d0 d1 s0 tr0 j0, j0 < i0 -> loop score ps i0 d0 d0 = (d1, s0, tr0) -> 0 <= i0 -> i0 + zlen ps <= zlen d0 -> nthZ d1 j0 = nthZ d0 j0.
Proof.
  induction ps as [|[n0 m0] ps IH]; intros i0 d0 d1 s0 tr0 j0 HJ H HI HZ; cbn [loop] in H.
  - injection H as <- <- <-. reflexivity.
  - rewrite zlen_cons in HZ. pose proof (zlen_nonneg ps). destruct (nthZ d0 i0) as [l0|] eqn:E0; [|injection H as <- <- <-; reflexivity].
    destruct (todo l0).
    + destruct (score i0 n0 m0) as [a0 b0 c0 e0| |]; [|injection H as <- <- <-; reflexivity|injection H as <- <- <-; reflexivity].
      destruct (loop score ps (i0 + 1) _ _) as [[d2 s2] tr2] eqn:HR. injection H as <- <- <-.
      apply (IH _ _ _ _ _ j0) in HR; [|lia|lia|rewrite zlen_upd; lia]. rewrite HR, nthZ_upd by lia. destruct (Z.eqb_spec j0 i0); [lia|reflexivity].
    + apply (IH _ _ _ _ _ j0) in H; [exact H|lia|lia|lia].
Qed.

Section Loop.
Variable reread : line -> line.
Hypothesis CSV : csv_ok reread.

(** one pass of the loop: [df] and [disk] agree on what is to do, and lines below [i] are not touched *)
Lemma loop_ok score : forall pairs i df disk disk' s tr, 0 <= i -> zlen df = zlen disk -> i + zlen pairs <= zlen df ->
  (forall j x y, nthZ df j = Some x -> nthZ disk j = Some y -> exists k, (k <= 1)%nat /\ x = reread_n reread k y) ->
  loop score pairs i df disk = (disk', s, tr) ->
  zlen disk' = zlen disk /\ s <> NoLine /\
  (forall j x, In (j, x) tr -> i <= j < i + zlen pairs /\ exists n m y a b c d, nthZ pairs (j - i) = Some (n, m) /\ nthZ df j = Some y /\ todo y = true /\ score j n m = Scores a b c d /\ x = filled n m a b c d /\ nthZ disk' j = Some x) /\
  NoDup (map fst tr) /\
  (forall j y, nthZ disk j = Some y -> ~ In j (map fst tr) -> exists y' k, nthZ disk' j = Some y' /\ y' = reread_n reread k y) /\
  (s = Finished -> forall j y, i <= j < i + zlen pairs -> nthZ df j = Some y -> todo y = true -> In j (map fst tr)) /\
  (tr = [] -> disk' = disk).
Proof.
  induction pairs as [|[n m] t IH]; intros i df disk disk' s tr Hi HL Hn HA H; cbn [loop] in H.
  - injection H as <- <- <-. split; [reflexivity|]. split; [discriminate|]. split; [intros j x []|]. split; [constructor|].
    split; [intros j y HY _; exists y, O; split; [exact HY|reflexivity]|]. split; [intros _ j y HJ; rewrite zlen_nil in HJ; lia|reflexivity].
  - rewrite zlen_cons in *. pose proof (zlen_nonneg t) as Ht. destruct (nthZ_some df i) as [l Hl]; [lia|]. rewrite Hl in H.
    destruct (todo l) eqn:HT.
    + destruct (score i n m) as [a b c d| |] eqn:HS.
      * cbv zeta in H. set (new := filled n m a b c d) in *. set (df' := upd df (Z.to_nat i) new) in *.
        destruct (loop score t (i + 1) df' df') as [[disk1 s1] tr1] eqn:HR. injection H as <- <- <-.
        assert (ZL : zlen df' = zlen df) by apply zlen_upd.
        assert (ND : forall j, nthZ df' j = if j =? i then Some new else nthZ df j) by (intros j; apply nthZ_upd; lia).
        assert (BE : nthZ disk1 i = nthZ df' i) by (apply (loop_below score t (i + 1) df' disk1 s1 tr1 i); [lia|exact HR|lia|lia]).
        apply IH in HR as (R1 & R2 & R3 & R4 & R5 & R6 & R7); [|lia|reflexivity|lia|intros j x y HX HY; exists O; split; [lia|cbn; congruence]].
        assert (NI : ~ In i (map fst tr1)) by (intros HI; apply in_map_iff in HI as ([j x] & E & HI); cbn in E; subst j; apply R3 in HI; lia).
        split; [lia|]. split; [exact R2|]. split; [|split; [|split; [|split]]].
        -- intros j x [E|HI].
           ++ injection E as <- <-. split; [lia|]. exists n, m, l, a, b, c, d. replace (i - i) with 0 by lia. split; [reflexivity|]. split; [exact Hl|]. split; [exact HT|]. split; [exact HS|].
              split; [reflexivity|]. rewrite BE, ND, Z.eqb_refl. reflexivity.
           ++ destruct (R3 j x HI) as (HJ & n0 & m0 & y & a0 & b0 & c0 & d0 & P1 & P2 & P3 & P4 & P5 & P6). split; [lia|].
              exists n0, m0, y, a0, b0, c0, d0. rewrite ND in P2. destruct (Z.eqb_spec j i); [lia|]. rewrite nthZ_cons. destruct (Z.eqb_spec (j - i) 0); [lia|].
              replace (j - i - 1) with (j - (i + 1)) by lia. repeat split; assumption.
        -- cbn [map fst]. constructor; assumption.
        -- intros j y HY HJ. cbn [map fst In] in HJ. destruct (nthZ_some df j) as [x HX]; [apply nthZ_range in HY; lia|].
           destruct (HA j x y HX HY) as (k & _ & ->). destruct (R5 j (reread_n reread k y)) as (y' & k' & HY' & E); [rewrite ND; destruct (Z.eqb_spec j i); [exfalso; apply HJ; left; lia|exact HX]|tauto|].
           exists y', (k' + k)%nat. split; [exact HY'|]. rewrite E. clear. induction k'; [reflexivity|]. cbn. rewrite IHk'. reflexivity.
        -- intros HF j y HJ HY HTY. cbn [map fst In]. destruct (Z.eq_dec j i) as [->|NE]; [left; reflexivity|right].
           apply (R6 HF j y); [lia| |exact HTY]. rewrite ND. destruct (Z.eqb_spec j i); [lia|exact HY].
        -- discriminate.
      * injection H as <- <- <-. split; [reflexivity|]. split; [discriminate|]. split; [intros j x []|]. split; [constructor|].
        split; [intros j y HY _; exists y, O; split; [exact HY|reflexivity]|]. split; [discriminate|reflexivity].
      * injection H as <- <- <-. split; [reflexivity|]. split; [discriminate|]. split; [intros j x []|]. split; [constructor|].
        split; [intros j y HY _; exists y, O; split; [exact HY|reflexivity]|]. split; [discriminate|reflexivity].
    + apply IH in H as (R1 & R2 & R3 & R4 & R5 & R6 & R7); [|lia|exact HL|lia|exact HA].
      split; [exact R1|]. split; [exact R2|]. split; [|split; [exact R4|split; [exact R5|split; [|exact R7]]]].
      * intros j x HI. destruct (R3 j x HI) as (HJ & n0 & m0 & y & a0 & b0 & c0 & d0 & P1 & P). split; [lia|]. exists n0, m0, y, a0, b0, c0, d0. split; [|exact P].
        rewrite nthZ_cons. destruct (Z.eqb_spec (j - i) 0); [lia|]. replace (j - i - 1) with (j - (i + 1)) by lia. exact P1.
      * intros HF j y HJ HY HTY. destruct (Z.eq_dec j i) as [->|NE]; [congruence|]. apply (R6 HF j y); [lia|exact HY|exact HTY].
Qed.

(** the file and the experiments made so far *)
Definition consistent (names models : list string) (all : list (Z -> string -> string -> outcome)) (disk : list line) (tr : list (Z * line)) : Prop :=
  zlen disk = zlen (pairs_of names models) /\
  (forall j x, In (j, x) tr -> exists sc n m a b c d, In sc all /\ pair_at names models j n m /\ sc j n m = Scores a b c d /\ x = filled n m a b c d) /\
  (forall tr1 j x tr2, tr = (tr1 ++ (j, x) :: tr2)%list -> todo x = false -> ~ In j (map fst tr2)) /\
  (forall j y, nthZ disk j = Some y -> (~ In j (map fst tr) /\ todo y = true) \/
     exists tr1 x tr2 k, tr = (tr1 ++ (j, x) :: tr2)%list /\ ~ In j (map fst tr2) /\ y = reread_n reread k x).

Lemma split_app {A} (l1 l2 a b : list A) (x : A) : (l1 ++ l2 = a ++ x :: b)%list ->
  (exists b', l1 = (a ++ x :: b')%list /\ b = (b' ++ l2)%list) \/ (exists a', a = (l1 ++ a')%list /\ l2 = (a' ++ x :: b)%list).
Proof.
  revert a. induction l1 as [|h t IH]; intros a H; [right; exists a; split; [reflexivity|exact H]|].
  destruct a as [|h' a]; cbn in H.
  - injection H as -> H. left. exists t. split; [reflexivity|symmetry; exact H].
  - injection H as -> H. destruct (IH a H) as [(b' & -> & ->)|(a' & -> & ->)]; [left; exists b'|right; exists a']; split; reflexivity.
Qed.

Lemma in_split_last (l : list (Z * line)) j : In j (map fst l) -> exists a x b, l = (a ++ (j, x) :: b)%list /\ ~ In j (map fst b).
Proof.
  induction l as [|[i x] t IH]; intros H; [destruct H|]. destruct (in_dec Z.eq_dec j (map fst t)) as [HI|HN].
  - destruct (IH HI) as (a & x' & b & -> & HB). exists ((i, x) :: a), x', b. split; [reflexivity|exact HB].
  - destruct H as [E|H]; [|contradiction]. cbn in E. subst i. exists [], x, t. split; [reflexivity|exact HN].
Qed.

Lemma nodup_split (l : list (Z * line)) a j x b : NoDup (map fst l) -> l = (a ++ (j, x) :: b)%list -> ~ In j (map fst a) /\ ~ In j (map fst b).
Proof.
  intros H ->. rewrite map_app in H. cbn [map fst] in H. apply NoDup_remove_2 in H. rewrite in_app_iff in H. tauto.
Qed.

Lemma reread_n_add a b l : reread_n reread a (reread_n reread b l) = reread_n reread (a + b) l.
Proof. induction a as [|a IH]; [reflexivity|]. cbn. rewrite IH. reflexivity. Qed.

(** one session keeps this *)
Lemma session_step names models all sc df disk tr disk1 s1 tr1 : consistent names models all disk tr -> In sc all ->
  zlen df = zlen disk -> (forall j x y, nthZ df j = Some x -> nthZ disk j = Some y -> exists k, (k <= 1)%nat /\ x = reread_n reread k y) ->
  loop sc (pairs_of names models) 0 df disk = (disk1, s1, tr1) ->
  consistent names models all disk1 (tr ++ tr1) /\ s1 <> NoLine /\
  (s1 = Finished -> forall j, 0 <= j < zlen (pairs_of names models) -> In j (map fst (tr ++ tr1))).
Proof.
  intros (C1 & C2 & C3 & C4) HS HZ HA H. apply (loop_ok sc) in H as (R1 & R2 & R3 & R4 & R5 & R6 & _); [|lia|exact HZ|lia|exact HA].
  assert (TD : forall j, In j (map fst tr1) -> exists y, nthZ disk j = Some y /\ todo y = true).
  { intros j HJ. apply in_map_iff in HJ as ([j' x] & E & HJ). cbn in E. subst j'. destruct (R3 j x HJ) as (_ & _ & _ & y & _ & _ & _ & _ & _ & P2 & P3 & _).
    destruct (nthZ_some disk j) as [y0 HY0]; [apply nthZ_range in P2; lia|]. exists y0. split; [exact HY0|]. destruct (HA j y y0 P2 HY0) as (k & _ & ->).
    destruct (reread_n_ok reread k y0 CSV) as [E _]. congruence. }
  assert (TR : forall j x, In (j, x) tr -> todo x = false -> forall y, nthZ disk j = Some y -> todo y = false).
  { intros j x HI HT y HY. destruct (C4 j y HY) as [[N _]|(t1 & x' & t2 & k & E & N & ->)]; [destruct N; apply in_map_iff; exists (j, x); split; [reflexivity|exact HI]|].
    destruct (reread_n_ok reread k x' CSV) as [-> _]. apply in_split in HI as (u1 & u2 & E'). rewrite E in E'.
    destruct (split_app t1 ((j, x') :: t2) u1 u2 (j, x) E') as [(b' & E1 & E2)|(a' & E1 & E2)].
    - destruct (C3 u1 j x u2) as []; [congruence|exact HT|]. rewrite E2, map_app, in_app_iff. right. left. reflexivity.
    - destruct a' as [|e a']; [injection E2 as E2 _; congruence|]. injection E2 as _ E2. destruct N. rewrite E2, map_app, in_app_iff. right. left. reflexivity. }
  split; [|split; [exact R2|]].
  - split; [lia|]. split; [|split].
    + intros j x HI. apply in_app_iff in HI as [HI|HI]; [apply C2; exact HI|]. destruct (R3 j x HI) as (_ & n & m & y & a & b & c & d & P1 & _ & _ & P4 & P5 & _).
      exists sc, n, m, a, b, c, d. replace (j - 0) with j in P1 by lia. repeat split; assumption.
    + intros t1 j x t2 E HT. destruct (split_app tr tr1 t1 t2 (j, x) E) as [(b' & E1 & E2)|(a' & E1 & E2)].
      * rewrite E2, map_app, in_app_iff. intros [HI|HI]; [exact (C3 t1 j x b' E1 HT HI)|].
        destruct (TD j HI) as (y & HY & HTY). rewrite (TR j x) with (y := y) in HTY; [discriminate|rewrite E1, in_app_iff; right; left; reflexivity|exact HT|exact HY].
      * apply (nodup_split tr1 a' j x t2 R4 E2).
    + intros j y HY. destruct (in_dec Z.eq_dec j (map fst tr1)) as [HI|HN].
      * right. apply in_split_last in HI as (a & x & b & E & HB). exists (tr ++ a)%list, x, b, O. split; [rewrite E, <- app_assoc; reflexivity|]. split; [exact HB|].
        destruct (R3 j x) as (_ & _ & _ & _ & _ & _ & _ & _ & _ & _ & _ & _ & _ & P6); [rewrite E, in_app_iff; right; left; reflexivity|]. cbn. congruence.
      * destruct (nthZ_some disk j) as [y0 HY0]; [apply nthZ_range in HY; lia|]. destruct (R5 j y0 HY0 HN) as (y' & k & HY' & E). assert (y = reread_n reread k y0) by congruence. subst y.
        destruct (C4 j y0 HY0) as [[N HT]|(t1 & x & t2 & k0 & E0 & N & ->)].
        -- left. split; [rewrite map_app, in_app_iff; tauto|]. destruct (reread_n_ok reread k y0 CSV) as [-> _]. exact HT.
        -- right. exists t1, x, (t2 ++ tr1)%list, (k + k0)%nat. split; [rewrite E0, <- app_assoc; reflexivity|]. split; [rewrite map_app, in_app_iff; tauto|]. apply reread_n_add.
  - intros HF j HJ. rewrite map_app, in_app_iff. destruct (nthZ_some disk j) as [y HY]; [lia|]. destruct (nthZ_some df j) as [x HX]; [lia|].
    destruct (C4 j y HY) as [[_ HT]|(t1 & x' & t2 & k & E & _ & _)].
    + right. apply (R6 HF j x); [lia|exact HX|]. destruct (HA j x y HX HY) as (k & _ & ->). destruct (reread_n_ok reread k y CSV) as [-> _]. exact HT.
    + left. rewrite E, map_app, in_app_iff. right. left. reflexivity.
Qed.

Lemma consistent_start names models all : consistent names models all (blank_table names models) [].
Proof.
  unfold consistent. split; [unfold blank_table; rewrite zlen_repeat; unfold zlen; rewrite pairs_length; reflexivity|].
  split; [intros j x []|]. split; [intros tr1 j x tr2 H; destruct tr1; discriminate|].
  intros j y HY. left. split; [intros []|]. assert (E : y = blank); [|rewrite E; reflexivity].
  apply nthZ_In in HY. unfold blank_table in HY. apply repeat_spec in HY. exact HY.
Qed.

Lemma resumed_ok names models all : forall scores disk s tr disk' s' tr', consistent names models all disk tr -> incl scores all -> s <> NoLine ->
  (s = Finished -> forall j, 0 <= j < zlen (pairs_of names models) -> In j (map fst tr)) ->
  resumed reread names models disk s scores = (disk', s', tr') ->
  consistent names models all disk' (tr ++ tr') /\ s' <> NoLine /\
  (s' = Finished -> forall j, 0 <= j < zlen (pairs_of names models) -> In j (map fst (tr ++ tr'))).
Proof.
  induction scores as [|sc t IH]; intros disk s tr disk' s' tr' HC HI HS HF H; cbn [resumed] in H.
  - injection H as <- <- <-. rewrite app_nil_r. split; [exact HC|]. split; assumption.
  - destruct (session reread names models true sc disk) as [[disk1 s1] tr1] eqn:H1. destruct (resumed reread names models disk1 s1 t) as [[disk2 s2] tr2] eqn:H2. injection H as <- <- <-.
    unfold session in H1. apply (session_step names models all sc (map reread disk) disk tr) in H1 as (G1 & G2 & G3); [|exact HC|apply HI; left; reflexivity|apply zlen_map|].
    + rewrite app_assoc. apply (IH disk1 s1 (tr ++ tr1)%list disk2 s2 tr2 G1); [intros z HZ; apply HI; right; exact HZ|exact G2|exact G3|exact H2].
    + intros j x y HX HY. exists 1%nat. split; [lia|]. rewrite nthZ_map, HY in HX. cbn in *. congruence.
Qed.

Lemma campaign_ok names models score scores disk s tr : campaign reread names models score scores = (disk, s, tr) ->
  consistent names models (score :: scores) disk tr /\ s <> NoLine /\
  (s = Finished -> forall j, 0 <= j < zlen (pairs_of names models) -> In j (map fst tr)).
Proof.
  unfold campaign. destruct (session reread names models false score []) as [[disk1 s1] tr1] eqn:H1. destruct (resumed reread names models disk1 s1 scores) as [[disk2 s2] tr2] eqn:H2.
  intros H. injection H as <- <- <-. unfold session in H1.
  apply (session_step names models (score :: scores) score _ _ []) in H1 as (G1 & G2 & G3); [|apply consistent_start|left; reflexivity|reflexivity|intros j x y HX HY; exists O; split; [lia|cbn; congruence]].
  cbn [app] in G1, G3. apply (resumed_ok names models (score :: scores) scores disk1 s1 tr1 disk2 s2 tr2 G1); [intros z HZ; right; exact HZ|exact G2|exact G3|exact H2].
Qed.

End Loop.
