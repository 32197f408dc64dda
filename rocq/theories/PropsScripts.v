(** Property C96: the experiment script can be interrupted and resumed. *)
From Coq Require Import ZArith List Bool Lia String.
From Coq Require Import Floats.
From Verif Require Import Prelude Scripts.
Import ListNotations.
Open Scope Z_scope.

(** line [i] of the table belongs to this dataset and this model: the datasets one after the other, and for each all models. *)
Definition belongs (names models : list string) (i : Z) (n m : string) : Prop :=
  0 < zlen models /\ nthZ names (i / zlen models) = Some n /\ nthZ models (i mod zlen models) = Some m.

Lemma pair_at_belongs names models : forall i n m, pair_at names models i n m -> belongs names models i n m.
Proof.
  unfold pair_at, belongs. induction names as [|a t IH]; intros i n m H.
  - apply nthZ_range in H. change (zlen (pairs_of [] models)) with 0 in H. lia.
  - unfold pairs_of in H. cbn [flat_map] in H. fold (pairs_of t models) in H. rewrite nthZ_app, zlen_map in H. pose proof (zlen_nonneg models) as P.
    destruct (Z.ltb_spec i (zlen models)) as [L|L].
    + pose proof (nthZ_range _ _ _ H) as Q. rewrite zlen_map in Q. rewrite nthZ_map in H. destruct (nthZ models i) as [x|] eqn:E; [|discriminate]. cbn in H. injection H as <- <-.
      split; [lia|]. rewrite Z.div_small, Z.mod_small by lia. split; [reflexivity|exact E].
    + pose proof (nthZ_range _ _ _ H) as Q. destruct (IH _ _ _ H) as (P1 & P2 & P3). split; [exact P1|].
      replace i with (i - zlen models + 1 * zlen models) by lia. rewrite Z.div_add, Z_mod_plus_full by lia. rewrite nthZ_cons.
      assert (0 <= (i - zlen models) / zlen models) by (apply Z.div_pos; lia).
      destruct (Z.eqb_spec ((i - zlen models) / zlen models + 1) 0); [lia|]. split; [|exact P3]. replace ((i - zlen models) / zlen models + 1 - 1) with ((i - zlen models) / zlen models) by lia. exact P2.
Qed.

(** the numbers of an experiment: an accuracy that is neither NaN nor 0 *)
Definition counts (l : line) : Prop := is_nan (l_acc l) = false /\ (l_acc l =? 0)%float = false.

(** writing a line to the file and reading it back keeps whether it counts, and the labels of those that do *)
Definition keeps (reread : line -> line) : Prop :=
  forall l, (counts (reread l) <-> counts l) /\ (counts l -> l_dataset (reread l) = l_dataset l /\ l_model (reread l) = l_model l).

Lemma counts_todo l : counts l <-> todo l = false.
Proof. unfold counts, todo. rewrite orb_false_iff. reflexivity. Qed.

Lemma keeps_csv reread : keeps reread -> csv_ok reread.
Proof.
  intros H l. destruct (H l) as [H1 H2]. rewrite !counts_todo in *. split; [|exact H2]. destruct (todo (reread l)), (todo l); try reflexivity; [apply H1; reflexivity|symmetry; apply H1; reflexivity].
Qed.

(** The script is started with resume = False and restarted any number of times with resume = True, each execution being
    stopped anywhere by an exception or by the end of the process. Every experiment is one of the dataset and model of its
    line; after an experiment with an accuracy that is not 0 and not NaN the line is not computed again; the file has one
    line per dataset and model, which holds its labels and the scores of its last experiment (written to and read from the
    file some number of times), or is still to do if it has none; when the last execution comes to its end, every line has
    had an experiment. *)
Theorem C96_restart : forall reread names models score scores disk s tr, keeps reread -> campaign reread names models score scores = (disk, s, tr) ->
  zlen disk = zlen names * zlen models /\
  (forall j x, In (j, x) tr -> exists sc n m a b c d, In sc (score :: scores) /\ belongs names models j n m /\ sc j n m = Scores a b c d /\ x = Line (Name n) (Name m) a b c d) /\
  (forall tr1 j x tr2, tr = (tr1 ++ (j, x) :: tr2)%list -> counts x -> forall x', ~ In (j, x') tr2) /\
  (forall j y, nthZ disk j = Some y ->
     (~ counts y /\ forall x, ~ In (j, x) tr) \/
     (exists tr1 x tr2 k, tr = (tr1 ++ (j, x) :: tr2)%list /\ (forall x', ~ In (j, x') tr2) /\ y = reread_n reread k x /\
        (counts y -> exists n m, belongs names models j n m /\ l_dataset y = Name n /\ l_model y = Name m))) /\
  (s = Finished -> forall j, 0 <= j < zlen names * zlen models -> exists x, In (j, x) tr) /\
  s <> NoLine.
Proof.
  intros reread names models score scores disk s tr KEEP H. pose proof (keeps_csv reread KEEP) as CSV. destruct (campaign_ok reread CSV _ _ _ _ _ _ _ H) as ((C1 & C2 & C3 & C4) & HN & HF).
  assert (ZL : zlen (pairs_of names models) = zlen names * zlen models) by (unfold zlen; rewrite pairs_length; lia).
  assert (C2' : forall j x, In (j, x) tr -> exists sc n m a b c d, In sc (score :: scores) /\ belongs names models j n m /\ sc j n m = Scores a b c d /\ x = Line (Name n) (Name m) a b c d).
  { intros j x HI. destruct (C2 j x HI) as (sc & n & m & a & b & c & d & P1 & P2 & P3 & P4). exists sc, n, m, a, b, c, d. apply pair_at_belongs in P2. repeat split; try assumption; apply P2. }
  assert (NF : forall (l : list (Z * line)) j, ~ In j (map fst l) -> forall x, ~ In (j, x) l) by (intros l j HJ x HI; apply HJ; apply in_map_iff; exists (j, x); split; [reflexivity|exact HI]).
  split; [congruence|]. split; [exact C2'|]. split; [intros tr1 j x tr2 E HX; apply NF; apply (C3 tr1 j x tr2 E); apply counts_todo; exact HX|]. split; [|split; [|exact HN]].
  - intros j y HY. destruct (C4 j y HY) as [[N HT]|(tr1 & x & tr2 & k & E & N & ->)].
    + left. split; [rewrite counts_todo; congruence|apply NF; exact N].
    + right. exists tr1, x, tr2, k. split; [exact E|]. split; [apply NF; exact N|]. split; [reflexivity|]. rewrite counts_todo. destruct (reread_n_ok reread k x CSV) as [-> E2]. intros HT.
      destruct (E2 HT) as [-> ->]. destruct (C2' j x) as (_ & n & m & a & b & c & d & _ & P2 & _ & ->); [rewrite E, in_app_iff; right; left; reflexivity|].
      exists n, m. split; [exact P2|]. split; reflexivity.
  - intros HS j HJ. rewrite <- ZL in HJ. specialize (HF HS j HJ). apply in_map_iff in HF as ([j' x] & E & HI). cbn in E. subst j'. exists x. exact HI.
Qed.
Print Assumptions C96_restart.

(** If the accuracy of an experiment depends on the dataset and the model only and is never 0 or NaN, and the file gives the
    accuracies back as they are, then, however often the script was interrupted, the table it ends with has these accuracies, and
    every experiment was made exactly once. *)
Theorem C96_accuracies : forall reread names models score scores disk tr acc, keeps reread -> (forall l, l_acc (reread l) = l_acc l) ->
  (forall sc j n m a b c d, In sc (score :: scores) -> sc j n m = Scores a b c d -> a = acc n m /\ is_nan a = false /\ (a =? 0)%float = false) ->
  campaign reread names models score scores = (disk, Finished, tr) ->
  (forall j n m, belongs names models j n m -> exists y, nthZ disk j = Some y /\ l_dataset y = Name n /\ l_model y = Name m /\ l_acc y = acc n m) /\
  NoDup (map fst tr) /\ zlen tr = zlen names * zlen models.
Proof.
  intros reread names models score scores disk tr acc KEEP RA HA H. pose proof (keeps_csv reread KEEP) as CSV. pose proof (C96_restart _ _ _ _ _ _ _ _ KEEP H) as (R1 & R2 & R3 & R4 & R5 & _). specialize (R5 eq_refl).
  assert (TC : forall j x, In (j, x) tr -> counts x).
  { intros j x HI. destruct (R2 j x HI) as (sc & n & m & a & b & c & d & P1 & _ & P3 & ->). destruct (HA sc j n m a b c d P1 P3) as (_ & E1 & E2). split; assumption. }
  assert (BI : forall j n m, belongs names models j n m -> 0 <= j < zlen names * zlen models).
  { intros j n m (P & A & B). apply nthZ_range in A. apply nthZ_range in B. assert (D : j = zlen models * (j / zlen models) + j mod zlen models) by (apply Z.div_mod; lia).
    revert A B D. generalize (j / zlen models) (j mod zlen models). intros q r A B ->. clear - P A B. split; [apply Z.add_nonneg_nonneg; [apply Z.mul_nonneg_nonneg|]; lia|]. assert (zlen models * (q + 1) <= zlen models * zlen names) by (apply Z.mul_le_mono_nonneg_l; lia). lia. }
  assert (ND : NoDup (map fst tr)).
  { clear - R3 TC. revert R3 TC. induction tr as [|[j x] t IH]; intros R3 TC; cbn [map fst]; constructor.
    - intros HI. apply in_map_iff in HI as ([j' x'] & E & HI). cbn in E. subst j'. apply (R3 [] j x t eq_refl (TC j x (or_introl eq_refl)) x' HI).
    - apply IH; [|intros j' x' HI; apply (TC j' x'); right; exact HI]. intros tr1 j' x' tr2 -> HC. apply (R3 ((j, x) :: tr1) j' x' tr2 eq_refl HC). }
  split; [|split; [exact ND|]].
  - intros j n m HB. pose proof (BI _ _ _ HB) as HJ. destruct (nthZ_some disk j) as [y HY]; [lia|]. exists y. split; [exact HY|].
    destruct (R4 j y HY) as [[_ N]|(tr1 & x & tr2 & k & E & _ & E2 & HC)]; [destruct (R5 j HJ) as [x HX]; destruct (N x HX)|].
    assert (HI : In (j, x) tr) by (rewrite E, in_app_iff; right; left; reflexivity). assert (CY : counts y) by (apply counts_todo; rewrite E2; destruct (reread_n_ok reread k x CSV) as [-> _]; apply counts_todo; exact (TC j x HI)).
    destruct (HC CY) as (n' & m' & (_ & A' & B') & L1 & L2). destruct HB as (_ & A & B). assert (n' = n) by congruence. assert (m' = m) by congruence. subst n' m'.
    split; [exact L1|]. split; [exact L2|]. replace (l_acc y) with (l_acc x); [|rewrite E2; clear - RA; induction k; [reflexivity|cbn; rewrite RA; exact IHk]].
    destruct (R2 j x HI) as (sc & n' & m' & a & b & c & d & P1 & (_ & A2 & B2) & P3 & ->). cbn. assert (n' = n) by congruence. assert (m' = m) by congruence. subst n' m'. apply (HA sc j n m a b c d P1 P3).
  - assert (zlen tr = zlen (zrange 0 (zlen names * zlen models))) as ->; [|rewrite zlen_zrange; pose proof (zlen_nonneg names); pose proof (zlen_nonneg models); nia].
    unfold zlen. f_equal. rewrite <- (map_length fst tr). apply Nat.le_antisymm; apply NoDup_incl_length; try exact ND; try apply zrange_NoDup; intros j HJ.
    + apply in_map_iff in HJ as ([j' x] & E & HI). cbn in E. subst j'. apply in_zrange. destruct (R2 j x HI) as (_ & n & m & _ & _ & _ & _ & _ & HB & _). exact (BI j n m HB).
    + apply in_zrange in HJ. destruct (R5 j HJ) as [x HX]. apply in_map_iff. exists (j, x). split; [reflexivity|exact HX].
Qed.
Print Assumptions C96_accuracies.

(** three datasets, two models; the first execution dies in the fourth experiment, the second one raises in the last *)
Definition ex_names : list string := ["ACSF1"%string; "Adiac"%string; "Beef"%string].
Definition ex_score (stop : Z) (o : outcome) (j : Z) (n m : string) : outcome :=
  if j =? stop then o else if String.eqb n "Beef" then Scores 0.5 0.125 2 1 else if String.eqb m "R_DST" then Scores 0.75 0.125 3 1 else Scores 0.875 0.125 9 1.

Example C96_case :
  let '(disk, s, tr) := campaign (fun l => l) ex_names script_models (ex_score 3 Dies) [ex_score 5 Raises; ex_score 9 Dies] in
  s = Finished /\ map fst tr = [0; 1; 2; 3; 4; 5] /\ map l_acc disk = [0.75; 0.875; 0.75; 0.875; 0.5; 0.5]%float /\
  keeps (fun l => l) /\ fst (fst (session (fun l => l) ex_names script_models false (ex_score 3 Dies) [])) <> disk.
Proof.
  vm_compute. split; [reflexivity|]. split; [reflexivity|]. split; [reflexivity|]. split; [intros l; split; [tauto|split; reflexivity]|discriminate].
Qed.

(** An experiment whose accuracy is 0 is repeated at every restart, also when all experiments have been made. *)
Theorem C96_zero_refuted : exists names models score disk s tr, campaign (fun l => l) names models score [score; score] = (disk, s, tr) /\
  s = Finished /\ zlen names * zlen models = 1 /\ map fst tr = [0; 0; 0].
Proof.
  exists ["Beef"%string], ["R_DST"%string], (fun _ _ _ => Scores 0 0 5 1). do 3 eexists. split; [vm_compute; reflexivity|]. split; [reflexivity|]. split; reflexivity.
Qed.
Print Assumptions C96_zero_refuted.

(** The lines are found by their number: resumed after the list of datasets was changed, the script comes to its end without having
    made the experiments of the new dataset, and the file still holds the results of the one that was removed. *)
Theorem C96_other_list_refuted : exists names names' models score disk, zlen names' = zlen names /\ In "Beef"%string names' /\
  campaign (fun l => l) names models score [] = (disk, Finished, [(0, Line (Name "ACSF1") (Name "R_DST") 0.75 0 1 0); (1, Line (Name "Adiac") (Name "R_DST") 0.75 0 1 0)]) /\
  session (fun l => l) names' models true score disk = (disk, Finished, []) /\
  forall y, In y disk -> l_dataset y <> Name "Beef".
Proof.
  exists ["ACSF1"%string; "Adiac"%string], ["ACSF1"%string; "Beef"%string], ["R_DST"%string], (fun _ _ _ => Scores 0.75 0 1 0). eexists. split; [reflexivity|]. split; [right; left; reflexivity|].
  split; [vm_compute; reflexivity|]. split; [vm_compute; reflexivity|]. intros y [<-|[<-|[]]]; discriminate.
Qed.
Print Assumptions C96_other_list_refuted.

(** Started with resume = False (the value in the script), an existing file is lost before the first experiment. *)
Theorem C96_start_over : forall reread names models score disk, names <> [] -> models <> [] -> (forall n m, score 0 n m = Dies) ->
  session reread names models false score disk = (repeat (Line Blank Blank 0 0 0 0) (List.length names * List.length models)%nat, Died, []).
Proof.
  intros reread names models score disk HN HM HS. unfold session. destruct names as [|n names]; [congruence|]. destruct models as [|m models]; [congruence|].
  unfold pairs_of. cbn [flat_map map app loop]. change (nthZ (blank_table (n :: names) (m :: models)) 0) with (Some blank). cbv iota beta. change (todo blank) with true. cbv iota. rewrite HS. reflexivity.
Qed.
Print Assumptions C96_start_over.

(** The models to compile before the timings are looked up under the name 'R_DST_Ridge', but the ridge classifier is called
    'R_DST' in the list of models: it is not compiled, and its compilation falls into the first timing. *)
Theorem C96_compiled_refuted : In "R_DST"%string script_models /\ ~ In "R_DST"%string (compiled script_models).
Proof. split; [left; reflexivity|]. vm_compute. intros [H|[]]. discriminate. Qed.
Print Assumptions C96_compiled_refuted.
