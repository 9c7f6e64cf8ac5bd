From Coq Require Import ZArith NArith Arith List Bool Sorted Lia Permutation.
From Verif Require Import Lib.Arr Model.SecoStatistics Model.ParallelUpdate Spec.Interleaving Spec.Seco Spec.ParallelUpdate
  Proofs.Interleaving Proofs.Seco Proofs.SecoCoverage.
Import ListNotations.
Open Scope nat_scope.
Local Arguments Nat.mul : simpl never.

(** ** Atomic updates of the sum *)

Section Ideal.
Variable increase : bool.

Notation ideal := (list N * Z * list (N * bool))%type.

Definition readValue (n : N) : N := if increase then n else ((n + 2 ^ 32 - 1) mod 2 ^ 32)%N.
Definition writtenValue (n : N) : N := if increase then ((n + 1) mod 2 ^ 32)%N else n.
Definition sumChange (n : N) : Z := if (n =? 0)%N then (if increase then -1 else 1)%Z else 0%Z.

(** The local variables indicate whether the sum has been loaded. *)
Definition idealStep (a : access) (s : ideal) : option ideal :=
  let '(counts, sum, locals) := s in
  match a with
  | ReadCoverage t p =>
      match aget counts p, aget locals t with
      | Some n, Some _ => Some (counts, sum, upd locals t (readValue n, false))
      | _, _ => None
      end
  | LoadSum t => match aget locals t with Some (c, _) => Some (counts, sum, upd locals t (c, true)) | None => None end
  | StoreSum t => match aget locals t with Some (c, true) => Some (counts, (sum + sumChange c)%Z, locals) | _ => None end
  | WriteCoverage t p =>
      match aget counts p, aget locals t with
      | Some _, Some (c, _) => Some (upd counts p (writtenValue c), sum, locals)
      | _, _ => None
      end
  end.

Definition threadOf (a : access) : nat :=
  match a with ReadCoverage t _ | LoadSum t | StoreSum t | WriteCoverage t _ => t end.
Definition cellOf (a : access) : option nat :=
  match a with ReadCoverage _ p | WriteCoverage _ p => Some p | _ => None end.
Definition independent (a b : access) : Prop :=
  threadOf a <> threadOf b /\ forall p, cellOf a = Some p -> cellOf b <> Some p.

Lemma get_upd_neq {A} (l : list A) i j v : i <> j -> aget (upd l i v) j = aget l j.
Proof. apply nth_error_upd_neq. Qed.

Lemma independent_commute (a b : access) : independent a b -> commute idealStep a b.
Proof.
  intros (Ht & Hp) ((counts, sum), locals).
  destruct a as [t p|t|t|t p], b as [t' p'|t'|t'|t' p']; cbn [threadOf cellOf] in *;
    try (assert (p <> p') by (intros ->; eapply Hp; reflexivity));
    cbn [idealStep];
    try destruct (aget counts p) eqn:E1; try destruct (aget counts p') eqn:E2;
    destruct (aget locals t) as [[c1 l1]|] eqn:E3; destruct (aget locals t') as [[c2 l2]|] eqn:E4;
    try (destruct l1); try (destruct l2); cbn [idealStep];
    rewrite ?get_upd_neq by congruence; rewrite ?E1, ?E2, ?E3, ?E4; try reflexivity;
    rewrite ?get_upd_neq by congruence; rewrite ?E1, ?E2, ?E3, ?E4; try reflexivity;
    try (rewrite (Arr.upd_comm locals t t') by congruence); try (rewrite (Arr.upd_comm counts p p') by congruence);
    try reflexivity; do 2 f_equal; try (f_equal; lia); lia.
Qed.

(** ** Relation between actual and atomic updates *)

Variable initial : Z.
Definition simulates (m : memory) (s : ideal) : Prop :=
  let '(counts, sum, locals) := s in
  mCounts m = counts /\ length (mLocals m) = length locals /\ between initial sum (mSum m) /\
  (if increase then (sum <= initial)%Z else (initial <= sum)%Z) /\
  forall t c l, aget locals t = Some (c, l) ->
  exists tmp, aget (mLocals m) t = Some (c, tmp) /\ (l = true -> c = 0%N -> between initial sum tmp).

Lemma between_step (sum x : Z) (c : N) :
  (if increase then (sum <= initial)%Z else (initial <= sum)%Z) -> between initial sum x ->
  between initial (sum + sumChange c) x /\
  (if increase then (sum + sumChange c <= initial)%Z else (initial <= sum + sumChange c)%Z) /\
  (c = 0%N -> between initial (sum + sumChange c) (if increase then x - 1 else x + 1)%Z).
Proof.
  unfold between, sumChange. intros H B. destruct increase, (N.eqb_spec c 0); repeat split; try lia.
Qed.

Lemma simulation_step (a : access) (m : memory) (s s' : ideal) :
  simulates m s -> idealStep a s = Some s' -> exists m', accessMemory increase a m = Some m' /\ simulates m' s'.
Proof.
  destruct s as ((counts, sum), locals), m as [counts' sum' locals']. unfold simulates. cbn [mCounts mSum mLocals].
  intros (-> & HL & HB & HI & HT) E. destruct a as [t p|t|t|t p]; cbn [idealStep accessMemory mCounts mSum mLocals] in *.
  - destruct (aget counts p) as [n|]; [|discriminate]. destruct (aget locals t) as [[c l]|] eqn:Et; [|discriminate].
    injection E as <-. destruct (HT t c l Et) as (tmp & -> & _).
    assert (t < length locals) by (apply nth_error_Some; unfold aget in Et; congruence).
    rewrite aset_Some by lia. eexists. split; [reflexivity|]. cbn [mCounts mSum mLocals]. rewrite !upd_length.
    repeat split; auto; try apply HB.
    intros t' c' l' E'. destruct (Nat.eq_dec t t') as [<-|D].
    + unfold aget in *. rewrite nth_error_upd_eq in E' by lia. injection E' as <- <-. exists tmp.
      rewrite nth_error_upd_eq by lia. split; [reflexivity|discriminate].
    + rewrite get_upd_neq in E' by auto. rewrite get_upd_neq by auto. apply (HT _ _ _ E').
  - destruct (aget locals t) as [[c l]|] eqn:Et; [|discriminate].
    injection E as <-. destruct (HT t c l Et) as (tmp & -> & _).
    assert (t < length locals) by (apply nth_error_Some; unfold aget in Et; congruence).
    rewrite aset_Some by lia. eexists. split; [reflexivity|]. cbn [mCounts mSum mLocals]. rewrite !upd_length.
    repeat split; auto; try apply HB.
    intros t' c' l' E'. destruct (Nat.eq_dec t t') as [<-|D].
    + unfold aget in *. rewrite nth_error_upd_eq in E' by lia. injection E' as <- <-.
      rewrite nth_error_upd_eq by lia. eexists. split; [reflexivity|]. intros _ ->. exact HB.
    + rewrite get_upd_neq in E' by auto. rewrite get_upd_neq by auto. apply (HT _ _ _ E').
  - destruct (aget locals t) as [[c l]|] eqn:Et; [|discriminate]. destruct l; [|discriminate]. injection E as <-.
    destruct (HT t c true Et) as (tmp & -> & Htmp). eexists. split; [reflexivity|]. cbn [mCounts mSum mLocals].
    pose proof (between_step sum sum' c HI HB) as (B1 & B2 & _).
    split; [reflexivity|]. split; [exact HL|]. split; [|split; [exact B2|]].
    + destruct (N.eqb_spec c 0) as [->|N]; [|exact B1].
      apply (between_step sum tmp 0%N HI (Htmp eq_refl eq_refl)). reflexivity.
    + intros t' c' l' E'. destruct (HT t' c' l' E') as (tmp' & E1 & E2). exists tmp'. split; [exact E1|].
      intros Hl Hc. apply (between_step sum tmp' c HI (E2 Hl Hc)).
  - destruct (aget counts p) as [n|] eqn:Ep; [|discriminate]. destruct (aget locals t) as [[c l]|] eqn:Et; [|discriminate].
    injection E as <-. destruct (HT t c l Et) as (tmp & -> & _).
    assert (p < length counts) by (apply nth_error_Some; unfold aget in Ep; congruence).
    rewrite aset_Some by lia. eexists. split; [reflexivity|]. cbn [mCounts mSum mLocals]. repeat split; auto; apply HB.
Qed.

Lemma simulation (l : list access) : forall m s s',
  simulates m s -> forL l idealStep s = Some s' -> exists m', forL l (accessMemory increase) m = Some m' /\ simulates m' s'.
Proof.
  induction l as [|a l IH]; intros m s s' R E; cbn [forL] in *.
  - injection E as <-. exists m. auto.
  - destruct (idealStep a s) as [s1|] eqn:E1; [|discriminate].
    destruct (simulation_step a m s s1 R E1) as (m1 & -> & R1). eapply IH; eauto.
Qed.
End Ideal.

(** ** Atomic updates, one after the other *)

Definition block (t p : nat) : list access := [ReadCoverage t p; LoadSum t; StoreSum t; WriteCoverage t p].

Lemma ideal_block b t p c locals :
  p < length (cvCounts c) -> t < length locals ->
  exists locals', length locals' = length locals /\
  forL (block t p) (idealStep b) (cvCounts c, cvSum c, locals) = Some (cvCounts (stepT b p c), cvSum (stepT b p c), locals').
Proof.
  intros Hp Ht. destruct (aget_Some (cvCounts c) p Hp) as (n & En). destruct (aget_Some locals t Ht) as ((x & y) & Et).
  assert (G : forall v, aget (upd locals t v) t = Some v) by (intros v; apply nth_error_upd_eq; exact Ht).
  unfold block. cbn [forL idealStep]. rewrite En, Et. cbn [idealStep]. rewrite G. cbn [idealStep].
  rewrite Arr.upd_upd, G. cbn [idealStep]. rewrite En, G.
  eexists. split; [|f_equal; f_equal; f_equal].
  - apply upd_length.
  - destruct b; cbn [stepT]; unfold incT, decT, writtenValue, readValue; cbn [cvCounts];
      rewrite (nth_error_nth _ _ 0%N En); reflexivity.
  - destruct b; cbn [stepT]; unfold incT, decT, sumChange, readValue; cbn [cvSum]; rewrite (nth_error_nth _ _ 0%N En);
      match goal with |- context [(?a =? 0)%N] => destruct (a =? 0)%N end; lia.
Qed.

Lemma stepT_length b p c : length (cvCounts (stepT b p c)) = length (cvCounts c).
Proof. destruct b; cbn [stepT]; unfold incT, decT; cbn [cvCounts]; apply upd_length. Qed.

Lemma ideal_cells b t cells : forall c locals,
  Forall (fun p => p < length (cvCounts c)) cells -> t < length locals ->
  let c' := runT (map (pair b) cells) c in
  exists locals', length locals' = length locals /\
  forL (flat_map (block t) cells) (idealStep b) (cvCounts c, cvSum c, locals) = Some (cvCounts c', cvSum c', locals').
Proof.
  induction cells as [|p cells IH]; intros c locals HF Ht; cbv zeta.
  - exists locals. auto.
  - inversion HF as [|? ? Hp HF']; subst. cbn [flat_map map]. rewrite forL_app.
    destruct (ideal_block b t p c locals Hp Ht) as (l1 & L1 & ->).
    destruct (IH (stepT b p c) l1) as (l2 & L2 & E); [rewrite stepT_length; exact HF'|lia|].
    exists l2. split; [lia|exact E].
Qed.

(** The cells that are updated by an iteration. *)
Definition iterationCells (numCols : nat) (majority : list nat) (h : head) (covers : nat -> bool) (i : nat) : list nat :=
  if covers i then updatedCells numCols majority h i else [].

Lemma iteration_blocks numCols majority h covers t its :
  flat_map (iterationProgram numCols majority h covers t) its
  = flat_map (block t) (flat_map (iterationCells numCols majority h covers) its).
Proof.
  induction its as [|i its IH]; [reflexivity|]. cbn [flat_map]. rewrite flat_map_app, IH. f_equal.
  unfold iterationProgram, iterationCells. destruct (covers i); reflexivity.
Qed.

Lemma runT_length l : forall c, length (cvCounts (runT l c)) = length (cvCounts c).
Proof.
  induction l as [|x l IH]; intros c; [reflexivity|]. cbn [runT fold_left]. fold (runT l (stepT (fst x) (snd x) c)).
  rewrite IH. apply stepT_length.
Qed.

Lemma ideal_threads b numCols majority h covers assignment : forall k c locals,
  let cells := flat_map (iterationCells numCols majority h covers) in
  Forall (fun p => p < length (cvCounts c)) (cells (concat assignment)) -> k + length assignment <= length locals ->
  let c' := runT (map (pair b) (cells (concat assignment))) c in
  exists locals', length locals' = length locals /\
  forL (concat (map (fun '(t, its) => flat_map (iterationProgram numCols majority h covers t) its)
    (combine (seq k (length assignment)) assignment))) (idealStep b) (cvCounts c, cvSum c, locals)
  = Some (cvCounts c', cvSum c', locals').
Proof.
  cbv zeta. induction assignment as [|its assignment IH]; intros k c locals HF HL.
  - exists locals. auto.
  - cbn [length seq combine map concat] in *. rewrite flat_map_app in HF. apply Forall_app in HF. destruct HF as (F1 & F2).
    rewrite forL_app, iteration_blocks.
    destruct (ideal_cells b k _ c locals F1) as (l1 & L1 & ->); [lia|].
    set (c1 := runT _ c) in *.
    destruct (IH (S k) c1 l1) as (l2 & L2 & E); [unfold c1; rewrite runT_length; exact F2|lia|].
    exists l2. split; [lia|]. rewrite E. rewrite flat_map_app, map_app, runT_app. reflexivity.
Qed.

(** ** Cells *)

Lemma updated_cells numCols majority h e : updatedCells numCols majority h e = changedCells numCols majority (e, h).
Proof.
  assert (G : forall indices scores, flat_map (fun '(index, predicted) =>
    if negb (eqb predicted (existsb (Nat.eqb index) majority)) then [e * numCols + index] else []) (combine indices scores)
    = partialCells (e * numCols) majority indices scores).
  { induction indices as [|i indices IH]; intros [|s scores]; try reflexivity. cbn [combine flat_map partialCells].
    rewrite IH. reflexivity. }
  unfold updatedCells, changedCells. cbn [fst snd]. destruct h; apply G.
Qed.

Lemma iteration_cells_row numRows numCols majority h covers i p :
  valid_head numCols h -> i < numRows -> In p (iterationCells numCols majority h covers i) ->
  p < numRows * numCols /\ exists l, l < numCols /\ p = i * numCols + l.
Proof.
  unfold iterationCells. destruct (covers i); [|contradiction]. rewrite updated_cells. intros HV Hi Hp. split.
  - apply (changedCells_range numRows numCols majority (i, h) p); [split; assumption|exact Hp].
  - unfold changedCells in Hp. cbn [fst snd] in Hp. apply partialCells_In in Hp. destruct Hp as (l & -> & Hl). exists l.
    split; [|reflexivity]. destruct h as [scores|indices scores]; cbn in HV.
    + apply in_seq in Hl. lia.
    + destruct HV as (_ & _ & HF). rewrite Forall_forall in HF. auto.
Qed.

Lemma runT_permutation n b l l' : Permutation l l' -> forall c, good n c -> Forall (fun p => p < n) l ->
  runT (map (pair b) l) c = runT (map (pair b) l') c.
Proof.
  induction 1 as [|x l l' HP IH|x y l|l l1 l2 HP1 IH1 HP2 IH2]; intros c HG HF.
  - reflexivity.
  - inversion HF; subst. cbn [map]. apply IH; [|assumption]. apply step_good. exact HG.
  - inversion HF as [|? ? H1 HF1]; subst. inversion HF1; subst. cbn [map]. unfold runT. cbn [fold_left fst snd]. f_equal.
    apply (step_comm n); auto.
  - rewrite IH1 by assumption. apply IH2; [exact HG|]. rewrite Forall_forall in *. intros p Hp. apply HF.
    eapply Permutation_in; [symmetry; exact HP1|exact Hp].
Qed.

Lemma sequential_cells (b : bool) numRows numCols majority h (covers : nat -> bool) n : StronglySorted lt majority -> valid_head numCols h ->
  forall i c, good (numRows * numCols) c -> i + n <= numRows ->
  forN n i (fun i c => if covers i then (if b then applyPrediction else revertPrediction) numCols i majority h c
    else Some c) c
  = Some (runT (map (pair b) (flat_map (iterationCells numCols majority h covers) (seq i n))) c).
Proof.
  intros HM HV. induction n as [|n IH]; intros i c HG Hn; [reflexivity|].
  cbn [forN seq flat_map]. rewrite map_app, runT_app.
  assert (E : (if covers i then (if b then applyPrediction else revertPrediction) numCols i majority h c else Some c)
    = Some (runT (map (pair b) (iterationCells numCols majority h covers i)) c)).
  { assert (Hi : i < numRows) by lia. pose proof (fun p : nat => iteration_cells_row numRows numCols majority h covers i p HV Hi) as B.
    unfold iterationCells in *. destruct (covers i); [|reflexivity].
    rewrite <- (forL_stepT (numRows * numCols)); [|exact HG|apply Forall_forall; intros p Hp; apply B; exact Hp].
    rewrite updated_cells. destruct b; unfold applyPrediction, revertPrediction; rewrite change_cells by assumption; reflexivity. }
  rewrite E. apply IH; [|lia]. apply runT_good. exact HG.
Qed.

Lemma In_programs numCols majority h covers assignment a : forall k program,
  In program (map (fun '(t, its) => flat_map (iterationProgram numCols majority h covers t) its)
    (combine (seq k (length assignment)) assignment)) -> In a program ->
  exists j its, nth_error assignment j = Some its /\ threadOf a = k + j /\
  forall p, cellOf a = Some p -> In p (flat_map (iterationCells numCols majority h covers) its).
Proof.
  induction assignment as [|its assignment IH]; intros k program HP Ha; cbn [length seq combine map] in HP; [contradiction|].
  destruct HP as [<-|HP].
  - exists 0, its. split; [reflexivity|]. rewrite iteration_blocks in Ha. apply in_flat_map in Ha.
    destruct Ha as (p & Hp & Ha). cbn in Ha. destruct Ha as [<-|[<-|[<-|[<-|[]]]]]; cbn [threadOf cellOf]; (split; [lia|]);
      intros q E; inversion E; subst; exact Hp.
  - destruct (IH (S k) program HP Ha) as (j & its' & E1 & E2 & E3). exists (S j), its'. split; [exact E1|]. split; [lia|exact E3].
Qed.

(** Programs in front of another one belong to different threads. *)
Lemma programs_split numCols majority h covers assignment a b : forall k ps1 program ps2,
  map (fun '(t, its) => flat_map (iterationProgram numCols majority h covers t) its)
    (combine (seq k (length assignment)) assignment) = ps1 ++ program :: ps2 -> In a program -> In b (concat ps1) ->
  exists i j its its', i < j /\ nth_error assignment i = Some its /\ nth_error assignment j = Some its' /\
  threadOf b = k + i /\ threadOf a = k + j /\
  (forall p, cellOf b = Some p -> In p (flat_map (iterationCells numCols majority h covers) its)) /\
  (forall p, cellOf a = Some p -> In p (flat_map (iterationCells numCols majority h covers) its')).
Proof.
  induction assignment as [|its assignment IH]; intros k ps1 program ps2 E Ha Hb; cbn [length seq combine map] in E.
  - destruct ps1; discriminate.
  - destruct ps1 as [|q ps1]; [contradiction|]. cbn [app concat] in *. injection E as <- E. apply in_app_or in Hb.
    destruct Hb as [Hb|Hb].
    + destruct (In_programs numCols majority h covers [its] b k _ (or_introl eq_refl) Hb) as (i & its1 & E1 & E2 & E3).
      destruct i as [|i]; [|destruct i; discriminate]. injection E1 as <-.
      destruct (In_programs numCols majority h covers assignment a (S k) program) as (j & its2 & E4 & E5 & E6);
        [rewrite E; apply in_or_app; right; left; reflexivity|exact Ha|].
      exists 0, (S j), its, its2. repeat split; auto; lia.
    + destruct (IH (S k) ps1 program ps2 E Ha Hb) as (i & j & its1 & its2 & Hlt & E1 & E2 & E3 & E4 & E5 & E6).
      exists (S i), (S j), its1, its2. repeat split; auto; lia.
Qed.

Lemma concat_disjoint {A} (assignment : list (list A)) : forall i j its its' x,
  NoDup (concat assignment) -> i < j -> nth_error assignment i = Some its -> nth_error assignment j = Some its' ->
  In x its -> In x its' -> False.
Proof.
  induction assignment as [|l assignment IH]; intros i j its its' x HN Hlt E1 E2 H1 H2; [destruct i; discriminate|].
  cbn [concat] in HN. destruct j as [|j]; [lia|]. destruct i as [|i].
  - injection E1 as ->. cbn in E2. assert (In x (concat assignment)).
    { apply in_concat. exists its'. split; [eapply nth_error_In; exact E2|exact H2]. }
    revert H1 H HN. clear. induction its as [|y its IH]; intros H1 H2 HN; [contradiction|]. cbn in HN. inversion HN; subst.
    destruct H1 as [->|H1]; [apply H3; apply in_or_app; auto|auto].
  - apply (IH i j its its' x); auto; [|lia]. clear - HN. induction l; [exact HN|]. inversion HN; auto.
Qed.

Lemma update_parallel :
  forall increase numRows numCols majority h covers counts sum assignment interleaved junk,
  StronglySorted lt majority -> valid_head numCols h -> length counts = numRows * numCols -> valid_counts counts ->
  assigned numRows assignment -> length junk = length assignment ->
  interleaving (updatePrograms numCols majority h covers assignment) interleaved ->
  exists c m,
  updateSequentially increase numRows numCols majority h covers (mkCoverage counts sum) = Some c /\
  forL interleaved (accessMemory increase) (initialMemory (mkCoverage counts sum) junk) = Some m /\
  mCounts m = cvCounts c /\ between sum (cvSum c) (mSum m) /\
  (if increase then (cvSum c <= sum)%Z else (sum <= cvSum c)%Z).
Proof.
  intros b numRows numCols majority h covers counts sum assignment il junk HM HV HC HG HA HJ HI.
  set (c0 := mkCoverage counts sum). assert (G0 : good (numRows * numCols) c0) by (split; assumption).
  set (cells := flat_map (iterationCells numCols majority h covers)).
  exists (runT (map (pair b) (cells (seq 0 numRows))) c0).
  unfold updateSequentially. rewrite (sequential_cells b numRows) by (auto; lia). fold cells.
  assert (HR : forall i, In i (concat assignment) -> i < numRows).
  { intros i Hi. apply (Permutation_in _ (Permutation_sym HA)) in Hi. apply in_seq in Hi. lia. }
  assert (HN : NoDup (concat assignment)) by (eapply Permutation_NoDup; [exact HA|apply seq_NoDup]).
  assert (HF : Forall (fun p => p < numRows * numCols) (cells (seq 0 numRows))).
  { apply Forall_forall. intros p Hp. apply in_flat_map in Hp. destruct Hp as (i & Hi & Hp). apply in_seq in Hi.
    apply (iteration_cells_row numRows numCols majority h covers i p HV); [lia|exact Hp]. }
  assert (HP : Permutation (cells (seq 0 numRows)) (cells (concat assignment))) by (apply Permutation_flat_map; exact HA).
  rewrite (runT_permutation (numRows * numCols) b _ _ HP c0 G0 HF).
  set (locals := map (fun x : N * Z => (fst x, false)) junk).
  destruct (ideal_threads b numCols majority h covers assignment 0 c0 locals) as (locals' & L & E).
  { unfold c0. cbn [cvCounts]. rewrite HC. fold cells. rewrite Forall_forall in *. intros p Hp. apply HF.
    eapply Permutation_in; [symmetry; exact HP|exact Hp]. }
  { unfold locals. rewrite map_length. lia. }
  fold cells in E. set (c := runT _ c0) in *.
  rewrite <- (interleaving_run (idealStep b) _ _ HI) in E.
  - assert (S0 : simulates b sum (initialMemory c0 junk) (cvCounts c0, cvSum c0, locals)).
    { unfold simulates, initialMemory, c0. cbn [mCounts mSum mLocals cvCounts cvSum]. split; [reflexivity|].
      split; [unfold locals; now rewrite map_length|]. split; [unfold between; lia|]. split; [destruct b; lia|].
      intros t x l Hl. unfold locals, aget in *. rewrite nth_error_map in Hl. destruct (nth_error junk t) as [[y z]|]; [|discriminate].
      injection Hl as <- <-. exists z. split; [reflexivity|discriminate]. }
    destruct (simulation b sum il _ _ _ S0 E) as (m & Em & R).
    exists m. split; [reflexivity|]. split; [exact Em|]. cbn [simulates] in R. destruct R as (R1 & _ & R3 & R4 & _).
    split; [exact R1|]. split; [exact R3|exact R4].
  - intros ps1 p ps2 x y Eps Hx Hy. apply independent_commute. unfold updatePrograms in Eps.
    destruct (programs_split _ _ _ _ _ _ _ _ _ _ _ Eps Hx Hy) as (i & j & its & its' & Hlt & E1 & E2 & E3 & E4 & E5 & E6).
    split; [lia|]. intros q Hq Hq'. specialize (E5 q Hq). specialize (E6 q Hq').
    apply in_flat_map in E5, E6. destruct E5 as (e & He & Hqe), E6 as (e' & He' & Hqe').
    assert (B1 : e < numRows) by (apply HR; apply in_concat; exists its; split; [eapply nth_error_In; exact E1|exact He]).
    assert (B2 : e' < numRows) by (apply HR; apply in_concat; exists its'; split; [eapply nth_error_In; exact E2|exact He']).
    destruct (iteration_cells_row numRows numCols majority h covers e q HV B1 Hqe) as (_ & l & Hl & El).
    destruct (iteration_cells_row numRows numCols majority h covers e' q HV B2 Hqe') as (_ & l' & Hl' & El').
    assert (e = e') by nia. subst e'. exact (concat_disjoint assignment i j its its' e HN Hlt E1 E2 He He').
Qed.

(** ** A single thread *)

Lemma interleaving_single {A} (l : list A) : forall p, interleaving [p] l -> l = p.
Proof.
  induction l as [|x l IH]; intros p H; inversion H as [ps HF|ps1 a q ps2 l' H' E1 E2]; subst.
  - inversion HF; subst. reflexivity.
  - destruct ps1 as [|? [|]]; try discriminate. cbn in *. injection E1 as <- ->. f_equal. apply IH. exact H'.
Qed.

Lemma memory_block b t p c locals :
  p < length (cvCounts c) -> t < length locals ->
  exists locals', length locals' = length locals /\ (forall t', t' <> t -> aget locals' t' = aget locals t') /\
  forL (block t p) (accessMemory b) (mkMemory (cvCounts c) (cvSum c) locals)
  = Some (mkMemory (cvCounts (stepT b p c)) (cvSum (stepT b p c)) locals').
Proof.
  intros Hp Ht. destruct (aget_Some (cvCounts c) p Hp) as (n & En). destruct (aget_Some locals t Ht) as ((x & y) & Et).
  assert (G : forall v, aget (upd locals t v) t = Some v) by (intros v; apply nth_error_upd_eq; exact Ht).
  unfold block. cbn [forL accessMemory mCounts mSum mLocals]. rewrite En, Et, aset_Some by lia. cbn [accessMemory mCounts mSum mLocals].
  rewrite G, aset_Some by (rewrite upd_length; lia). cbn [accessMemory mCounts mSum mLocals].
  rewrite Arr.upd_upd, G. cbn [accessMemory mCounts mSum mLocals]. rewrite G, aset_Some by lia.
  eexists. split; [|split; [|f_equal; f_equal]].
  - apply upd_length.
  - intros t' D. apply get_upd_neq. congruence.
  - destruct b; cbn [stepT]; unfold incT, decT; cbn [cvCounts]; rewrite (nth_error_nth _ _ 0%N En); reflexivity.
  - destruct b; cbn [stepT]; unfold incT, decT; cbn [cvSum]; rewrite (nth_error_nth _ _ 0%N En);
      match goal with |- context [(?a =? 0)%N] => destruct (a =? 0)%N end; reflexivity.
Qed.

Lemma memory_cells b t cells : forall c locals,
  Forall (fun p => p < length (cvCounts c)) cells -> t < length locals ->
  let c' := runT (map (pair b) cells) c in
  exists locals', length locals' = length locals /\ (forall t', t' <> t -> aget locals' t' = aget locals t') /\
  forL (flat_map (block t) cells) (accessMemory b) (mkMemory (cvCounts c) (cvSum c) locals)
  = Some (mkMemory (cvCounts c') (cvSum c') locals').
Proof.
  induction cells as [|p cells IH]; intros c locals HF Ht; cbv zeta.
  - exists locals. auto.
  - inversion HF as [|? ? Hp HF']; subst. cbn [flat_map map]. rewrite forL_app.
    destruct (memory_block b t p c locals Hp Ht) as (l1 & L1 & K1 & ->).
    destruct (IH (stepT b p c) l1) as (l2 & L2 & K2 & E); [rewrite stepT_length; exact HF'|lia|].
    exists l2. split; [lia|]. split; [|exact E]. intros t' D. rewrite K2 by exact D. apply K1. exact D.
Qed.

Lemma update_single_thread :
  forall increase numRows numCols majority h covers counts sum iterations interleaved junk,
  StronglySorted lt majority -> valid_head numCols h -> length counts = numRows * numCols -> valid_counts counts ->
  assigned numRows [iterations] -> length junk = 1 ->
  interleaving (updatePrograms numCols majority h covers [iterations]) interleaved ->
  exists c m,
  updateSequentially increase numRows numCols majority h covers (mkCoverage counts sum) = Some c /\
  forL interleaved (accessMemory increase) (initialMemory (mkCoverage counts sum) junk) = Some m /\
  mCounts m = cvCounts c /\ mSum m = cvSum c.
Proof.
  intros b numRows numCols majority h covers counts sum its il junk HM HV HC HG HA HJ HI.
  set (c0 := mkCoverage counts sum). assert (G0 : good (numRows * numCols) c0) by (split; assumption).
  set (cells := flat_map (iterationCells numCols majority h covers)).
  exists (runT (map (pair b) (cells (seq 0 numRows))) c0).
  unfold updateSequentially. rewrite (sequential_cells b numRows) by (auto; lia). fold cells.
  unfold assigned in HA. cbn [concat] in HA. rewrite app_nil_r in HA.
  assert (HF : Forall (fun p => p < numRows * numCols) (cells (seq 0 numRows))).
  { apply Forall_forall. intros p Hp. apply in_flat_map in Hp. destruct Hp as (i & Hi & Hp). apply in_seq in Hi.
    apply (iteration_cells_row numRows numCols majority h covers i p HV); [lia|exact Hp]. }
  assert (HP : Permutation (cells (seq 0 numRows)) (cells its)) by (apply Permutation_flat_map; exact HA).
  rewrite (runT_permutation (numRows * numCols) b _ _ HP c0 G0 HF).
  unfold updatePrograms in HI. cbn [length seq combine map] in HI. apply interleaving_single in HI. subst il.
  rewrite iteration_blocks. fold cells.
  destruct (memory_cells b 0 (cells its) c0 junk) as (l & _ & _ & E).
  - unfold c0. cbn [cvCounts]. rewrite HC. rewrite Forall_forall in *. intros p Hp. apply HF.
    eapply Permutation_in; [symmetry; exact HP|exact Hp].
  - lia.
  - eexists. split; [reflexivity|]. split; [exact E|]. split; reflexivity.
Qed.

(** ** Lost updates *)

Lemma updates_lost :
  exists numRows numCols majority h covers counts sum assignment interleaved junk c m,
  StronglySorted lt majority /\ valid_head numCols h /\ length counts = numRows * numCols /\ valid_counts counts /\
  assigned numRows assignment /\ length junk = length assignment /\
  interleaving (updatePrograms numCols majority h covers assignment) interleaved /\
  updateSequentially true numRows numCols majority h covers (mkCoverage counts sum) = Some c /\
  forL interleaved (accessMemory true) (initialMemory (mkCoverage counts sum) junk) = Some m /\
  mCounts m = cvCounts c /\ coverageStops 0 c = true /\ coverageStops 0 (mkCoverage (mCounts m) (mSum m)) = false.
Proof.
  exists 2, 1, [], (CompleteHead [true]), (fun _ => true), [0; 0]%N, 2%Z, [[0]; [1]],
    [ReadCoverage 0 0; LoadSum 0; ReadCoverage 1 1; LoadSum 1; StoreSum 0; StoreSum 1; WriteCoverage 0 0; WriteCoverage 1 1],
    [(0%N, 0%Z); (0%N, 0%Z)].
  do 2 eexists. split; [constructor|]. split; [reflexivity|]. split; [reflexivity|].
  split; [repeat apply Forall_cons; try apply Forall_nil; reflexivity|].
  split; [apply Permutation_refl|]. split; [reflexivity|]. split.
  - set (ps := updatePrograms _ _ _ _ _). vm_compute in ps. subst ps.
    apply (il_step [] _ _ [_]); apply (il_step [] _ _ [_]); cbn [app].
    apply (il_step [_] _ _ []); apply (il_step [_] _ _ []); cbn [app].
    apply (il_step [] _ _ [_]); cbn [app]. apply (il_step [_] _ _ []); cbn [app].
    apply (il_step [] _ _ [_]); cbn [app]. apply (il_step [_] _ _ []); cbn [app].
    apply il_done. repeat apply Forall_cons; try apply Forall_nil; reflexivity.
  - split; [reflexivity|]. split; [reflexivity|]. repeat split.
Qed.

(** ** Updates that may always be lost *)

Definition isZero (counts : list N) (p : nat) : bool := (nth p counts 0 =? 0)%N.

Lemma runT_other b ps q : ~ In q ps -> forall c, nth q (cvCounts (runT (map (pair b) ps) c)) 0%N = nth q (cvCounts c) 0%N.
Proof.
  induction ps as [|p ps IH]; intros Hq c; [reflexivity|]. cbn [map]. unfold runT. cbn [fold_left fst snd].
  fold (runT (map (pair b) ps) (stepT b p c)). rewrite IH by (intros H; apply Hq; right; exact H).
  assert (p <> q) by (intros ->; apply Hq; left; reflexivity).
  destruct b; cbn [stepT]; unfold incT, decT; cbn [cvCounts]; apply nth_upd_neq; assumption.
Qed.

Lemma count_same {A} (f g : A -> bool) l : (forall x, In x l -> f x = g x) -> count f l = count g l.
Proof. intros H. unfold count. f_equal. apply filter_ext_in. exact H. Qed.

Lemma runT_sum ps : NoDup ps -> forall c,
  cvSum (runT (map (pair true) ps) c) = (cvSum c - Z.of_nat (count (isZero (cvCounts c)) ps))%Z.
Proof.
  induction ps as [|p ps IH]; intros HN c; [unfold count; cbn; lia|]. inversion HN as [|? ? Hp HN']; subst.
  cbn [map]. unfold runT. cbn [fold_left fst snd]. fold (runT (map (pair true) ps) (stepT true p c)). rewrite IH by exact HN'.
  cbn [stepT]. rewrite (count_same _ (isZero (cvCounts c))).
  - unfold incT. cbn [cvSum]. unfold count. cbn [filter]. unfold isZero at 2. destruct (nth p (cvCounts c) 0 =? 0)%N; cbn [length]; lia.
  - intros q Hq. unfold isZero, incT. cbn [cvCounts]. rewrite nth_upd_neq; [reflexivity|]. intros ->. contradiction.
Qed.

Lemma NoDup_flat_map {A B} (f : A -> list B) l :
  NoDup l -> (forall x, In x l -> NoDup (f x)) -> (forall x y z, In x l -> In y l -> In z (f x) -> In z (f y) -> x = y) ->
  NoDup (flat_map f l).
Proof.
  induction l as [|x l IH]; intros HN H1 H2; [constructor|]. inversion HN as [|? ? Hx HN']; subst. cbn [flat_map].
  assert (HI : NoDup (flat_map f l)) by (apply IH; [exact HN'|intros; apply H1; right; assumption|intros; eapply H2; try (right; eassumption); eassumption]).
  assert (HD : forall z, In z (f x) -> ~ In z (flat_map f l)).
  { intros z Hz H. apply in_flat_map in H. destruct H as (y & Hy & Hzy). apply Hx.
    rewrite (H2 x y z); auto; [left; reflexivity|right; exact Hy]. }
  specialize (H1 x (or_introl eq_refl)). revert H1 HD. generalize (f x). clear - HI.
  induction l0 as [|z l0 IH]; intros H1 HD; [exact HI|]. inversion H1; subst. cbn [app]. constructor.
  - intros H. apply in_app_or in H. destruct H as [H|H]; [contradiction|]. apply (HD z); [left; reflexivity|exact H].
  - apply IH; [assumption|]. intros w Hw. apply HD. right. exact Hw.
Qed.

Lemma partialCells_NoDup offset majority indices : forall scores, StronglySorted lt indices ->
  NoDup (partialCells offset majority indices scores).
Proof.
  induction indices as [|i indices IH]; intros [|s scores] HS; try constructor. inversion HS as [|? ? HS' HF]; subst.
  cbn [partialCells]. destruct (negb _); [|apply IH; exact HS']. cbn [app]. constructor; [|apply IH; exact HS'].
  intros H. apply partialCells_In in H. destruct H as (l & E & Hl). rewrite Forall_forall in HF. apply HF in Hl. lia.
Qed.

Lemma seq_sorted n : forall i, StronglySorted lt (seq i n).
Proof.
  induction n as [|n IH]; intros i; [constructor|]. cbn [seq]. constructor; [apply IH|]. apply Forall_forall. intros x Hx.
  apply in_seq in Hx. lia.
Qed.

Lemma cells_NoDup numRows numCols majority h covers its :
  valid_head numCols h -> NoDup its -> (forall i, In i its -> i < numRows) ->
  NoDup (flat_map (iterationCells numCols majority h covers) its).
Proof.
  intros HV HN HR. apply NoDup_flat_map; [exact HN| |].
  - intros i _. unfold iterationCells. destruct (covers i); [|constructor]. rewrite updated_cells. unfold changedCells.
    cbn [fst snd]. apply partialCells_NoDup. destruct h as [scores|indices scores]; [apply seq_sorted|]. cbn in HV. tauto.
  - intros x y p Hx Hy Hp Hp'.
    destruct (iteration_cells_row numRows numCols majority h covers x p HV (HR x Hx) Hp) as (_ & l & Hl & E).
    destruct (iteration_cells_row numRows numCols majority h covers y p HV (HR y Hy) Hp') as (_ & l' & Hl' & E').
    nia.
Qed.

Lemma newly_cell numRows numCols majority h covers counts its :
  valid_head numCols h -> (forall i, In i its -> i < numRows) -> newlyCovered numCols majority h (covers : nat -> bool) counts its ->
  exists p, In p (flat_map (iterationCells numCols majority h covers) its) /\ isZero counts p = true.
Proof.
  intros HV HR (e & l & He & Hc & Hl & HC & HZ). exists (e * numCols + l). split.
  - apply in_flat_map. exists e. split; [exact He|]. unfold iterationCells. rewrite Hc, updated_cells.
    assert (O : occ (e * numCols + l) (changedCells numCols majority (e, h)) = 1).
    { rewrite (occ_covers numRows) by (auto; split; cbn [fst snd]; auto). now rewrite HC. }
    destruct (in_dec Nat.eq_dec (e * numCols + l) (changedCells numCols majority (e, h))) as [H|H]; [exact H|].
    rewrite occ_notin in O by exact H. discriminate.
  - unfold isZero. now rewrite HZ.
Qed.

Lemma interleaving_insert {A} (a1 a2 b : list A) : interleaving [a1 ++ a2; b] (a1 ++ b ++ a2).
Proof.
  induction a1 as [|x a1 IH]; cbn [app].
  - induction b as [|y b IH]; cbn [app].
    + induction a2 as [|x a2 IH]; [apply il_done; repeat constructor|]. apply (il_step [] x a2 [[]]). exact IH.
    + apply (il_step [a2] y b []). exact IH.
  - apply (il_step [] x (a1 ++ a2) [b]). exact IH.
Qed.

Lemma count_split {A} (f : A -> bool) a b : count f (a ++ b) = count f a + count f b.
Proof. unfold count. rewrite filter_app, app_length. reflexivity. Qed.

Lemma updates_may_be_lost :
  forall numRows numCols majority h covers counts sum first second junk,
  StronglySorted lt majority -> valid_head numCols h -> length counts = numRows * numCols -> valid_counts counts ->
  assigned numRows [first; second] -> length junk = 2 ->
  newlyCovered numCols majority h covers counts first -> newlyCovered numCols majority h covers counts second ->
  exists interleaved c m,
  interleaving (updatePrograms numCols majority h covers [first; second]) interleaved /\
  updateSequentially true numRows numCols majority h covers (mkCoverage counts sum) = Some c /\
  forL interleaved (accessMemory true) (initialMemory (mkCoverage counts sum) junk) = Some m /\
  mCounts m = cvCounts c /\ (cvSum c < mSum m)%Z.
Proof.
  intros numRows numCols majority h covers counts sum first second junk HM HV HC HG HA HJ N1 N2.
  assert (HR : forall i, In i (concat [first; second]) -> i < numRows).
  { intros i Hi. apply (Permutation_in _ (Permutation_sym HA)) in Hi. apply in_seq in Hi. lia. }
  assert (HN : NoDup (concat [first; second])) by (eapply Permutation_NoDup; [exact HA|apply seq_NoDup]).
  cbn [concat] in HR, HN. rewrite app_nil_r in HR, HN.
  destruct (newly_cell numRows numCols majority h covers counts first HV) with (2 := N1) as (p & Hp & Zp);
    [intros i Hi; apply HR; apply in_or_app; auto|].
  destruct (newly_cell numRows numCols majority h covers counts second HV) with (2 := N2) as (q & Hq & Zq);
    [intros i Hi; apply HR; apply in_or_app; auto|].
  set (cells := flat_map (iterationCells numCols majority h covers)) in *.
  assert (ND : NoDup (cells (first ++ second))) by (apply (cells_NoDup numRows); auto).
  assert (RG : Forall (fun p => p < numRows * numCols) (cells (first ++ second))).
  { apply Forall_forall. intros x Hx. apply in_flat_map in Hx. destruct Hx as (i & Hi & Hx).
    apply (iteration_cells_row numRows numCols majority h covers i x HV); [apply HR; exact Hi|exact Hx]. }
  unfold cells in ND, RG. rewrite flat_map_app in ND, RG. fold (cells first) (cells second) in ND, RG.
  apply in_split in Hp. destruct Hp as (pre & rest & Ep).
  set (a1 := flat_map (block 0) pre ++ [ReadCoverage 0 p; LoadSum 0]).
  set (a2 := [StoreSum 0; WriteCoverage 0 p] ++ flat_map (block 0) rest).
  set (b := flat_map (block 1) (cells second)).
  assert (HI : interleaving (updatePrograms numCols majority h covers [first; second]) (a1 ++ b ++ a2)).
  { unfold updatePrograms. cbn [length seq combine map]. rewrite !iteration_blocks. fold cells. rewrite Ep.
    replace (flat_map (block 0) (pre ++ p :: rest)) with (a1 ++ a2)
      by (unfold a1, a2; rewrite flat_map_app; cbn [flat_map block]; rewrite <- app_assoc; reflexivity).
    apply interleaving_insert. }
  destruct (update_parallel true numRows numCols majority h covers counts sum [first; second] (a1 ++ b ++ a2) junk HM HV HC HG HA HJ HI)
    as (c & m & Ec & Em & Ecm & _).
  exists (a1 ++ b ++ a2), c, m. split; [exact HI|]. split; [exact Ec|]. split; [exact Em|]. split; [exact Ecm|].
  (* the sequential update *)
  unfold updateSequentially in Ec. rewrite (sequential_cells true numRows) in Ec; [|auto..|split; auto|lia]. fold cells in Ec.
  injection Ec as <-.
  assert (HP : Permutation (cells (seq 0 numRows)) (cells first ++ cells second)).
  { unfold cells. rewrite <- flat_map_app. apply Permutation_flat_map. unfold assigned in HA. cbn [concat] in HA.
    now rewrite app_nil_r in HA. }
  set (c0 := mkCoverage counts sum) in *. assert (G0 : good (numRows * numCols) c0) by (split; assumption).
  assert (RG' : Forall (fun p => p < numRows * numCols) (cells (seq 0 numRows))).
  { rewrite Forall_forall in *. intros x Hx. apply RG. eapply Permutation_in; [exact HP|exact Hx]. }
  rewrite (runT_permutation (numRows * numCols) true _ _ HP c0 G0 RG') in Ecm |- *.
  rewrite runT_sum by exact ND. rewrite Ep in *. clear HP RG' Ecm.
  (* the parallel update *)
  assert (ND' := ND). rewrite <- app_assoc in ND'. cbn [app] in ND'. rewrite <- app_assoc in RG. cbn [app] in RG.
  apply Forall_app in RG. destruct RG as (R1 & RG). inversion RG as [|? ? Rp RG1]; subst. apply Forall_app in RG1. destruct RG1 as (R2 & R3).
  assert (D0 : ~ In p (pre ++ rest ++ cells second)) by (apply NoDup_remove_2 in ND'; exact ND').
  unfold a1, a2, b, initialMemory in Em. rewrite <- app_assoc in Em. rewrite forL_app in Em.
  destruct (memory_cells true 0 pre c0 junk) as (l1 & L1 & K1 & E1); [unfold c0; cbn [cvCounts]; rewrite HC; exact R1|lia|].
  rewrite E1 in Em. clear E1. set (c1 := runT (map (pair true) pre) c0) in *.
  assert (C1 : nth p (cvCounts c1) 0%N = 0%N).
  { unfold c1. rewrite runT_other by (intros H; apply D0; apply in_or_app; auto). unfold isZero in Zp. cbn [c0 cvCounts].
    apply N.eqb_eq. exact Zp. }
  assert (LC1 : length (cvCounts c1) = numRows * numCols) by (unfold c1; rewrite runT_length; exact HC).
  assert (EP1 : aget (cvCounts c1) p = Some 0%N) by (rewrite <- C1; apply nth_error_nth'; lia).
  destruct (aget_Some l1 0 ltac:(lia)) as ((x & y) & El1).
  cbn [app forL accessMemory mCounts mSum mLocals] in Em. rewrite EP1, El1, aset_Some in Em by lia.
  assert (GT : forall v, aget (upd l1 0 v) 0 = Some v) by (intros v; apply nth_error_upd_eq; lia).
  cbn [accessMemory mCounts mSum mLocals] in Em. rewrite GT, aset_Some in Em by (rewrite upd_length; lia).
  rewrite Arr.upd_upd in Em. change ((0 =? 0)%N) with true in Em. cbv iota in Em. rewrite forL_app in Em.
  destruct (memory_cells true 1 (cells second) c1 (upd l1 0 (0%N, cvSum c1))) as (l2 & L2 & K2 & E2);
    [rewrite LC1; exact R3|rewrite upd_length; lia|].
  rewrite E2 in Em. clear E2. set (c2 := runT (map (pair true) (cells second)) c1) in *.
  assert (LC2 : length (cvCounts c2) = numRows * numCols) by (unfold c2; rewrite runT_length; exact LC1).
  cbn [app forL accessMemory mCounts mSum mLocals] in Em. rewrite K2, GT in Em by discriminate.
  cbn [accessMemory mCounts mSum mLocals] in Em. rewrite K2, GT, aset_Some in Em by (discriminate || lia).
  change ((0 =? 0)%N) with true in Em. cbv iota in Em.
  set (c3 := mkCoverage (upd (cvCounts c2) p ((0 + 1) mod 2 ^ 32)%N) (cvSum c1 - 1)) in *.
  destruct (memory_cells true 0 rest c3 l2) as (l3 & L3 & K3 & E3);
    [unfold c3; cbn [cvCounts]; rewrite upd_length, LC2; exact R2|rewrite L2, upd_length; lia|].
  change (cvSum c1 - 1)%Z with (cvSum c3) in Em. change (upd (cvCounts c2) p ((0 + 1) mod 2 ^ 32)%N) with (cvCounts c3) in Em.
  rewrite E3 in Em. injection Em as <-. cbn [mSum].
  assert (NDr : NoDup (rest ++ cells second)).
  { apply NoDup_remove_1 in ND'. clear - ND'. induction pre as [|z pre IH]; [exact ND'|]. inversion ND'; auto. }
  assert (NDr1 : NoDup rest) by (clear - NDr; induction rest as [|z r IH]; [constructor|]; inversion NDr; subst; constructor;
    [intros H; apply H1; apply in_or_app; auto|auto]).
  assert (NDp : NoDup pre) by (clear - ND'; induction pre as [|z r IH]; [constructor|]; inversion ND'; subst; constructor;
    [intros H; apply H1; apply in_or_app; auto|auto]).
  rewrite runT_sum by exact NDr1. unfold c3 at 1. cbn [cvSum]. unfold c1 at 1. rewrite runT_sum by exact NDp.
  rewrite (count_same (isZero (cvCounts c3)) (isZero counts) rest).
  - cbn [c0 cvCounts cvSum]. rewrite !count_split. cbn [count filter]. change (count (isZero counts) (p :: rest)) with
      (length (filter (isZero counts) (p :: rest))). cbn [filter]. rewrite Zp. cbn [length].
    change (length (filter (isZero counts) rest)) with (count (isZero counts) rest).
    assert (0 < count (isZero counts) (cells second)).
    { unfold count. destruct (filter (isZero counts) (cells second)) as [|z l] eqn:EF; [|cbn; lia]. exfalso.
      assert (HF : In q (filter (isZero counts) (cells second))) by (apply filter_In; auto). rewrite EF in HF. contradiction. }
    lia.
  - intros z Hz. unfold isZero, c3. cbn [cvCounts].
    assert (p <> z) by (intros ->; apply D0; apply in_or_app; right; apply in_or_app; auto).
    rewrite nth_upd_neq by assumption. unfold c2. rewrite runT_other.
    + unfold c1. rewrite runT_other; [reflexivity|]. intros Hz'.
      clear - ND' Hz Hz'. induction pre as [|w pre IH]; [contradiction|]. cbn in ND'. inversion ND'; subst.
      destruct Hz' as [->|Hz']; [|auto]. apply H1. apply in_or_app. right. right. apply in_or_app. auto.
    + intros Hz'. clear - NDr Hz Hz'. induction rest as [|w rest IH]; [contradiction|]. inversion NDr; subst.
      destruct Hz as [->|Hz]; [|auto]. apply H1. apply in_or_app. auto.
Qed.

(** ** Boosting *)

Section Boosting.
Context {Row : Type}.
Variable changeScore : nat -> Row -> option Row.
Variable updateStatistic : nat -> nat -> Row -> option Row.

Definition rowOf (a : rowAccess) : nat := match a with ChangeScore i _ | UpdateStatistic i _ => i end.
Definition stepOf (a : rowAccess) : Row -> option Row :=
  match a with ChangeScore _ k => changeScore k | UpdateStatistic i k => updateStatistic i k end.

Lemma accessRow_step a rows :
  accessRow changeScore updateStatistic a rows
  = match aget rows (rowOf a) with
    | Some r => match stepOf a r with Some r' => Some (upd rows (rowOf a) r') | None => None end
    | None => None
    end.
Proof.
  assert (G : forall i r, aget rows i = Some r -> forall v, aset rows i v = Some (upd rows i v)).
  { intros i r E v. apply aset_Some. apply nth_error_Some. unfold aget in E. congruence. }
  destruct a as [i k|i k]; cbn [accessRow rowOf stepOf]; destruct (aget rows i) as [r|] eqn:E; try reflexivity.
  - destruct (changeScore k r); [|reflexivity]. now rewrite (G i r E).
  - destruct (updateStatistic i k r); [|reflexivity]. now rewrite (G i r E).
Qed.

Lemma rows_commute a b : rowOf a <> rowOf b -> commute (accessRow changeScore updateStatistic) a b.
Proof.
  intros H s. rewrite !accessRow_step.
  destruct (aget s (rowOf a)) as [x|] eqn:Ea; destruct (aget s (rowOf b)) as [y|] eqn:Eb.
  - destruct (stepOf a x) as [x'|] eqn:Sa; destruct (stepOf b y) as [y'|] eqn:Sb;
      rewrite ?accessRow_step; rewrite ?get_upd_neq by congruence; rewrite ?Ea, ?Eb, ?Sa, ?Sb; try reflexivity.
    now rewrite Arr.upd_comm.
  - destruct (stepOf a x); [|reflexivity]. rewrite accessRow_step, get_upd_neq by congruence. now rewrite Eb.
  - destruct (stepOf b y); [|reflexivity]. rewrite accessRow_step, get_upd_neq by congruence. now rewrite Ea.
  - reflexivity.
Qed.

(** Steps that concern the same row. *)
Lemma run_row i l : (forall a, In a l -> rowOf a = i) -> forall rows r, aget rows i = Some r ->
  forL l (accessRow changeScore updateStatistic) rows
  = match forL l stepOf r with Some r' => Some (upd rows i r') | None => None end.
Proof.
  induction l as [|a l IH]; intros Hl rows r E.
  - cbn [forL]. unfold aget in E. now rewrite Arr.upd_nth_same.
  - cbn [forL]. rewrite accessRow_step. rewrite (Hl a) by (left; reflexivity). rewrite E.
    destruct (stepOf a r) as [r1|]; [|reflexivity].
    assert (i < length rows) by (apply nth_error_Some; unfold aget in E; congruence).
    rewrite (IH (fun b Hb => Hl b (or_intror Hb)) _ r1) by (apply nth_error_upd_eq; assumption).
    destruct (forL l stepOf r1); [|reflexivity]. now rewrite Arr.upd_upd.
Qed.

Lemma forL_seq {S} (body : nat -> S -> option S) n : forall i s, forL (seq i n) body s = forN n i body s.
Proof. induction n as [|n IH]; intros i s; [reflexivity|]. cbn [seq forL forN]. destruct (body i s); [apply IH|reflexivity]. Qed.

Variables (numPredictions numStatistics : nat) (covers : nat -> bool).

Lemma row_program_rows i a : In a (rowProgram numPredictions numStatistics covers i) -> rowOf a = i.
Proof.
  unfold rowProgram. destruct (covers i); [|contradiction]. intros H. apply in_app_or in H.
  destruct H as [H|H]; apply in_map_iff in H; destruct H as (k & <- & _); reflexivity.
Qed.

Lemma row_program_run i rows : i < length rows ->
  forL (rowProgram numPredictions numStatistics covers i) (accessRow changeScore updateStatistic) rows
  = if covers i then
      let* r := aget rows i in
      let* r := forN numPredictions 0 changeScore r in
      let* r := forN numStatistics 0 (updateStatistic i) r in
      aset rows i r
    else Some rows.
Proof.
  intros Hi. destruct (aget_Some rows i Hi) as (r & E). rewrite (run_row i _ (row_program_rows i) rows r E).
  unfold rowProgram. destruct (covers i).
  - rewrite E. rewrite forL_app, forL_map. cbn [stepOf]. rewrite <- (forL_seq changeScore).
    destruct (forL (seq 0 numPredictions) changeScore r) as [r1|] eqn:E1.
    + rewrite forL_map. cbn [stepOf]. rewrite <- (forL_seq (updateStatistic i)).
      destruct (forL (seq 0 numStatistics) (updateStatistic i) r1); [|reflexivity]. now rewrite aset_Some.
    + reflexivity.
  - cbn [forL]. unfold aget in E. now rewrite Arr.upd_nth_same.
Qed.

Lemma forL_permutation {A S} (body : A -> S -> option S) l l' : Permutation l l' -> NoDup l ->
  (forall a b s, a <> b -> (let* s' := body a s in body b s') = (let* s' := body b s in body a s')) ->
  forall s, forL l body s = forL l' body s.
Proof.
  intros HP. induction HP as [|x l l' HP IH|x y l|l l1 l2 HP1 IH1 HP2 IH2]; intros HN HC s.
  - reflexivity.
  - inversion HN; subst. cbn [forL]. destruct (body x s); [|reflexivity]. apply IH; assumption.
  - inversion HN as [|? ? H1 H2]; subst. cbn [forL]. assert (D : y <> x) by (intros ->; apply H1; left; reflexivity).
    transitivity (let* s2 := (let* s1 := body y s in body x s1) in forL l body s2); [destruct (body y s); reflexivity|].
    rewrite (HC y x s D). destruct (body x s); reflexivity.
  - rewrite IH1 by assumption. apply IH2; [|assumption]. eapply Permutation_NoDup; eassumption.
Qed.

Lemma blocks_commute i j s : i <> j ->
  let body := fun i => forL (rowProgram numPredictions numStatistics covers i) (accessRow changeScore updateStatistic) in
  (let* s' := body i s in body j s') = (let* s' := body j s in body i s').
Proof.
  intros H body. unfold body. rewrite <- !forL_app. set (p := rowProgram _ _ _ i). set (q := rowProgram _ _ _ j).
  assert (HI : interleaving [p; q] (q ++ p)).
  { clear. induction q as [|a q IH]; cbn [app].
    - induction p as [|a p IH]; [apply il_done; repeat constructor|]. apply (il_step [] a p [[]]). exact IH.
    - apply (il_step [p] a q []). exact IH. }
  pose proof (interleaving_run (accessRow changeScore updateStatistic) _ _ HI) as E.
  rewrite E; [cbn [concat]; now rewrite app_nil_r|].
  intros ps1 r ps2 a b Eps Ha Hb. apply rows_commute. destruct ps1 as [|p1 ps1]; [contradiction|]. cbn [app] in Eps.
  injection Eps as <- Eps. destruct ps1 as [|p2 ps1]; [|destruct ps1; discriminate]. cbn [app] in Eps. injection Eps as <- <-.
  cbn [concat] in Hb. rewrite app_nil_r in Hb. apply row_program_rows in Ha, Hb. congruence.
Qed.

Lemma update_rows_parallel :
  forall rows assignment interleaved,
  assigned (length rows) assignment ->
  interleaving (rowPrograms numPredictions numStatistics covers assignment) interleaved ->
  forL interleaved (accessRow changeScore updateStatistic) rows
  = updateRows changeScore updateStatistic numPredictions numStatistics covers rows.
Proof.
  intros rows assignment il HA HI.
  assert (HN : NoDup (concat assignment)) by (eapply Permutation_NoDup; [exact HA|apply seq_NoDup]).
  set (body := fun i => forL (rowProgram numPredictions numStatistics covers i) (accessRow changeScore updateStatistic)).
  transitivity (forL (concat assignment) body rows).
  - rewrite (interleaving_run _ _ _ HI).
    + assert (E : concat (rowPrograms numPredictions numStatistics covers assignment)
        = flat_map (rowProgram numPredictions numStatistics covers) (concat assignment)).
      { unfold rowPrograms. clear. induction assignment as [|a l IH]; [reflexivity|]. cbn [map concat]. rewrite flat_map_app, IH. reflexivity. }
      rewrite E. clear. unfold body. revert rows. induction (concat assignment) as [|i l IH]; intros rows; [reflexivity|].
      cbn [flat_map forL]. rewrite forL_app. destruct (forL (rowProgram _ _ _ i) _ rows); [apply IH|reflexivity].
    + intros ps1 p ps2 a b Eps Ha Hb. apply rows_commute. unfold rowPrograms in Eps.
      apply in_concat in Hb. destruct Hb as (q & Hq & Hb). apply in_split in Hq. destruct Hq as (qs1 & qs2 & ->).
      assert (EL : exists i j its its', i < j /\ nth_error assignment i = Some its /\ nth_error assignment j = Some its' /\
        q = flat_map (rowProgram numPredictions numStatistics covers) its /\
        p = flat_map (rowProgram numPredictions numStatistics covers) its').
      { assert (N1 : nth_error (map (flat_map (rowProgram numPredictions numStatistics covers)) assignment) (length qs1) = Some q).
        { rewrite Eps, <- app_assoc. rewrite nth_error_app2, Nat.sub_diag by lia. reflexivity. }
        assert (N2 : nth_error (map (flat_map (rowProgram numPredictions numStatistics covers)) assignment)
          (length (qs1 ++ q :: qs2)) = Some p).
        { rewrite Eps. rewrite nth_error_app2, Nat.sub_diag by lia. reflexivity. }
        rewrite nth_error_map in N1, N2. destruct (nth_error assignment (length qs1)) as [its|] eqn:M1; [|discriminate].
        destruct (nth_error assignment (length (qs1 ++ q :: qs2))) as [its'|] eqn:M2; [|discriminate].
        injection N1 as <-. injection N2 as <-. do 4 eexists. split; [|split; [exact M1|split; [exact M2|split; reflexivity]]].
        rewrite app_length. cbn. lia. }
      destruct EL as (i & j & its & its' & Hlt & E1 & E2 & -> & ->).
      apply in_flat_map in Ha, Hb. destruct Ha as (e & He & Ha), Hb as (e' & He' & Hb).
      apply row_program_rows in Ha, Hb. rewrite Ha, Hb. intros <-. exact (concat_disjoint assignment i j its its' _ HN Hlt E1 E2 He' He).
  - rewrite <- (forL_permutation body _ _ HA).
    + unfold updateRows. rewrite forL_seq. unfold body.
      enough (G : forall n i s, length s = length rows -> i + n <= length rows ->
        forN n i (fun i => forL (rowProgram numPredictions numStatistics covers i) (accessRow changeScore updateStatistic)) s
        = forN n i (fun i rows => if covers i then
            let* r := aget rows i in
            let* r := forN numPredictions 0 changeScore r in
            let* r := forN numStatistics 0 (updateStatistic i) r in
            aset rows i r
          else Some rows) s) by (apply G; lia).
      induction n as [|n IH]; intros i s HL Hn; [reflexivity|]. cbn [forN]. rewrite row_program_run by lia.
      destruct (covers i); [|apply IH; lia].
      destruct (aget s i) as [r|]; [|reflexivity]. destruct (forN numPredictions 0 changeScore r) as [r1|]; [|reflexivity].
      destruct (forN numStatistics 0 (updateStatistic i) r1) as [r2|]; [|reflexivity].
      destruct (aset s i r2) as [s'|] eqn:E; [|reflexivity]. apply aset_inv in E. destruct E as (_ & ->).
      apply IH; [rewrite upd_length; lia|lia].
    + apply seq_NoDup.
    + intros i j s D. apply (blocks_commute i j s D).
Qed.
End Boosting.

Lemma rows_parallel :
  forall (Row : Type) (changeScore : nat -> Row -> option Row) (updateStatistic : nat -> nat -> Row -> option Row)
    numPredictions numStatistics covers rows assignment interleaved,
  assigned (length rows) assignment ->
  interleaving (rowPrograms numPredictions numStatistics covers assignment) interleaved ->
  forL interleaved (accessRow changeScore updateStatistic) rows
  = updateRows changeScore updateStatistic numPredictions numStatistics covers rows.
Proof. intros. apply update_rows_parallel with (assignment := assignment); assumption. Qed.
