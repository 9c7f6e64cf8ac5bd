(** Proofs about coverage matrices. *)
From Coq Require Import ZArith NArith Arith List Bool Sorted Lia Permutation.
From Verif Require Import Lib.Arr Model.SecoStatistics Spec.Seco Proofs.Search Proofs.Seco Proofs.SecoMajority.
Import ListNotations.
Open Scope nat_scope.
Local Arguments Nat.leb : simpl never.
Local Arguments Nat.ltb : simpl never.
Local Arguments Nat.mul : simpl never.

(** ** The cells changed by a head *)

Fixpoint partialCells (offset : nat) (majority indices : list nat) (scores : list bool) : list nat :=
  match indices, scores with
  | l :: indices, b :: scores =>
      (if negb (eqb b (mem majority l)) then [offset + l] else []) ++ partialCells offset majority indices scores
  | _, _ => []
  end.

Definition changedCells (numCols : nat) (majority : list nat) (a : application) : list nat :=
  partialCells (fst a * numCols) majority
    (match snd a with CompleteHead _ => seq 0 numCols | PartialHead indices _ => indices end)
    (match snd a with CompleteHead scores => scores | PartialHead _ scores => scores end).

Lemma skipn_cons {A} (l : list A) i x : nth_error l i = Some x -> skipn i l = x :: skipn (S i) l.
Proof. revert i; induction l; destruct i; simpl; intros H; try discriminate; try (injection H as ->); auto. apply IHl. auto. Qed.

Section Change.
Variable change : nat -> coverage -> option coverage.
Variables (numCols e : nat) (majority : list nat).
Hypothesis HM : StronglySorted lt majority.

Local Notation complete scores := (fun (i : nat) (st : fwd * coverage) =>
  let '(it, c) := st in
  let* predicted := aget scores i in
  let* c := if negb (eqb predicted (fwdDeref it)) then change (e * numCols + i) c else Some c in
  Some (fwdNext it, c)).

Lemma complete_loop scores n : forall i c, i + n <= length scores ->
  forN n i (complete scores) (fwdAt majority i, c)
  = let* c := forL (partialCells (e * numCols) majority (seq i n) (skipn i scores)) change c in Some (fwdAt majority (i + n), c).
Proof.
  induction n as [|n IH]; intros i c Hi; simpl.
  - rewrite Nat.add_0_r. auto.
  - destruct (aget_Some scores i) as (b & Eb); [lia|]. rewrite Eb. rewrite (skipn_cons scores i b Eb). rewrite forL_app.
    rewrite fwdAt_deref by auto. fold (mem majority i). destruct (negb (eqb b (mem majority i))); simpl.
    + destruct (change (e * numCols + i) c) as [c1|]; auto. rewrite fwdAt_next, IH by lia. rewrite Nat.add_succ_comm. auto.
    + rewrite fwdAt_next, IH by lia. rewrite Nat.add_succ_comm. auto.
Qed.

Local Notation partial indices scores := (fun (i : nat) (st : fwd * nat * coverage) =>
  let '(it, previousIndex, c) := st in
  let* index := aget indices i in
  let* predicted := aget scores i in
  let* it := fwdAdvance it index previousIndex in
  let* c := if negb (eqb predicted (fwdDeref it)) then change (e * numCols + index) c else Some c in
  Some (it, index, c)).

Lemma partial_loop indices scores n : forall i p c, i + n = length indices -> length scores = length indices ->
  StronglySorted lt (skipn i indices) -> Forall (le p) (skipn i indices) ->
  (let* (_, _, c) := forN n i (partial indices scores) (fwdAt majority p, p, c) in Some c)
  = forL (partialCells (e * numCols) majority (skipn i indices) (skipn i scores)) change c.
Proof.
  induction n as [|n IH]; intros i p c Hi HL HS HF.
  - simpl. rewrite skipn_all2 by lia. auto.
  - destruct (aget_Some indices i) as (l & El); [lia|]. destruct (aget_Some scores i) as (b & Eb); [lia|].
    rewrite (skipn_cons indices i l El) in *. rewrite (skipn_cons scores i b Eb).
    cbn [forN partialCells]. rewrite El, Eb. inversion HF; subst. inversion HS; subst.
    rewrite fwdAt_advance by auto. rewrite forL_app.
    rewrite fwdAt_deref by auto. fold (mem majority l).
    assert (Forall (le l) (skipn (S i) indices)).
    { match goal with H : Forall (lt l) _ |- _ => eapply Forall_impl; [|exact H] end. simpl. intros. lia. }
    destruct (negb (eqb b (mem majority l))); cbn [forL].
    + destruct (change (e * numCols + l) c) as [c1|]; auto. apply IH; auto; lia.
    + apply IH; auto; lia.
Qed.

Lemma change_cells h c : valid_head numCols h ->
  changeCoverage change numCols e majority h c = forL (changedCells numCols majority (e, h)) change c.
Proof.
  intros HV. unfold changeCoverage, changedCells. destruct h as [scores|indices scores]; simpl in *.
  - change (fwdNew majority) with (fwdAt majority 0). rewrite complete_loop by lia.
    rewrite skipn_O. destruct (forL _ change c); auto.
  - destruct HV as (HL & HS & HF). change (fwdNew majority) with (fwdAt majority 0).
    rewrite partial_loop; rewrite ?skipn_O; auto. rewrite Forall_forall. intros; lia.
Qed.

End Change.

Lemma partialCells_In offset majority indices scores p : In p (partialCells offset majority indices scores) ->
  exists l, p = offset + l /\ In l indices.
Proof.
  revert scores. induction indices as [|l t IH]; intros scores H; simpl in H; [tauto|].
  destruct scores as [|b scores]; simpl in H; [tauto|]. apply in_app_or in H. destruct H as [H|H].
  - destruct (negb _); simpl in H; [|tauto]. destruct H as [<-|[]]. exists l. simpl. auto.
  - destruct (IH _ H) as (x & -> & Hx). exists x. simpl. auto.
Qed.

Lemma changedCells_range numRows numCols majority a p : valid_application numRows numCols a ->
  In p (changedCells numCols majority a) -> p < numRows * numCols.
Proof.
  intros (He & HV) Hp. unfold changedCells in Hp. apply partialCells_In in Hp. destruct Hp as (l & -> & Hl).
  assert (l < numCols).
  { destruct (snd a); simpl in *.
    - apply in_seq in Hl. lia.
    - destruct HV as (_ & _ & HF). rewrite Forall_forall in HF. auto. }
  nia.
Qed.

(** ** Single cells *)

Definition incT (p : nat) (c : coverage) : coverage :=
  let n := nth p (cvCounts c) 0%N in
  mkCoverage (upd (cvCounts c) p ((n + 1) mod 2 ^ 32)%N) (if (n =? 0)%N then (cvSum c - 1)%Z else cvSum c).
Definition decT (p : nat) (c : coverage) : coverage :=
  let n := ((nth p (cvCounts c) 0 + 2 ^ 32 - 1) mod 2 ^ 32)%N in
  mkCoverage (upd (cvCounts c) p n) (if (n =? 0)%N then (cvSum c + 1)%Z else cvSum c).

Lemma increaseAt_T p c : p < length (cvCounts c) -> increaseAt p c = Some (incT p c).
Proof.
  intros H. unfold increaseAt, incT. unfold aget. rewrite (nth_error_nth' _ 0%N H). rewrite aset_Some by auto. auto.
Qed.
Lemma decreaseAt_T p c : p < length (cvCounts c) -> decreaseAt p c = Some (decT p c).
Proof.
  intros H. unfold decreaseAt, decT. unfold aget. rewrite (nth_error_nth' _ 0%N H). rewrite aset_Some by auto. auto.
Qed.

Lemma nth_upd_eq {A} (l : list A) i x d : i < length l -> nth i (upd l i x) d = x.
Proof. intros. apply nth_error_nth. apply nth_error_upd_eq. auto. Qed.
Lemma nth_upd_neq {A} (l : list A) i j x d : i <> j -> nth j (upd l i x) d = nth j l d.
Proof.
  revert i j; induction l; destruct i, j; simpl; intros; auto; try lia.
Qed.
Lemma upd_same {A} (l : list A) i d : i < length l -> upd l i (nth i l d) = l.
Proof. revert i; induction l; destruct i; simpl; intros; auto; try lia. f_equal. apply IHl. lia. Qed.
Lemma upd_upd {A} (l : list A) i x y : upd (upd l i x) i y = upd l i y.
Proof. revert i; induction l; destruct i; simpl; auto. f_equal. auto. Qed.
Lemma upd_comm {A} (l : list A) i j x y : i <> j -> upd (upd l i x) j y = upd (upd l j y) i x.
Proof. revert i j; induction l; destruct i, j; simpl; intros; auto; try lia. f_equal. auto. Qed.

(** The number of rows times the number of columns, and 32 bit integers. *)
Definition good (n : nat) (c : coverage) : Prop := length (cvCounts c) = n /\ valid_counts (cvCounts c).

Lemma upd_Forall {A} (P : A -> Prop) l i x : Forall P l -> P x -> Forall P (upd l i x).
Proof. intros HF Hx. revert i; induction HF; destruct i; simpl; auto. Qed.

Lemma mod32 x : (x mod 2 ^ 32 < 2 ^ 32)%N.
Proof. apply N.mod_lt. discriminate. Qed.

Lemma inc_good n p c : good n c -> good n (incT p c).
Proof.
  intros (HL & HV). unfold incT. split; cbn [cvCounts]; [rewrite upd_length; auto|]. apply upd_Forall; auto. apply mod32.
Qed.
Lemma dec_good n p c : good n c -> good n (decT p c).
Proof.
  intros (HL & HV). unfold decT. split; cbn [cvCounts]; [rewrite upd_length; auto|]. apply upd_Forall; auto. apply mod32.
Qed.

Lemma good_nth n c p : good n c -> p < n -> (nth p (cvCounts c) 0 < 2 ^ 32)%N.
Proof. intros (HL & HV) Hp. unfold valid_counts in HV. rewrite Forall_forall in HV. apply HV. apply nth_In. lia. Qed.

Lemma inc_dec_value x : (x < 2 ^ 32)%N -> (((x + 1) mod 2 ^ 32 + 2 ^ 32 - 1) mod 2 ^ 32 = x)%N.
Proof.
  intros H. destruct (N.eq_dec (x + 1) (2 ^ 32)) as [E|E].
  - rewrite E, N.mod_same by discriminate. rewrite N.add_0_l, N.mod_small by lia. lia.
  - rewrite (N.mod_small (x + 1)) by lia. replace (x + 1 + 2 ^ 32 - 1)%N with (x + 1 * 2 ^ 32)%N by lia.
    rewrite N.mod_add by discriminate. apply N.mod_small. auto.
Qed.

Lemma dec_inc_value x : (x < 2 ^ 32)%N -> (((x + 2 ^ 32 - 1) mod 2 ^ 32 + 1) mod 2 ^ 32 = x)%N.
Proof.
  intros H. destruct (N.eq_dec x 0) as [E|E].
  - subst. rewrite N.add_0_l, (N.mod_small (2 ^ 32 - 1)) by lia. replace (2 ^ 32 - 1 + 1)%N with (2 ^ 32)%N by lia.
    apply N.mod_same. discriminate.
  - replace (x + 2 ^ 32 - 1)%N with (x - 1 + 1 * 2 ^ 32)%N by lia. rewrite N.mod_add by discriminate.
    rewrite (N.mod_small (x - 1)) by lia. rewrite N.mod_small by lia. lia.
Qed.

Lemma dec_inc n p c : good n c -> p < n -> decT p (incT p c) = c.
Proof.
  intros HG Hp. assert (Hx := good_nth n c p HG Hp). destruct HG as (HL & _).
  unfold decT, incT. cbn [cvCounts cvSum]. rewrite nth_upd_eq by lia. rewrite inc_dec_value by auto.
  rewrite upd_upd, upd_same by lia. destruct c as [counts sum]. cbn [cvCounts cvSum]. f_equal.
  destruct (nth p counts 0 =? 0)%N; lia.
Qed.

Lemma inc_dec n p c : good n c -> p < n -> incT p (decT p c) = c.
Proof.
  intros HG Hp. assert (Hx := good_nth n c p HG Hp). destruct HG as (HL & _).
  unfold decT, incT. cbn [cvCounts cvSum]. rewrite nth_upd_eq by lia. rewrite dec_inc_value by auto.
  rewrite upd_upd, upd_same by lia. destruct c as [counts sum]. cbn [cvCounts cvSum]. f_equal.
  destruct ((nth p counts 0 + 2 ^ 32 - 1) mod 2 ^ 32 =? 0)%N; lia.
Qed.

Definition stepT (b : bool) (p : nat) (c : coverage) : coverage := if b then incT p c else decT p c.

Lemma step_good n b p c : good n c -> good n (stepT b p c).
Proof. destruct b; [apply inc_good|apply dec_good]. Qed.

Lemma step_cancel n b p c : good n c -> p < n -> stepT (negb b) p (stepT b p c) = c.
Proof. destruct b; [apply dec_inc|apply inc_dec]. Qed.

Lemma step_comm n b1 p1 b2 p2 c : good n c -> p1 < n -> p2 < n ->
  stepT b1 p1 (stepT b2 p2 c) = stepT b2 p2 (stepT b1 p1 c).
Proof.
  intros HG H1 H2. destruct (Nat.eq_dec p1 p2) as [->|D].
  - destruct b1, b2; auto; simpl; rewrite (dec_inc n), (inc_dec n); auto.
  - destruct b1, b2; cbn [stepT]; unfold incT, decT; cbn [cvCounts cvSum];
      rewrite !nth_upd_neq by auto; rewrite upd_comm by auto; f_equal;
      repeat match goal with |- context [(?a =? 0)%N] => destruct (a =? 0)%N end; lia.
Qed.

(** ** Histories *)

Definition runT (l : list (bool * nat)) (c : coverage) : coverage := fold_left (fun c x => stepT (fst x) (snd x) c) l c.

Lemma runT_good n l : forall c, good n c -> good n (runT l c).
Proof. induction l as [|x l IH]; intros c HG; simpl; auto. apply IH. apply step_good. auto. Qed.

Lemma runT_app a b c : runT (a ++ b) c = runT b (runT a c).
Proof. apply fold_left_app. Qed.

Lemma runT_step n b p l : forall c, good n c -> p < n -> Forall (fun x => snd x < n) l ->
  runT l (stepT b p c) = stepT b p (runT l c).
Proof.
  induction l as [|x l IH]; intros c HG Hp HF; simpl; auto. inversion HF; subst.
  rewrite (step_comm n) by auto. apply IH; auto. apply step_good; auto.
Qed.

Lemma runT_comm n a : forall b c, good n c -> Forall (fun x => snd x < n) a -> Forall (fun x => snd x < n) b ->
  runT b (runT a c) = runT a (runT b c).
Proof.
  induction a as [|x a IH]; intros b c HG HA HB; simpl; auto. inversion HA; subst.
  rewrite IH by (auto; apply step_good; auto). rewrite (runT_step n) by auto. auto.
Qed.

Lemma runT_cancel n b ps : forall c, good n c -> Forall (fun p => p < n) ps ->
  runT (map (pair (negb b)) ps) (runT (map (pair b) ps) c) = c.
Proof.
  induction ps as [|p ps IH]; intros c HG HF; simpl; auto. inversion HF; subst.
  assert (HP : Forall (fun x => snd x < n) (map (pair b) ps)).
  { rewrite Forall_forall in *. intros x Hx. apply in_map_iff in Hx. destruct Hx as (y & <- & Hy). simpl. auto. }
  rewrite (runT_step n b p (map (pair b) ps) c) by auto.
  rewrite (step_cancel n) by (auto; apply runT_good; auto). apply IH; auto.
Qed.

Lemma forL_stepT n b ps : forall c, good n c -> Forall (fun p => p < n) ps ->
  forL ps (if b : bool then increaseAt else decreaseAt) c = Some (runT (map (pair b) ps) c).
Proof.
  induction ps as [|p ps IH]; intros c HG HF; simpl; auto. inversion HF; subst.
  destruct b; cbn [stepT fst snd].
  - rewrite increaseAt_T by (rewrite (proj1 HG); auto). apply IH; auto. apply inc_good; auto.
  - rewrite decreaseAt_T by (rewrite (proj1 HG); auto). apply IH; auto. apply dec_good; auto.
Qed.

Definition isApply (x : change) : bool := match x with Apply _ => true | Revert _ => false end.
Definition changeCells (numCols : nat) (majority : list nat) (x : change) : list (bool * nat) :=
  map (pair (isApply x)) (changedCells numCols majority (changeOf x)).

Lemma cells_Forall numRows numCols majority a : valid_application numRows numCols a ->
  Forall (fun p => p < numRows * numCols) (changedCells numCols majority a).
Proof. intros HV. rewrite Forall_forall. intros p Hp. eapply changedCells_range; eauto. Qed.

Lemma run_change numRows numCols majority x c : StronglySorted lt majority -> good (numRows * numCols) c ->
  valid_application numRows numCols (changeOf x) ->
  runChange numCols majority x c = Some (runT (changeCells numCols majority x) c).
Proof.
  intros HM HG HV. assert (HF := cells_Forall _ _ majority _ HV). unfold changeCells.
  destruct x as [a|a]; simpl in *; unfold applyPrediction, revertPrediction; rewrite change_cells by (auto; apply HV).
  - rewrite <- (surjective_pairing a). apply (forL_stepT (numRows * numCols) true); auto.
  - rewrite <- (surjective_pairing a). apply (forL_stepT (numRows * numCols) false); auto.
Qed.

Lemma run_changes numRows numCols majority h : StronglySorted lt majority -> forall c, good (numRows * numCols) c ->
  Forall (fun x => valid_application numRows numCols (changeOf x)) h ->
  forL h (runChange numCols majority) c = Some (runT (flat_map (changeCells numCols majority) h) c).
Proof.
  intros HM. induction h as [|x h IH]; intros c HG HF; simpl; auto. inversion HF; subst.
  rewrite (run_change numRows) by auto. rewrite IH by (auto; apply runT_good; auto). rewrite runT_app. auto.
Qed.

Lemma changes_Forall numRows numCols majority h : Forall (fun x => valid_application numRows numCols (changeOf x)) h ->
  Forall (fun x => snd x < numRows * numCols) (flat_map (changeCells numCols majority) h).
Proof.
  intros HF. rewrite Forall_forall in *. intros x Hx. apply in_flat_map in Hx. destruct Hx as (y & Hy & Hx).
  unfold changeCells in Hx. apply in_map_iff in Hx. destruct Hx as (p & <- & Hp). simpl. eapply changedCells_range; eauto.
Qed.

(** ** C48 *)
Lemma apply_revert_cancel :
  forall numRows numCols majority counts sum, StronglySorted lt majority ->
    length counts = numRows * numCols -> valid_counts counts ->
    forall a h, valid_application numRows numCols a ->
      Forall (fun x => valid_application numRows numCols (changeOf x)) h ->
      exists c, forL h (runChange numCols majority) (mkCoverage counts sum) = Some c /\
        forL (Apply a :: h ++ [Revert a]) (runChange numCols majority) (mkCoverage counts sum) = Some c /\
        forL (Revert a :: h ++ [Apply a]) (runChange numCols majority) (mkCoverage counts sum) = Some c.
Proof.
  intros numRows numCols majority counts sum HM HL HV a h Ha Hh.
  assert (HG : good (numRows * numCols) (mkCoverage counts sum)) by (split; auto).
  assert (HC := changes_Forall _ _ majority _ Hh). assert (HA := cells_Forall _ _ majority _ Ha).
  exists (runT (flat_map (changeCells numCols majority) h) (mkCoverage counts sum)).
  assert (HP : forall b : bool, Forall (fun x : bool * nat => snd x < numRows * numCols) (map (pair b) (changedCells numCols majority a))).
  { intros b. rewrite Forall_forall in *. intros x Hx. apply in_map_iff in Hx. destruct Hx as (p & <- & Hp). simpl. auto. }
  split; [apply (run_changes numRows); auto|].
  split.
  - rewrite (run_changes numRows); auto.
    + simpl. rewrite flat_map_app. simpl. rewrite app_nil_r, !runT_app. unfold changeCells at 1 3. simpl.
      rewrite (runT_comm (numRows * numCols) (map (pair true) (changedCells numCols majority a)) (flat_map _ h)) by auto.
      f_equal. apply (runT_cancel (numRows * numCols) true); auto. apply runT_good. auto.
    + constructor; auto. apply Forall_app. auto.
  - rewrite (run_changes numRows); auto.
    + simpl. rewrite flat_map_app. simpl. rewrite app_nil_r, !runT_app. unfold changeCells at 1 3. simpl.
      rewrite (runT_comm (numRows * numCols) (map (pair false) (changedCells numCols majority a)) (flat_map _ h)) by auto.
      f_equal. apply (runT_cancel (numRows * numCols) false); auto. apply runT_good. auto.
    + constructor; auto. apply Forall_app. auto.
Qed.

(** ** Counting *)

Definition occ (p : nat) (l : list nat) : nat := count (Nat.eqb p) l.

Lemma occ_app p a b : occ p (a ++ b) = occ p a + occ p b.
Proof. apply count_app. Qed.

Lemma occ_notin p l : ~ In p l -> occ p l = 0.
Proof.
  unfold occ, count. induction l as [|x l IH]; simpl; intros H; auto. destruct (Nat.eqb_spec p x).
  - exfalso. apply H. auto.
  - apply IH. tauto.
Qed.

Lemma occ_partial offset majority l : forall indices scores, length scores = length indices -> StronglySorted lt indices ->
  occ (offset + l) (partialCells offset majority indices scores)
  = match find (fun p => fst p =? l) (combine indices scores) with
    | Some p => Nat.b2n (negb (eqb (snd p) (mem majority l))) | None => 0 end.
Proof.
  induction indices as [|x t IH]; intros scores HL HS; destruct scores as [|b scores]; simpl in HL; try discriminate; auto.
  inversion HS as [|? ? HS1 HF]; subst. cbn [partialCells combine find fst]. rewrite occ_app.
  destruct (Nat.eqb_spec x l).
  - subst x. rewrite (occ_notin _ (partialCells _ _ t scores)).
    + cbn [snd]. destruct (negb (eqb b (mem majority l))); auto. unfold occ, count. simpl. rewrite Nat.eqb_refl. auto.
    + intros Hin. apply partialCells_In in Hin. destruct Hin as (y & Ey & Hy). rewrite Forall_forall in HF. apply HF in Hy. lia.
  - rewrite IH by (auto; lia). destruct (negb (eqb b (mem majority x))); auto. unfold occ, count. simpl.
    destruct (Nat.eqb_spec (offset + l) (offset + x)); auto. lia.
Qed.

Lemma find_seq l : forall n i (scores : list bool), length scores = n ->
  match find (fun p => fst p =? i + l) (combine (seq i n) scores) with Some p => Some (snd p) | None => None end = nth_error scores l.
Proof.
  revert l. intros l n. revert l. induction n as [|n IH]; intros l i scores HL; destruct scores as [|b scores]; simpl in HL; try discriminate.
  - destruct l; auto.
  - cbn [seq combine find fst]. destruct (Nat.eqb_spec i (i + l)).
    + assert (l = 0) as -> by lia. auto.
    + destruct l; [lia|]. rewrite <- Nat.add_succ_comm. cbn [nth_error]. apply IH. lia.
Qed.

Lemma occ_covers numRows numCols majority a e l : valid_application numRows numCols a -> l < numCols ->
  occ (e * numCols + l) (changedCells numCols majority a) = Nat.b2n (covers majority (e, l) a).
Proof.
  intros (He & HV) Hl. unfold covers. cbn [fst snd]. destruct (Nat.eqb_spec (fst a) e) as [E|E]; cbn [andb].
  - unfold changedCells, predictionOf. rewrite <- E. destruct (snd a) as [scores|indices scores]; simpl in HV.
    + rewrite occ_partial; [|rewrite seq_length; auto|apply seq_SS].
      rewrite <- (find_seq l numCols 0 scores HV). cbn [plus]. destruct (find _ _); auto.
    + rewrite occ_partial by tauto. destruct (find _ _); auto.
  - apply occ_notin. intros Hin. unfold changedCells in Hin. apply partialCells_In in Hin. destruct Hin as (x & Ex & Hx).
    assert (x < numCols).
    { destruct (snd a); simpl in *; [apply in_seq in Hx; lia|]. destruct HV as (_ & _ & HF). rewrite Forall_forall in HF. auto. }
    apply E. nia.
Qed.

Definition allCells (numCols : nat) (majority : list nat) (apps : list application) : list nat :=
  flat_map (changedCells numCols majority) apps.

Lemma occ_all numRows numCols majority apps e l : Forall (valid_application numRows numCols) apps -> l < numCols ->
  occ (e * numCols + l) (allCells numCols majority apps) = count (covers majority (e, l)) apps.
Proof.
  intros HF Hl. unfold allCells. induction HF as [|a apps Ha HF IH]; simpl; auto. rewrite occ_app, IH.
  rewrite (occ_covers numRows) by auto. unfold count. simpl. destruct (covers majority (e, l) a); auto.
Qed.

Lemma count_pos {A} (f : A -> bool) l : (0 <? count f l) = existsb f l.
Proof. unfold count. induction l as [|x l IH]; simpl; auto. destruct (f x); simpl; auto. Qed.

(** The state after cells have been incremented. *)
Lemma runT_counts n s ps : Forall (fun p => p < n) ps -> (forall p, (N.of_nat (occ p ps) < 2 ^ 32)%N) -> forall L, NoDup L -> (forall p, p < n -> In p L) ->
  let c := runT (map (pair true) ps) (mkCoverage (repeat 0%N n) s) in
  length (cvCounts c) = n /\ (forall p, p < n -> nth p (cvCounts c) 0%N = N.of_nat (occ p ps)) /\
  cvSum c = (s - Z.of_nat (count (fun p => 0 <? occ p ps)%nat L))%Z.
Proof.
  intros HF HB L HN HL. induction ps as [|p ps IH] using rev_ind.
  - cbn [runT map fold_left cvCounts cvSum]. split; [apply repeat_length|]. split.
    + intros p Hp. rewrite nth_repeat. auto.
    + rewrite (count_ext _ (fun _ => false)) by auto. unfold count. replace (filter (fun _ => false) L) with (@nil nat); [simpl; lia|].
      clear. induction L; auto.
  - apply Forall_app in HF. destruct HF as (HF & Hp). apply Forall_inv in Hp.
    destruct (IH HF) as (H1 & H3 & H4). { intros q. specialize (HB q). rewrite occ_app in HB. lia. } cbv zeta. rewrite map_app, runT_app.
    set (c := runT (map (pair true) ps) (mkCoverage (repeat 0%N n) s)) in *.
    cbn [map runT fold_left stepT fst snd]. unfold incT. cbn [cvCounts cvSum].
    assert (Hocc : forall q, occ q (ps ++ [p]) = occ q ps + (if q =? p then 1 else 0)).
    { intros q. rewrite occ_app. unfold occ at 2, count. simpl. destruct (q =? p); auto. }
    assert (Hle := HB p). rewrite Hocc, Nat.eqb_refl in Hle.
    rewrite upd_length. split; auto. split.
    + intros q Hq. rewrite Hocc. destruct (Nat.eqb_spec q p).
      * subst q. rewrite nth_upd_eq by lia. rewrite H3 by auto. rewrite N.mod_small by lia. lia.
      * rewrite nth_upd_neq by auto. rewrite H3 by auto. f_equal. lia.
    + rewrite H3 by auto. rewrite H4.
      enough (count (fun q => 0 <? occ q (ps ++ [p])) L = count (fun q => 0 <? occ q ps) L + (if occ p ps =? 0 then 1 else 0)) as E.
      { rewrite E. destruct (Nat.eqb_spec (occ p ps) 0) as [E0|E0].
        - rewrite E0. simpl. lia.
        - destruct (N.eqb_spec (N.of_nat (occ p ps)) 0); [lia|]. lia. }
      specialize (HL p Hp). clear - HN HL Hocc. induction L as [|x L IHL]; [destruct HL|].
      inversion HN; subst. assert (EC : forall f : nat -> bool, count f (x :: L) = (if f x then 1 else 0) + count f L).
      { intros f. unfold count. simpl. destruct (f x); auto. }
      rewrite !EC. destruct HL as [->|HL].
      * rewrite (count_ext (fun q => 0 <? occ q (ps ++ [p])) (fun q => 0 <? occ q ps) L).
        -- rewrite Hocc, Nat.eqb_refl. destruct (Nat.eqb_spec (occ p ps) 0) as [E|E].
           ++ rewrite E. simpl. unfold Nat.ltb, Nat.leb. simpl. lia.
           ++ destruct (Nat.ltb_spec 0 (occ p ps + 1)), (Nat.ltb_spec 0 (occ p ps)); lia.
        -- intros q Hq. rewrite Hocc. destruct (Nat.eqb_spec q p); [subst; tauto|]. rewrite Nat.add_0_r. auto.
      * rewrite IHL by auto. rewrite Hocc. destruct (Nat.eqb_spec x p); [subst; tauto|]. rewrite Nat.add_0_r. lia.
Qed.

Lemma changes_apply numCols majority apps : flat_map (changeCells numCols majority) (map Apply apps)
  = map (pair true) (allCells numCols majority apps).
Proof.
  unfold allCells. induction apps as [|a apps IH]; simpl; auto. rewrite map_app, IH. auto.
Qed.

Lemma cells_In n k c : In c (cells n k) <-> fst c < n /\ snd c < k.
Proof.
  unfold cells. rewrite in_flat_map. split.
  - intros (l & Hl & Hc). apply in_map_iff in Hc. destruct Hc as (e & <- & He). apply in_seq in Hl, He. simpl. lia.
  - intros (H1 & H2). exists (snd c). split; [apply in_seq; lia|]. apply in_map_iff. exists (fst c).
    split; [destruct c; auto|apply in_seq; lia].
Qed.

Lemma cells_NoDup n k : NoDup (cells n k).
Proof.
  unfold cells. assert (H := seq_NoDup k 0). induction H as [|l ls Hn HN IH]; simpl; [constructor|].
  apply NoDup_app_iff. split; [|split; auto].
  - apply FinFun.Injective_map_NoDup; [|apply seq_NoDup]. intros a b [= ->]. auto.
  - intros c Hc Hc'. apply in_map_iff in Hc. destruct Hc as (e & <- & _). apply in_flat_map in Hc'.
    destruct Hc' as (l' & Hl' & Hc'). apply in_map_iff in Hc'. destruct Hc' as (e' & [= -> ->] & _). auto.
Qed.

Lemma count_split {A} (f g : A -> bool) l : count f l = count (fun x => f x && g x) l + count (fun x => f x && negb (g x)) l.
Proof. unfold count. induction l as [|x l IH]; simpl; auto. destruct (f x), (g x); simpl; lia. Qed.

(** ** C49 *)
Lemma sum_of_uncovered_gen :
  forall junk lm label majority sum, represents lm label -> length junk = lmCols lm ->
    createStatistics junk lm = Some (majority, sum) ->
    forall apps, Forall (valid_application (lmRows lm) (lmCols lm)) apps ->
    (forall e l, e < lmRows lm -> l < lmCols lm -> (N.of_nat (count (covers majority (e, l)) apps) < 2 ^ 32)%N) ->
    exists c, applyAll (lmCols lm) majority apps (newCoverage (lmRows lm) (lmCols lm) sum) = Some c /\
      (forall e l, e < lmRows lm -> l < lmCols lm ->
         nth (e * lmCols lm + l) (cvCounts c) 0%N = N.of_nat (count (covers majority (e, l)) apps)) /\
      cvSum c = (Z.of_nat (count (fun x => deviates label majority x && negb (covered majority apps x)) (cells (lmRows lm) (lmCols lm)))
                 - Z.of_nat (count (fun x => negb (deviates label majority x) && covered majority apps x) (cells (lmRows lm) (lmCols lm))))%Z.
Proof.
  intros junk lm label majority sum HR HJ EC apps HA HB.
  destruct (majority_labels_exact junk lm label HR HJ) as (majority' & EC' & HS & _). rewrite EC in EC'.
  injection EC' as <- ->. set (rows := lmRows lm) in *. set (cols := lmCols lm) in *.
  set (s := Z.of_nat (count (deviates label majority) (cells rows cols))).
  assert (HG : good (rows * cols) (newCoverage rows cols s)).
  { split; [apply repeat_length|]. unfold valid_counts. rewrite Forall_forall. intros x Hx. apply repeat_spec in Hx. subst. reflexivity. }
  exists (runT (map (pair true) (allCells cols majority apps)) (newCoverage rows cols s)).
  assert (HF : Forall (fun x => valid_application rows cols (changeOf x)) (map Apply apps)).
  { rewrite Forall_forall in *. intros x Hx. apply in_map_iff in Hx. destruct Hx as (a & <- & Ha). simpl. auto. }
  split.
  { rewrite <- changes_apply. rewrite <- (run_changes rows) by auto. unfold applyAll. rewrite forL_map. reflexivity. }
  set (L := map (fun x => fst x * cols + snd x) (cells rows cols)).
  assert (Hocc : forall e l, l < cols -> occ (e * cols + l) (allCells cols majority apps) = count (covers majority (e, l)) apps).
  { intros. apply (occ_all rows); auto. }
  assert (Hpos : forall p, p < rows * cols -> exists e l, p = e * cols + l /\ e < rows /\ l < cols).
  { intros p Hp. assert (cols <> 0) by nia. exists (p / cols), (p mod cols). split; [rewrite (Nat.div_mod_eq p cols) at 1; lia|].
    split; [apply Nat.div_lt_upper_bound; nia|]. apply Nat.mod_upper_bound. auto. }
  assert (HFc : Forall (fun p => p < rows * cols) (allCells cols majority apps)).
  { rewrite Forall_forall in *. intros p Hp. apply in_flat_map in Hp. destruct Hp as (a & Ha & Hp).
    eapply changedCells_range; eauto. }
  destruct (runT_counts (rows * cols) s (allCells cols majority apps) HFc) with (L := L) as (_ & H1 & H2).
  - intros p. destruct (Nat.lt_ge_cases p (rows * cols)) as [Hp|Hp].
    + destruct (Hpos p Hp) as (e & l & -> & He & Hl). rewrite Hocc by auto. apply HB; auto.
    + rewrite occ_notin; [reflexivity|]. intros Hin. rewrite Forall_forall in HFc. apply HFc in Hin. lia.
  - unfold L. assert (HI : forall x y, In x (cells rows cols) -> In y (cells rows cols) -> fst x * cols + snd x = fst y * cols + snd y -> x = y).
    { intros (e1 & l1) (e2 & l2) I1 I2 E. apply cells_In in I1, I2. simpl in *. assert (e1 = e2) by nia. subst. f_equal. lia. }
    assert (HN := cells_NoDup rows cols). revert HI HN. generalize (cells rows cols). intros l HI HN.
    induction HN as [|x l Hx HN IH]; simpl; [constructor|]. constructor.
    + intros Hin. apply in_map_iff in Hin. destruct Hin as (y & Ey & Hy). assert (y = x) by (apply HI; simpl; auto). subst. auto.
    + apply IH. intros. apply HI; simpl; auto.
  - intros p Hp. destruct (Hpos p Hp) as (e & l & -> & He & Hl). apply in_map_iff. exists (e, l). split; auto. apply cells_In. auto.
  - split.
    + intros e l He Hl. unfold newCoverage. rewrite H1 by nia. f_equal. auto.
    + unfold newCoverage. rewrite H2. unfold L. rewrite count_map.
      rewrite (count_ext _ (covered majority apps)).
      2:{ intros (e & l) Hc. apply cells_In in Hc. simpl in *. rewrite Hocc by tauto. rewrite count_pos. auto. }
      unfold s. rewrite (count_split (deviates label majority) (covered majority apps)).
      rewrite (count_split (covered majority apps) (deviates label majority)).
      rewrite (count_ext (fun x => covered majority apps x && deviates label majority x) (fun x => deviates label majority x && covered majority apps x))
        by (intros; apply andb_comm).
      rewrite (count_ext (fun x => covered majority apps x && negb (deviates label majority x)) (fun x => negb (deviates label majority x) && covered majority apps x))
        by (intros; apply andb_comm).
      lia.
Qed.

Lemma sum_of_uncovered :
  forall junk lm label majority sum, represents lm label -> length junk = lmCols lm ->
    createStatistics junk lm = Some (majority, sum) ->
    forall apps, Forall (valid_application (lmRows lm) (lmCols lm)) apps -> (N.of_nat (length apps) < 2 ^ 32)%N ->
    exists c, applyAll (lmCols lm) majority apps (newCoverage (lmRows lm) (lmCols lm) sum) = Some c /\
      (forall e l, e < lmRows lm -> l < lmCols lm ->
         nth (e * lmCols lm + l) (cvCounts c) 0%N = N.of_nat (count (covers majority (e, l)) apps)) /\
      cvSum c = (Z.of_nat (count (fun x => deviates label majority x && negb (covered majority apps x)) (cells (lmRows lm) (lmCols lm)))
                 - Z.of_nat (count (fun x => negb (deviates label majority x) && covered majority apps x) (cells (lmRows lm) (lmCols lm))))%Z.
Proof.
  intros junk lm label majority sum HR HJ EC apps HA HB. apply (sum_of_uncovered_gen junk); auto. intros e l _ _.
  assert (count (covers majority (e, l)) apps <= length apps) by apply count_le. lia.
Qed.
