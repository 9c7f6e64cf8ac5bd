(** Proofs about majority labels. *)
From Coq Require Import ZArith NArith Arith List Bool Sorted Lia Permutation.
From Verif Require Import Lib.Arr Model.SecoStatistics Spec.Seco Proofs.Seco.
Import ListNotations.
Open Scope nat_scope.
Local Arguments Nat.leb : simpl never.
Local Arguments Nat.ltb : simpl never.
Local Arguments Nat.mul : simpl never.

Lemma count_app {A} (f : A -> bool) a b : count f (a ++ b) = count f a + count f b.
Proof. unfold count. rewrite filter_app, app_length. auto. Qed.

Lemma count_map {A B} (f : B -> bool) (g : A -> B) l : count f (map g l) = count (fun x => f (g x)) l.
Proof. unfold count. induction l; simpl; auto. destruct (f (g a)); simpl; auto. Qed.

Lemma count_negb {A} (f : A -> bool) l : count (fun x => negb (f x)) l = length l - count f l.
Proof.
  enough (count (fun x => negb (f x)) l + count f l = length l) by lia.
  unfold count. induction l; simpl; auto. destruct (f a); simpl; lia.
Qed.

Lemma count_ext {A} (f g : A -> bool) l : (forall x, In x l -> f x = g x) -> count f l = count g l.
Proof. intros H. unfold count. f_equal. apply filter_ext_in. auto. Qed.

Lemma count_le {A} (f : A -> bool) l : count f l <= length l.
Proof. unfold count. induction l; simpl; auto. destruct (f a); simpl; lia. Qed.

Section Majority.
Variables (lm : labelMatrix) (label : nat -> nat -> bool).
Local Notation rows := (lmRows lm).
Local Notation cols := (lmCols lm).

Definition relevant (l : nat) : nat := count (fun e => label e l) (seq 0 rows).
Definition isMaj (l : nat) : bool := rows <? 2 * relevant l.
Definition majTo (i : nat) : list nat := filter isMaj (seq 0 i).
Definition devTo (i : nat) : nat :=
  count (fun c => negb (eqb (label (fst c) (snd c)) (isMaj (snd c)))) (cells rows i).

Lemma majTo_S i : majTo (S i) = majTo i ++ (if isMaj i then [i] else []).
Proof. unfold majTo. rewrite seq_S, filter_app. simpl. destruct (isMaj i); auto. Qed.

Lemma majTo_length i : length (majTo i) <= i.
Proof. unfold majTo. rewrite <- (seq_length i 0) at 2. apply (count_le isMaj). Qed.

Lemma devTo_S i : devTo (S i) = devTo i + (if isMaj i then rows - relevant i else relevant i).
Proof.
  unfold devTo, cells. rewrite seq_S, flat_map_app, count_app. f_equal. simpl. rewrite app_nil_r, count_map. simpl.
  destruct (isMaj i).
  - unfold relevant. rewrite <- (seq_length rows 0) at 2. rewrite <- count_negb. apply count_ext. intros e _. destruct (label e i); auto.
  - unfold relevant. apply count_ext. intros e _. destruct (label e i); auto.
Qed.

(** The state of the loop over all labels. *)
Definition majInv (i : nat) (st : list nat * nat * Z) : Prop :=
  let '(majority, n, sum) := st in
  length majority = cols /\ firstn n majority = majTo i /\ n = length (majTo i) /\ sum = Z.of_nat (devTo i).

Lemma consider_spec i st : i < cols -> majInv i st ->
  exists st', considerLabel rows i (relevant i) st = Some st' /\ majInv (S i) st' /\
    (forall j, i < j -> nth_error (fst (fst st')) j = nth_error (fst (fst st)) j).
Proof.
  intros Hi. destruct st as ((majority & n) & sum). intros (HL & HF & HN & HS). unfold considerLabel.
  assert (Hn := majTo_length i). fold (isMaj i). assert (HD := devTo_S i). assert (HT := majTo_S i).
  destruct (isMaj i).
  - rewrite aset_Some by lia. eexists. split; [reflexivity|]. split.
    + split; [rewrite upd_length; auto|]. rewrite HT, app_length. simpl. split; [|split]; [|lia|lia].
      rewrite <- HF. destruct (aget_Some majority n) as (x & Ex); [lia|].
      destruct (upd_split majority n i x Ex) as (l1 & l2 & EM & HL1 & ->). rewrite EM.
      rewrite firstn_app, <- HL1, firstn_app, !firstn_all2 by lia.
      replace (length l1 + 1 - length l1) with 1 by lia. replace (length l1 - length l1) with 0 by lia. simpl.
      rewrite app_nil_r, firstn_all. auto.
    + intros j Hj. simpl. apply nth_error_upd_neq. lia.
  - eexists. split; [reflexivity|]. split; auto. rewrite app_nil_r in HT. split; auto. rewrite HT. split; auto. split; auto. lia.
Qed.

Lemma maj_result majority n sum : majInv cols (majority, n, sum) ->
  firstn n majority = majTo cols /\ sum = Z.of_nat (devTo cols).
Proof. intros (_ & H1 & _ & H2). auto. Qed.

Lemma relevant_bound l : relevant l <= rows.
Proof. unfold relevant. rewrite <- (seq_length rows 0) at 2. apply count_le. Qed.

Lemma dense_spec junk values : lmValues lm = DenseLabels values -> represents lm label -> length junk = cols ->
  createStatisticsDense junk rows cols values = Some (majTo cols, Z.of_nat (devTo cols)).
Proof.
  intros EV HR HJ. unfold represents in HR. rewrite EV in HR. destruct HR as (HL & HR). unfold createStatisticsDense.
  set (body := fun (i : nat) (st : list nat * nat * Z) => _).
  destruct (forN_inv majInv body cols 0 (junk, 0, 0%Z)) as (((majority & n) & sum) & E & H).
  - split; auto.
  - intros i st Hi HI. unfold body.
    set (inner := fun (j : nat) (numRelevant : nat) => _).
    destruct (forN_inv (fun j c => c = count (fun e => label e i) (seq 0 j)) inner rows 0 0) as (c & Ec & Hc).
    + reflexivity.
    + intros j c Hj ->. unfold inner. unfold aget. rewrite HR by lia. eexists. split; [reflexivity|].
      rewrite seq_S, count_app. f_equal. unfold count. simpl. destruct (label j i); auto.
    + rewrite Ec. simpl in Hc. subst c. fold (relevant i). destruct (consider_spec i st) as (st' & E1 & H1 & _); auto; [lia|].
      eauto.
  - rewrite E. apply maj_result in H. destruct H as (-> & ->). auto.
Qed.

Lemma count_row row l : StronglySorted lt row -> count (Nat.eqb l) row = Nat.b2n (mem row l).
Proof.
  induction row as [|h t IH]; intros HS; auto. inversion HS as [|? ? HS1 HF]; subst. unfold count in *. simpl.
  destruct (Nat.eqb_spec l h); simpl; auto.
  - rewrite IH by auto. replace (mem t l) with false; auto. symmetry. apply mem_false. intros Hin.
    rewrite Forall_forall in HF. apply HF in Hin. lia.
Qed.

Lemma sparse_spec rws : lmValues lm = CsrLabels rws -> represents lm label ->
  createStatisticsSparse rows cols rws = Some (majTo cols, Z.of_nat (devTo cols)).
Proof.
  intros EV HR. unfold represents in HR. rewrite EV in HR. destruct HR as (HL & HR). unfold createStatisticsSparse.
  set (body1 := fun (i : nat) (counts : list nat) => _).
  destruct (forN_inv (fun i counts => length counts = cols /\ forall l, l < cols ->
      nth_error counts l = Some (count (fun e => label e l) (seq 0 i))) body1 rows 0 (repeat 0 cols)) as (counts & E & HLc & HCc).
  - split; [apply repeat_length|]. intros l Hl. rewrite (nth_error_nth' _ 0) by (rewrite repeat_length; auto).
    rewrite nth_repeat. auto.
  - intros i counts Hi (HLc & HCc). unfold body1. destruct (aget_Some rws i) as (row & Er); [lia|]. rewrite Er.
    destruct (HR i row Er) as (HS & HI).
    destruct (forL_inv (fun done c => length c = cols /\ forall l, l < cols ->
        nth_error c l = Some (count (fun e => label e l) (seq 0 i) + count (Nat.eqb l) done))
      (fun index counts => let* c := aget counts index in aset counts index (c + 1)) row [] counts) as (c & Ec & HLd & HCd).
    + split; auto. intros l Hl. rewrite HCc by auto. change (count (Nat.eqb l) []) with 0. f_equal. lia.
    + intros p a r c Hp (HLd & HCd). assert (Ha : a < cols) by (apply HI; simpl in Hp; rewrite Hp; apply in_or_app; simpl; auto).
      unfold aget. rewrite HCd by auto. rewrite aset_Some by lia. eexists. split; [reflexivity|]. rewrite upd_length. split; auto.
      intros l Hl. rewrite nth_error_upd, count_app. change (count (Nat.eqb l) [a]) with (length (if l =? a then [a] else [])). destruct (Nat.eqb_spec a l).
      * subst l. destruct (Nat.ltb_spec a (length c)); [|lia]. simpl. rewrite Nat.eqb_refl. simpl. f_equal. lia.
      * simpl. rewrite HCd by auto. destruct (Nat.eqb_spec l a); [lia|]. simpl. f_equal. lia.
    + rewrite Ec. exists c. split; auto. split; auto. intros l Hl. rewrite HCd by auto. cbn [app]. rewrite seq_S, count_app. f_equal.
      f_equal. rewrite count_row by assumption. unfold count. simpl. destruct (mem row l) eqn:M.
      * apply mem_In, HI in M. destruct M as (_ & ->). auto.
      * apply mem_false in M. destruct (label i l) eqn:Y; auto. exfalso. apply M, HI. auto.
  - rewrite E. simpl in HCc.
    set (body2 := fun (i : nat) (st : list nat * nat * Z) => _).
    destruct (forN_inv (fun i st => majInv i st /\ forall j, i <= j < cols -> nth_error (fst (fst st)) j = Some (relevant j))
      body2 cols 0 (counts, 0, 0%Z)) as (((majority & n) & sum) & E2 & H & _).
    + split; [split; auto|]. intros j Hj. simpl. rewrite HCc by lia. auto.
    + intros i st Hi (H1 & H2). unfold body2. destruct (consider_spec i st) as (st' & E1 & HI' & HJ); auto; [lia|].
      destruct st as ((majority & n) & sum). simpl in H2. unfold aget. rewrite H2 by lia. exists st'. split; auto. split; auto.
      intros j Hj. rewrite HJ by lia. simpl. apply H2. lia.
    + rewrite E2. apply maj_result in H. destruct H as (-> & ->). auto.
Qed.

Lemma seq_SS a n : StronglySorted lt (seq a n).
Proof.
  revert a; induction n; simpl; intros; constructor; auto. rewrite Forall_forall. intros x Hx. apply in_seq in Hx. lia.
Qed.

Lemma majTo_In l i : In l (majTo i) <-> l < i /\ is_majority label rows l.
Proof.
  unfold majTo. rewrite filter_In, in_seq. unfold isMaj, is_majority, relevant.
  destruct (Nat.ltb_spec rows (2 * count (fun e => label e l) (seq 0 rows))); intuition; try lia; discriminate.
Qed.

Lemma devTo_deviates : devTo cols = count (deviates label (majTo cols)) (cells rows cols).
Proof.
  apply count_ext. intros (e & l) Hin. unfold deviates. simpl. f_equal. f_equal.
  unfold cells in Hin. apply in_flat_map in Hin. destruct Hin as (l1 & Hl1 & Hin). apply in_map_iff in Hin.
  destruct Hin as (e1 & [= -> ->] & _). apply in_seq in Hl1.
  destruct (isMaj l) eqn:M; symmetry.
  - apply mem_In. unfold majTo. apply filter_In. split; auto. apply in_seq. auto.
  - apply mem_false. unfold majTo. rewrite filter_In. intros (_ & H). congruence.
Qed.

End Majority.

(** The default rule predicts the majority labels. *)
Lemma majorityScores_spec majority indices : StronglySorted lt majority -> StronglySorted le indices ->
  majorityScores majority indices = Some (map (mem majority) indices).
Proof.
  intros HM HS. unfold majorityScores.
  set (body := fun (index : nat) (st : fwd * nat * list bool) => _).
  destruct (forL_inv (fun done st => let '(it, p, scores) := st in it = fwdAt majority p /\ scores = map (mem majority) done /\
      (forall r, indices = done ++ r -> Forall (fun x => p <= x) r)) body indices [] (fwdNew majority, 0, [])) as (((it & p) & scores) & E & (_ & H & _)).
  - split; auto. split; auto. intros r _. rewrite Forall_forall. intros. lia.
  - intros pre a r ((it & p) & scores) HP (-> & -> & HI). unfold body. simpl in HP.
    assert (Hpa := Forall_inv (HI (a :: r) HP)). simpl in Hpa. rewrite fwdAt_advance by auto. eexists. split; [reflexivity|].
    split; auto. split.
    + rewrite map_app. simpl. f_equal. f_equal. apply fwdAt_deref. auto.
    + intros r1 E1. rewrite <- app_assoc in E1. simpl in E1. rewrite HP in E1. apply app_inv_head in E1. injection E1 as <-.
      clear - HP HS. subst indices. induction pre as [|x pre IH]; simpl in HS; inversion HS; subst; auto.
  - rewrite E. subst. auto.
Qed.

(** ** C46 *)
Lemma majority_labels_exact :
  forall junk lm label, represents lm label -> length junk = lmCols lm ->
    exists majority, createStatistics junk lm = Some (majority, Z.of_nat (count (deviates label majority) (cells (lmRows lm) (lmCols lm)))) /\
      StronglySorted lt majority /\
      (forall l, In l majority <-> l < lmCols lm /\ is_majority label (lmRows lm) l) /\
      (forall indices, StronglySorted le indices -> exists scores, majorityScores majority indices = Some scores /\
         length scores = length indices /\
         forall i l, nth_error indices i = Some l -> (nth_error scores i = Some true <-> In l majority)).
Proof.
  intros junk lm label HR HJ. exists (majTo lm label (lmCols lm)).
  assert (HS : StronglySorted lt (majTo lm label (lmCols lm))) by (apply filter_SS, seq_SS).
  split; [|split; [|split]]; auto.
  - rewrite <- devTo_deviates. unfold createStatistics. destruct (lmValues lm) eqn:EV.
    + apply dense_spec; auto.
    + apply sparse_spec; auto.
  - intros l. apply majTo_In.
  - intros indices HI. exists (map (mem (majTo lm label (lmCols lm))) indices). split; [apply majorityScores_spec; auto|].
    split; [apply map_length|]. intros i l Hl. rewrite nth_error_map, Hl. simpl. rewrite <- mem_In.
    split; [intros [= ->]; auto|intros ->; auto].
Qed.

Lemma majority_labels_agree :
  forall junk1 junk2 lm1 lm2 label, represents lm1 label -> represents lm2 label ->
    lmRows lm1 = lmRows lm2 -> lmCols lm1 = lmCols lm2 -> length junk1 = lmCols lm1 -> length junk2 = lmCols lm2 ->
    createStatistics junk1 lm1 = createStatistics junk2 lm2.
Proof.
  intros junk1 junk2 lm1 lm2 label H1 H2 HR HC J1 J2.
  assert (forall junk lm, represents lm label -> length junk = lmCols lm ->
    createStatistics junk lm = Some (majTo lm label (lmCols lm), Z.of_nat (devTo lm label (lmCols lm)))) as HE.
  { intros junk lm HX HY. unfold createStatistics. destruct (lmValues lm) eqn:EV; [apply dense_spec|apply sparse_spec]; auto. }
  rewrite (HE junk1 lm1), (HE junk2 lm2) by auto. unfold majTo, devTo, isMaj, relevant. rewrite HR, HC. auto.
Qed.
