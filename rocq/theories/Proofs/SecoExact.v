(** Proofs that the confusion matrices used by separate-and-conquer algorithms are exact. *)
From Coq Require Import ZArith NArith Arith List Bool Sorted Lia Permutation.
From Verif Require Import Lib.Arr Model.SecoStatistics Spec.Seco Proofs.Seco.
Import ListNotations.
Open Scope nat_scope.

Section Exact.
Variables (lm : labelMatrix) (label : nat -> nat -> bool) (majority : list nat) (counts : list N) (weights : list Z).
Hypothesis HR : represents lm label.
Hypothesis HC : length counts = lmRows lm * lmCols lm.
Hypothesis HM : StronglySorted lt majority.
Hypothesis HW : length weights = lmRows lm.

Local Notation unc := (uncovered (lmCols lm) counts).
Local Notation exact := (exact_vector label unc (mem majority)).
Local Notation all := (seq 0 (lmCols lm)).

Lemma exact_zero labels : exact labels [] (repeat cmZero (length labels)).
Proof.
  split; [apply repeat_length|]. intros i l m Hl Hm t p.
  assert (In m (repeat cmZero (length labels))) by (eapply nth_error_In; eauto).
  apply repeat_spec in H. subst. destruct t, p; auto.
Qed.

Lemma exact_clear labels (v : list confusion) : length v = length labels -> exact labels [] (map (fun _ => cmZero) v).
Proof.
  intros HL. split; [rewrite map_length; auto|]. intros i l m Hl Hm t p.
  rewrite nth_error_map in Hm. destruct (nth_error v i); [|discriminate]. injection Hm as <-. destruct t, p; auto.
Qed.

Lemma weight_get i : i < lmRows lm -> aget weights i = Some (weightAt weights i).
Proof. intros. apply nth_error_nth'. lia. Qed.

Lemma exact_add e w c v : e < lmRows lm -> exact all c v ->
  exists v', vecAdd lm majority counts e w v = Some v' /\ exact all (c ++ [(e, w)]) v'.
Proof.
  intros He HE. destruct (vecAdd_spec lm label majority counts HR HC HM e w v He) as (v' & E & HB).
  - rewrite (proj1 HE), seq_length. auto.
  - exists v'. split; auto. eapply bumped_exact; eauto.
Qed.

Lemma exact_init c v : exact all c v ->
  exists v', initializeVector lm majority counts weights v = Some v' /\ exact all (c ++ allExamples weights) v'.
Proof.
  intros HE. unfold initializeVector.
  destruct (forN_inv (fun i v' => exact all (c ++ map (fun i => (i, weightAt weights i)) (seq 0 i)) v')
    (fun i v => let* w := aget weights i in vecAdd lm majority counts i w v) (length weights) 0 v) as (v' & E & H).
  - simpl. rewrite app_nil_r. auto.
  - intros i v0 Hi HE0. rewrite weight_get by lia.
    destruct (exact_add i (weightAt weights i) _ v0 ltac:(lia) HE0) as (v1 & E1 & H1). exists v1. split; auto.
    rewrite seq_S, map_app, app_assoc. auto.
  - exists v'. split; auto.
Qed.

Lemma exact_new : exists ws, newWeighted lm majority counts weights = Some ws /\
  exact all (allExamples weights) (wsTotal ws) /\ exact all (allExamples weights) (wsSubset ws).
Proof.
  assert (H0 : exact all [] (repeat cmZero (lmCols lm))).
  { assert (H := exact_zero all). rewrite seq_length in H. auto. }
  destruct (exact_init [] _ H0) as (v & E & H). unfold newWeighted. rewrite E. eexists. split; [reflexivity|]. simpl in *. auto.
Qed.

Lemma exact_step op c ws : op_in_range (lmRows lm) op -> exact all c (wsSubset ws) ->
  exists ws', wsStep lm majority counts weights op ws = Some ws' /\ wsTotal ws' = wsTotal ws /\
    exact all (trackStep weights c op) (wsSubset ws').
Proof.
  intros HO HE. destruct op as [|i|i]; simpl in *.
  - eexists. split; [reflexivity|]. split; auto. simpl. apply exact_clear. apply (proj1 HE).
  - rewrite weight_get by auto. destruct (exact_add i (weightAt weights i) c (wsSubset ws) HO HE) as (v & -> & H).
    eexists. split; [reflexivity|]. auto.
  - rewrite weight_get by auto. unfold vecRemove.
    destruct (exact_add i (- weightAt weights i)%Z c (wsSubset ws) HO HE) as (v & -> & H).
    eexists. split; [reflexivity|]. auto.
Qed.

Lemma exact_steps ops : forall c ws, Forall (op_in_range (lmRows lm)) ops -> exact all c (wsSubset ws) ->
  exists ws', forL ops (wsStep lm majority counts weights) ws = Some ws' /\ wsTotal ws' = wsTotal ws /\
    exact all (fold_left (trackStep weights) ops c) (wsSubset ws').
Proof.
  induction ops as [|op ops IH]; intros c ws HF HE; simpl.
  - eauto.
  - inversion HF; subst. destruct (exact_step op c ws) as (ws1 & -> & ET & H1'); auto.
    destruct (IH (trackStep weights c op) ws1) as (ws2 & -> & ET2 & H2'); auto. exists ws2. split; auto. split; auto. congruence.
Qed.

(** ** Subsets *)

Lemma exact_excluded excluded : forall c v, Forall (fun i => i < lmRows lm) excluded -> exact all c v ->
  exists v', forL excluded (fun i v => let* w := aget weights i in vecRemove lm majority counts i w v) v = Some v' /\
    exact all (c ++ negated (map (fun i => (i, weightAt weights i)) excluded)) v'.
Proof.
  induction excluded as [|i r IH]; intros c v HF HE; simpl.
  - rewrite app_nil_r. eauto.
  - inversion HF; subst. rewrite weight_get by auto. unfold vecRemove.
    destruct (exact_add i (- weightAt weights i)%Z c v) as (v1 & -> & H1'); auto.
    destruct (IH (c ++ [(i, (- weightAt weights i)%Z)]) v1) as (v2 & E2 & H2'); auto.
    exists v2. split; auto. rewrite <- app_assoc in H2'. auto.
Qed.

Lemma labelsOf_length o : length (labelsOf o) = numOutputs o.
Proof. destruct o; simpl; auto. apply seq_length. Qed.

Lemma vecPlus_spec labels a b ca cb : exact labels ca a -> exact labels cb b ->
  exists v, vecPlus a b = Some v /\ exact labels (ca ++ cb) v.
Proof.
  intros (HL1 & H1) (HL2 & H2). unfold vecPlus.
  destruct (forN_inv (fun i v => length v = length a /\ forall j x y, nth_error a j = Some x -> nth_error b j = Some y ->
      nth_error v j = Some (if j <? i then cmPlus x y else x))
    (fun i a => let* x := aget a i in let* y := aget b i in aset a i (cmPlus x y)) (length a) 0 a) as (v & E & HL & H).
  - split; auto.
  - intros i v Hi (HL & H). destruct (aget_Some a i) as (x & Ex); [lia|]. destruct (aget_Some b i) as (y & Ey); [lia|].
    unfold aget in *. assert (E1 := H i x y Ex Ey). rewrite (Nat.ltb_irrefl i) in E1. rewrite E1, Ey.
    rewrite aset_Some by lia. eexists. split; [reflexivity|]. rewrite upd_length. split; auto.
    intros j x1 y1 Hx Hy. rewrite nth_error_upd. destruct (Nat.eqb_spec i j).
    + subst j. destruct (Nat.ltb_spec i (length v)); [|lia]. simpl. destruct (Nat.ltb_spec i (S i)); [|lia]. congruence.
    + simpl. rewrite (H _ _ _ Hx Hy). destruct (Nat.ltb_spec j i), (Nat.ltb_spec j (S i)); auto; lia.
  - exists v. split; auto. split; [lia|]. intros i l m Hl Hm t p.
    assert (Hi : i < length v) by (apply nth_error_Some; congruence).
    destruct (aget_Some a i) as (x & Ex); [lia|]. destruct (aget_Some b i) as (y & Ey); [lia|].
    assert (E1 := H i x y Ex Ey). destruct (Nat.ltb_spec i (0 + length a)); [|lia]. rewrite Hm in E1. injection E1 as ->.
    rewrite weightOf_app, <- (H1 i l x Hl Ex), <- (H2 i l y Hl Ey). destruct t, p; reflexivity.
Qed.

Lemma nth_labels o i l : valid_outputs (lmCols lm) o -> nth_error (labelsOf o) i = Some l ->
  l < lmCols lm /\ match o with AllOutputs _ => Some i | SomeOutputs indices => aget indices i end = Some l.
Proof.
  intros HO Hl. destruct o as [n|indices]; simpl in *.
  - subst. apply seq_nth_error in Hl. destruct Hl as (-> & Hl). auto.
  - destruct HO as (_ & HF). split; auto. rewrite Forall_forall in HF. apply HF. eapply nth_error_In; eauto.
Qed.

Lemma vecDifference_spec o tmp first second c1 c2 : valid_outputs (lmCols lm) o -> length tmp = numOutputs o ->
  exact all c1 first -> exact (labelsOf o) c2 second ->
  exists v, vecDifference tmp first second o = Some v /\ exact (labelsOf o) (c1 ++ negated c2) v.
Proof.
  intros HO HT (HL1 & H1) (HL2 & H2). rewrite seq_length in HL1. rewrite labelsOf_length in HL2. unfold vecDifference.
  set (body := fun (i : nat) (tmp : list confusion) => _).
  destruct (forN_inv (fun i v => length v = length tmp /\ forall j l x y, j < i -> nth_error (labelsOf o) j = Some l ->
      nth_error first l = Some x -> nth_error second j = Some y -> nth_error v j = Some (cmMinus x y))
    body (length tmp) 0 tmp) as (v & E & HL & H).
  - split; auto. intros; lia.
  - intros i v Hi (HL & H). unfold body. destruct (aget_Some (labelsOf o) i) as (l & El); [rewrite labelsOf_length; lia|].
    destruct (nth_labels o i l HO El) as (Hl & ->).
    destruct (aget_Some first l) as (x & Ex); [lia|]. destruct (aget_Some second i) as (y & Ey); [lia|]. rewrite Ex, Ey.
    rewrite aset_Some by lia. eexists. split; [reflexivity|]. rewrite upd_length. split; auto. unfold aget in *.
    intros j l1 x1 y1 Hj Hl1 Hx Hy. rewrite nth_error_upd. destruct (Nat.eqb_spec i j).
    + subst j. destruct (Nat.ltb_spec i (length v)); [|lia]. simpl. congruence.
    + simpl. apply (H j l1); auto. lia.
  - exists v. split; auto. split; [rewrite labelsOf_length; lia|]. intros i l m Hl Hm t p.
    assert (Hi : i < length v) by (apply nth_error_Some; congruence).
    destruct (nth_labels o i l HO Hl) as (Hc & _).
    destruct (aget_Some first l) as (x & Ex); [lia|]. destruct (aget_Some second i) as (y & Ey); [lia|].
    assert (E1 := H i l x y ltac:(lia) Hl Ex Ey). rewrite Hm in E1. injection E1 as ->.
    assert (Hs : nth_error all l = Some l).
    { rewrite (nth_error_nth' _ 0) by (rewrite seq_length; auto). rewrite seq_nth; auto. }
    rewrite weightOf_app, weightOf_negated, <- (H1 l l x Hs Ex), <- (H2 i l y Hl Ey). destruct t, p; reflexivity.
Qed.

(** The state of a subset. *)
Definition subset_ok (o : outputs) (hasReset : Prop) (a : contributions * contributions) (s : subset) : Prop :=
  exact (labelsOf o) (fst a) (ssSum s) /\ length (ssTmp s) = numOutputs o /\
  match ssAcc s with Some acc => hasReset /\ exact (labelsOf o) (snd a) acc | None => ~ hasReset /\ snd a = [] end.

Lemma subset_step o op hr a s : valid_outputs (lmCols lm) o -> sop_in_range (lmRows lm) op -> subset_ok o hr a s ->
  exists s', ssStep lm majority counts weights o op s = Some s' /\ ssCoverable s' = ssCoverable s /\
    subset_ok o (hr \/ op = ResetSubset) (subsetStep weights a op) s'.
Proof.
  intros HO HI (H1 & H2 & H3). destruct op as [i|]; simpl in *.
  - rewrite weight_get by auto.
    destruct (addToSubset_spec lm label majority counts HR HC HM o i (weightAt weights i) (ssSum s) HI HO) as (v & -> & HB).
    { rewrite (proj1 H1), labelsOf_length. auto. }
    eexists. split; [reflexivity|]. split; auto. split; [|split]; simpl; auto.
    + eapply bumped_exact; eauto.
    + destruct (ssAcc s).
      * split; try tauto.
      * split; try tauto. intros [Hh|Hh]; try tauto. discriminate.
  - destruct (ssAcc s) as [acc|].
    + destruct H3 as (Hh & H3). destruct (vecPlus_spec _ _ _ _ _ H3 H1) as (v & -> & Hv).
      eexists. split; [reflexivity|]. split; auto. split; [|split]; simpl; auto. apply exact_clear. apply (proj1 H1).
    + destruct H3 as (Hh & H3). eexists. split; [reflexivity|]. split; auto. split; [|split]; simpl; auto.
      * apply exact_clear. apply (proj1 H1).
      * rewrite H3. simpl. auto.
Qed.

Lemma subset_ok_iff o (h1 h2 : Prop) a s : (h1 <-> h2) -> subset_ok o h1 a s -> subset_ok o h2 a s.
Proof. intros HI (H1 & H2 & H3). split; [|split]; auto. destruct (ssAcc s); tauto. Qed.

Lemma subset_steps o ops : forall hr a s, valid_outputs (lmCols lm) o -> Forall (sop_in_range (lmRows lm)) ops -> subset_ok o hr a s ->
  exists s', forL ops (ssStep lm majority counts weights o) s = Some s' /\ ssCoverable s' = ssCoverable s /\
    subset_ok o (hr \/ In ResetSubset ops) (fold_left (subsetStep weights) ops a) s'.
Proof.
  induction ops as [|op ops IH]; intros hr a s HO HF HS; simpl.
  - exists s. split; auto. split; auto. eapply subset_ok_iff; [|eauto]. tauto.
  - inversion HF; subst. destruct (subset_step o op hr a s) as (s1 & -> & E1 & HS1); auto.
    destruct (IH _ _ s1 HO H2 HS1) as (s2 & -> & E2 & HS2). exists s2. split; auto. split; [congruence|].
    eapply subset_ok_iff; [|exact HS2]. intuition.
Qed.

Lemma exact_run ops : Forall (op_in_range (lmRows lm)) ops ->
  exists ws0 ws, newWeighted lm majority counts weights = Some ws0 /\
    forL ops (wsStep lm majority counts weights) ws0 = Some ws /\
    exact all (allExamples weights) (wsTotal ws) /\ exact all (tracked weights ops) (wsSubset ws).
Proof.
  intros HF. destruct exact_new as (ws0 & E0 & H1 & H2). destruct (exact_steps ops _ ws0 HF H2) as (ws & E & ET & H).
  exists ws0, ws. split; [exact E0|]. split; [exact E|]. split; [rewrite ET; exact H1|exact H].
Qed.

Lemma exact_subset_run ops ws excluded o sops : exact all (tracked weights ops) (wsSubset ws) ->
  Forall (fun i => i < lmRows lm) excluded -> valid_outputs (lmCols lm) o -> Forall (sop_in_range (lmRows lm)) sops ->
  exists s0 s, newSubset lm majority counts weights ws excluded o = Some s0 /\
    forL sops (ssStep lm majority counts weights o) s0 = Some s /\
    exact all (coverable weights ops excluded) (subsetSum ws s) /\
    subset_ok o (In ResetSubset sops) (added weights sops) s.
Proof.
  intros HE HX HO HS.
  assert (exists s0, newSubset lm majority counts weights ws excluded o = Some s0 /\
     exact all (coverable weights ops excluded) (subsetSum ws s0) /\ subset_ok o False ([], []) s0) as (s0 & E0 & H0 & H1).
  { assert (H0 : exact (labelsOf o) [] (repeat cmZero (numOutputs o))) by (rewrite <- labelsOf_length; apply exact_zero).
    unfold newSubset, coverable. destruct excluded as [|i r] eqn:EX.
    - eexists. split; [reflexivity|]. split.
      + simpl. rewrite app_nil_r. auto.
      + split; [|split]; simpl; auto. apply repeat_length.
    - rewrite <- EX in *. destruct (exact_excluded excluded _ _ HX HE) as (v & -> & Hv).
      eexists. split; [reflexivity|]. split; auto. split; [|split]; simpl; auto. apply repeat_length. }
  destruct (subset_steps o sops _ _ s0 HO HS H1) as (s & E & EC & H). exists s0, s. split; auto. split; auto. split.
  - unfold subsetSum in *. rewrite EC. auto.
  - eapply subset_ok_iff; [|exact H]. tauto.
Qed.

Lemma scored_exact ops ws excluded o sops s k : exact all (coverable weights ops excluded) (subsetSum ws s) ->
  valid_outputs (lmCols lm) o -> subset_ok o (In ResetSubset sops) (added weights sops) s ->
  (accumulates k -> In ResetSubset sops) ->
  exists v, scoredVector o ws s k = Some v /\ exact (labelsOf o) (scoredContributions weights ops excluded sops k) v.
Proof.
  intros HE HO (H1 & H2 & H3) HK. destruct k; simpl in *.
  - eauto.
  - destruct (ssAcc s); [destruct H3; eauto|]. exfalso. destruct H3; auto.
  - apply vecDifference_spec; auto.
  - destruct (ssAcc s); [|exfalso; destruct H3; auto]. apply vecDifference_spec; auto. tauto.
Qed.

End Exact.

(** ** C47 *)
Lemma confusion_matrices_exact :
  forall lm label majority counts weights, represents lm label -> length counts = lmRows lm * lmCols lm ->
    StronglySorted lt majority -> length weights = lmRows lm ->
    forall ops, Forall (op_in_range (lmRows lm)) ops ->
    exists ws0 ws, newWeighted lm majority counts weights = Some ws0 /\
      forL ops (wsStep lm majority counts weights) ws0 = Some ws /\
      exact_vector label (uncovered (lmCols lm) counts) (mem majority) (seq 0 (lmCols lm)) (allExamples weights) (wsTotal ws) /\
      forall excluded o sops, Forall (fun i => i < lmRows lm) excluded -> valid_outputs (lmCols lm) o ->
        Forall (sop_in_range (lmRows lm)) sops ->
        exists s0 s, newSubset lm majority counts weights ws excluded o = Some s0 /\
          forL sops (ssStep lm majority counts weights o) s0 = Some s /\
          forall k, (accumulates k -> In ResetSubset sops) ->
            exists v, scoredVector o ws s k = Some v /\
              exact_vector label (uncovered (lmCols lm) counts) (mem majority) (labelsOf o)
                (scoredContributions weights ops excluded sops k) v.
Proof.
  intros lm label majority counts weights HR HC HM HW ops HF.
  destruct (exact_run lm label majority counts weights HR HC HM HW ops HF) as (ws0 & ws & E0 & E & HT & HS).
  exists ws0, ws. split; [exact E0|]. split; [exact E|]. split; [exact HT|]. intros excluded o sops HX HO HSo.
  destruct (exact_subset_run lm label majority counts weights HR HC HM HW ops ws excluded o sops HS HX HO HSo)
    as (s0 & s & Es0 & Es & HE & HOK).
  exists s0, s. split; [exact Es0|]. split; [exact Es|]. intros k HK.
  eapply scored_exact; eauto.
Qed.
