(** Parallel prediction: all interleavings yield the predictions of a sequential run. *)
From Coq Require Import ZArith NArith Arith List Bool Lia Permutation.
From Verif Require Import Lib.Arr Model.Rules Model.Prediction Spec.Rules Spec.Interleaving
  Proofs.Rules Proofs.Prediction Proofs.Interleaving.
Import ListNotations.
Open Scope nat_scope.

Definition actionThread (a : action) : nat :=
  match a with AZero t | AScores t _ | ATransform t _ | ACount t _ => t end.
Definition actionExample (a : action) : option nat :=
  match a with AZero _ => None | AScores _ i | ATransform _ i | ACount _ i => Some i end.

Definition sumN (l : list N) : N := fold_right N.add 0%N l.

Lemma reduceCounts_sum l : reduceCounts l = (sumN l mod 2 ^ 32)%N.
Proof.
  unfold reduceCounts.
  assert (G: forall a, fold_left (fun a b => (a + b) mod 2 ^ 32)%N l (a mod 2 ^ 32)%N = ((a + sumN l) mod 2 ^ 32)%N).
  { induction l as [|x l IH]; intros a; simpl fold_left; simpl sumN.
    - rewrite N.add_0_r. auto.
    - rewrite N.add_mod_idemp_l by discriminate. rewrite IH. f_equal. lia. }
  specialize (G 0%N). exact G.
Qed.

Lemma sumN_upd l t c x : nth_error l t = Some c -> (sumN (upd l t x) + c = sumN l + x)%N.
Proof.
  revert t. induction l as [|a l IH]; intros [|t] H; simpl in *; try discriminate.
  - injection H as ->. lia.
  - apply IH in H. lia.
Qed.

Lemma sumN_repeat0 k : sumN (repeat 0%N k) = 0%N.
Proof. induction k; simpl; auto. Qed.

Lemma sumN_perm l1 l2 : Permutation l1 l2 -> sumN l1 = sumN l2.
Proof. induction 1; simpl; lia. Qed.

Lemma sumN_app a b : sumN (a ++ b) = (sumN a + sumN b)%N.
Proof. induction a; simpl; lia. Qed.

Lemma NoDup_remove_mid {A} (x : A) l1 l2 l3 : NoDup (l1 ++ l2 ++ l3) -> In x l1 -> In x l2 -> False.
Proof.
  intros H H1 H2. apply in_split in H1. destruct H1 as (a & b & ->).
  rewrite <- app_assoc in H. simpl in H. apply NoDup_remove_2 in H. apply H. rewrite !in_app_iff. tauto.
Qed.

Section Parallel.
Context {V O : Type} (add : V -> V -> V) (zero : V) (transform : list V -> O) (size : O -> N).
Variables (junk : fval) (m : featureMatrix) (it stop : rlIter (rule V)).
Notation exec := (execAction add zero transform size junk m it stop).

Lemma actions_commute a b :
  actionThread a <> actionThread b ->
  (forall i, actionExample a = Some i -> actionExample b <> Some i) ->
  commute exec a b.
Proof.
  intros Ht Hi [sc cn ou].
  destruct a as [t|t i|t i|t i], b as [u|u j|u j|u j]; simpl in Ht, Hi;
    try (assert (Hij: i <> j) by (intros ->; eapply Hi; reflexivity));
    unfold execAction, aget, aset; simpl;
    repeat (
      rewrite ?upd_length, ?nth_error_upd_neq by congruence;
      match goal with
      | H : nth_error ?l ?k = _ |- context [nth_error ?l ?k] => rewrite H; simpl
      | H : (?k <? ?l) = _ |- context [?k <? ?l] => rewrite H; simpl
      | H : aggregateScores add junk m it stop ?k ?l = _ |- context [aggregateScores add junk m it stop ?k ?l] =>
          rewrite H; simpl
      | |- context [nth_error ?l ?k] => is_var l; destruct (nth_error l k) eqn:?; simpl
      | |- context [aggregateScores add junk m it stop ?k ?l] =>
          destruct (aggregateScores add junk m it stop k l) eqn:?; simpl
      | |- context [?k <? length ?l] => is_var l; destruct (k <? length l) eqn:?; simpl
      end);
    auto; try (rewrite upd_comm by congruence; auto).
Qed.

(** ** The sequential run *)

Variables (rules : list (rule V)) (numOutputs : nat) (row : nat -> list fval) (scores : nat -> list V).
Hypothesis Hloop : loops_over it stop rules.
Hypothesis H32 : (N.of_nat (length rules) < 2 ^ 32)%N.
Hypothesis Hrows : forall i, i < fmRows m -> example_row m i (row i) /\
  score_of add (fun r => coversDense (row i) (fst r)) rules (repeat zero numOutputs) = Some (scores i).

Lemma example_ok t i s r c :
  i < fmRows m -> nth_error (psScores s) t = Some r -> length r = numOutputs -> nth_error (psCount s) t = Some c ->
  i < length (psOut s) ->
  forL (exampleProgram t i) exec s =
  Some (mkPState (upd (psScores s) t (scores i)) (upd (psCount s) t ((c + size (transform (scores i))) mod 2 ^ 32)%N)
          (upd (psOut s) i (transform (scores i)))).
Proof.
  intros Hi Hr Hl Hc Ho. destruct (Hrows i Hi) as (Hrow & Hs).
  assert (Ht: t < length (psScores s)) by (apply (proj1 (nth_error_Some _ _)); congruence).
  assert (Htc: t < length (psCount s)) by (apply (proj1 (nth_error_Some _ _)); congruence).
  destruct s as [sc cn ou]. simpl psScores in *. simpl psCount in *. simpl psOut in *.
  unfold exampleProgram. cbn [forL].
  unfold execAction at 1. unfold aget. cbn [psScores psCount psOut]. rewrite Hr, aset_Some by auto.
  unfold execAction at 1. unfold aget. cbn [psScores psCount psOut]. rewrite nth_error_upd_eq by auto.
  rewrite (aggregate_ok add junk m it stop rules i (row i)) by auto. rewrite Hl, Hs.
  rewrite aset_Some by (rewrite upd_length; auto). rewrite upd_upd.
  unfold execAction at 1. unfold aget. cbn [psScores psCount psOut]. rewrite nth_error_upd_eq by auto.
  rewrite aset_Some by auto.
  unfold execAction at 1. unfold aget. cbn [psScores psCount psOut]. rewrite Hc, nth_error_upd_eq by auto.
  rewrite aset_Some by auto. reflexivity.
Qed.

Lemma scores_length i : i < fmRows m -> length (scores i) = numOutputs.
Proof.
  intros Hi. destruct (Hrows i Hi) as (_ & H). apply score_of_length in H. rewrite repeat_length in H. auto.
Qed.

Lemma pairs_ok pairs s :
  Forall (fun '(t, i) => t < length (psScores s) /\ i < fmRows m) pairs ->
  length (psCount s) = length (psScores s) -> Forall (fun r => length r = numOutputs) (psScores s) ->
  length (psOut s) = fmRows m -> NoDup (map snd pairs) ->
  exists s', forL (flat_map (fun '(t, i) => exampleProgram t i) pairs) exec s = Some s' /\
    length (psOut s') = fmRows m /\
    (forall i, In i (map snd pairs) -> nth_error (psOut s') i = Some (transform (scores i))) /\
    (forall i, ~ In i (map snd pairs) -> nth_error (psOut s') i = nth_error (psOut s) i) /\
    reduceCounts (psCount s') =
      ((sumN (psCount s) + sumN (map (fun i => size (transform (scores i))) (map snd pairs))) mod 2 ^ 32)%N.
Proof.
  revert s. induction pairs as [|[t i] pairs IH]; intros s Hp Hc Hs Ho Hnd.
  - exists s. split; [reflexivity|]. split; [auto|]. split; [intros i []|]. split; [auto|]. rewrite reduceCounts_sum. simpl. f_equal. lia.
  - inversion Hp as [|? ? Hti Hp']; subst. destruct Hti as [Ht Hi]. simpl in Hnd. inversion Hnd as [|? ? Hni Hnd']; subst.
    destruct (aget_Some (psScores s) t Ht) as (r & Hr). destruct (aget_Some (psCount s) t ltac:(lia)) as (c & Hcc).
    unfold aget in Hr, Hcc.
    assert (Hlr: length r = numOutputs).
    { rewrite Forall_forall in Hs. apply Hs. eapply nth_error_In; eauto. }
    cbn [flat_map]. rewrite forL_app, (example_ok t i s r c) by (auto; lia).
    match goal with |- context [forL _ _ ?s1] => destruct (IH s1) as (s' & -> & L & E & F & R) end.
    + cbn [psScores]. eapply Forall_impl; [|exact Hp']. intros [t' i']. rewrite upd_length. auto.
    + cbn [psScores psCount]. rewrite !upd_length. auto.
    + cbn [psScores]. rewrite Forall_forall in *. intros x Hx. apply upd_In in Hx. destruct Hx as [->|Hx]; auto.
      apply scores_length. auto.
    + cbn [psOut]. rewrite upd_length. auto.
    + auto.
    + exists s'. split; [reflexivity|]. split; [auto|]. split.
      * intros j [<-|Hj]; auto. simpl snd. rewrite F by auto. cbn [psOut]. apply nth_error_upd_eq. lia.
      * split.
        { intros j Hj. simpl in Hj. rewrite F by tauto. cbn [psOut]. apply nth_error_upd_neq. tauto. }
        rewrite R. cbn [psCount map snd sumN fold_right].
        set (x := size (transform (scores i))).
        pose proof (sumN_upd _ _ _ ((c + x) mod 2 ^ 32)%N Hcc) as E1.
        pose proof (N.div_mod (c + x) (2 ^ 32) ltac:(discriminate)) as E2.
        set (M := (2 ^ 32)%N) in *. assert (HM: M <> 0%N) by discriminate. clearbody M.
        set (X := sumN (map _ _)). set (A := sumN (upd _ _ _)) in *. fold x.
        change (fold_right N.add 0%N (map (fun i0 => size (transform (scores i0))) (map snd pairs))) with X.
        assert (E3: (sumN (psCount s) + (x + X) = A + X + ((c + x) / M) * M)%N) by lia.
        rewrite E3, N.mod_add by auto. reflexivity.
Qed.

(** ** All interleavings *)

Definition tagged (k : nat) (assignment : list (list nat)) : list (nat * list nat) :=
  combine (seq k (length assignment)) assignment.
Definition pairs_of (k : nat) (assignment : list (list nat)) : list (nat * nat) :=
  flat_map (fun '(t, ex) => map (pair t) ex) (tagged k assignment).

Lemma pairs_snd assignment : forall k, map snd (pairs_of k assignment) = concat assignment.
Proof.
  induction assignment as [|ex a IH]; intros k; [reflexivity|].
  unfold pairs_of, tagged. cbn [length seq combine flat_map concat].
  rewrite map_app. f_equal.
  - rewrite map_map. simpl. apply map_id.
  - apply (IH (S k)).
Qed.

Lemma pairs_fst assignment : forall k t i, In (t, i) (pairs_of k assignment) -> k <= t < k + length assignment.
Proof.
  induction assignment as [|ex a IH]; intros k t i H; [destruct H|].
  unfold pairs_of, tagged in H. simpl in H. rewrite in_app_iff in H. destruct H as [H|H].
  - apply in_map_iff in H. destruct H as (x & E & _). injection E as -> _. simpl. lia.
  - apply (IH (S k)) in H. simpl. lia.
Qed.

Lemma programs_concat assignment : forall k,
  concat (map (fun '(t, examples) => threadProgram t examples) (tagged k assignment)) =
  flat_map (fun '(t, i) => exampleProgram t i) (pairs_of k assignment).
Proof.
  induction assignment as [|ex a IH]; intros k; [reflexivity|].
  unfold tagged. cbn [length seq combine map concat].
  specialize (IH (S k)). unfold tagged in IH. rewrite IH.
  unfold pairs_of at 2, tagged. cbn [length seq combine flat_map]. rewrite flat_map_app. f_equal.
  unfold threadProgram. clear. induction ex as [|x ex IHx]; [reflexivity|]. cbn [flat_map map]. rewrite IHx. reflexivity.
Qed.

Lemma program_actions t examples a : In a (threadProgram t examples) ->
  actionThread a = t /\ forall i, actionExample a = Some i -> In i examples.
Proof.
  unfold threadProgram. rewrite in_flat_map. intros (x & Hx & Ha). unfold exampleProgram in Ha. simpl in Ha.
  destruct Ha as [<-|[<-|[<-|[<-|[]]]]]; simpl; split; auto; intros i [=]; subst; auto.
Qed.

Lemma programs_split assignment : forall k ps1 p ps2,
  map (fun '(t, examples) => threadProgram t examples) (tagged k assignment) = ps1 ++ p :: ps2 ->
  exists a1 ex a2, assignment = a1 ++ ex :: a2 /\ length a1 = length ps1 /\
    ps1 = map (fun '(t, examples) => threadProgram t examples) (tagged k a1) /\
    p = threadProgram (k + length a1) ex.
Proof.
  induction assignment as [|x a IH]; intros k ps1 p ps2 H; [destruct ps1; discriminate|].
  unfold tagged in H. cbn [length seq combine map] in H. destruct ps1 as [|q ps1].
  - injection H as H _. exists [], x, a. split; auto. split; auto. split; auto. simpl. rewrite Nat.add_0_r. auto.
  - injection H as H1 H2. destruct (IH (S k) ps1 p ps2 H2) as (a1 & ex & a2 & -> & L & E1 & E2).
    exists (x :: a1), ex, a2. split; auto. split; [simpl; auto|]. split.
    + subst q. unfold tagged. simpl. f_equal. exact E1.
    + simpl. rewrite E2. f_equal. lia.
Qed.

Lemma C44_lemma assignment interleaved buffers out :
  Permutation (concat assignment) (seq 0 (fmRows m)) ->
  length buffers = length assignment -> Forall (fun r => length r = numOutputs) buffers ->
  length out = fmRows m ->
  interleaving (threadPrograms assignment) interleaved ->
  exists s', execAll add zero transform size junk m it stop interleaved
      (mkPState buffers (repeat 0%N (length assignment)) out) = Some s' /\
    psOut s' = map (fun i => transform (scores i)) (seq 0 (fmRows m)) /\
    reduceCounts (psCount s') =
      (fold_right N.add 0%N (map (fun i => size (transform (scores i))) (seq 0 (fmRows m))) mod 2 ^ 32)%N.
Proof.
  intros Hperm Hb Hbl Ho Hil.
  assert (Hnd: NoDup (concat assignment)).
  { eapply Permutation_NoDup; [symmetry; exact Hperm|apply seq_NoDup]. }
  unfold execAll. rewrite (interleaving_run exec (threadPrograms assignment) interleaved Hil).
  2:{ intros ps1 p ps2 a b E Ha Hb'. unfold threadPrograms in E. fold (tagged 0 assignment) in E.
      destruct (programs_split assignment 0 ps1 p ps2 E) as (a1 & ex & a2 & -> & L & -> & ->).
      apply program_actions in Ha. destruct Ha as (Ta & Xa).
      rewrite programs_concat in Hb'. apply in_flat_map in Hb'. destruct Hb' as ([t i] & Hti & Hbp).
      assert (Hi: In i (concat a1)).
      { rewrite <- (pairs_snd a1 0). apply in_map_iff. exists (t, i). auto. }
      apply pairs_fst in Hti.
      assert (Hb2: In b (threadProgram t [i])). { unfold threadProgram. cbn [flat_map]. rewrite app_nil_r. auto. }
      apply program_actions in Hb2. destruct Hb2 as (Tb & Xb).
      apply actions_commute.
      - lia.
      - intros j Hj Hj'. apply Xb in Hj. destruct Hj as [<-|[]]. apply Xa in Hj'.
        rewrite concat_app in Hnd. simpl in Hnd. apply NoDup_remove_mid with (x := i) in Hnd; auto. }
  unfold threadPrograms. fold (tagged 0 assignment). rewrite programs_concat.
  destruct (pairs_ok (pairs_of 0 assignment) (mkPState buffers (repeat 0%N (length assignment)) out))
    as (s' & -> & L & E & _ & R).
  - apply Forall_forall. intros [t i] H. cbn [psScores].
    assert (Hi: In i (concat assignment)).
    { rewrite <- (pairs_snd assignment 0). apply in_map_iff. exists (t, i). auto. }
    apply pairs_fst in H. split; [lia|].
    eapply Permutation_in in Hi; [|exact Hperm]. apply in_seq in Hi. lia.
  - cbn [psScores psCount]. rewrite repeat_length. auto.
  - auto.
  - auto.
  - rewrite pairs_snd. auto.
  - exists s'. split; [reflexivity|]. rewrite pairs_snd in E, R. split.
    + apply nth_error_ext. intros i. destruct (Nat.lt_ge_cases i (fmRows m)) as [Hi|Hi].
      * rewrite nth_error_map_seq by auto. apply E. eapply Permutation_in; [symmetry; exact Hperm|].
        apply in_seq. lia.
      * transitivity (@None O); [|symmetry]; apply nth_error_None; rewrite ?map_length, ?seq_length; lia.
    + rewrite R. cbn [psCount]. f_equal.
      assert (sumN (repeat 0%N (length assignment)) = 0%N) as ->.
      { apply sumN_repeat0. }
      rewrite N.add_0_l. apply sumN_perm. apply Permutation_map. exact Hperm.
Qed.
End Parallel.

(** ** Scores that are accumulated into the rows of the result *)

Lemma accumulate_any_order {V} (add : V -> V -> V) junk m it stop rules (row : nat -> list fval) (res : nat -> list V)
  (examples : list nat) matrix :
  loops_over it stop rules -> (N.of_nat (length rules) < 2 ^ 32)%N -> length matrix = fmRows m ->
  (forall i, i < fmRows m -> example_row m i (row i) /\
     exists s, nth_error matrix i = Some s /\
       score_of add (fun r => coversDense (row i) (fst r)) rules s = Some (res i)) ->
  Permutation examples (seq 0 (fmRows m)) ->
  forL examples (fun i matrix =>
    let* row := aget matrix i in
    let* row := aggregateScores add junk m it stop i row in
    aset matrix i row) matrix = accumulateAll add junk m it stop matrix.
Proof.
  intros Hl Hlen Hm H Hp.
  rewrite (accumulateAll_ok add junk m it stop rules row res matrix Hl Hlen Hm H).
  assert (Hnd: NoDup examples). { eapply Permutation_NoDup; [symmetry; exact Hp|apply seq_NoDup]. }
  match goal with |- forL ?l ?b ?st = _ =>
    pose proof (forL_inv (fun done mat => length mat = fmRows m /\
      (forall i, In i done -> nth_error mat i = Some (res i)) /\
      (forall i, ~ In i done -> nth_error mat i = nth_error matrix i)) b l [] st) as K end.
  destruct K as (mat & -> & L & E & _).
  - split; auto. split; auto. intros i [].
  - intros p j r mat Eq (L & E & F). simpl in Eq.
    assert (Hj: j < fmRows m).
    { assert (In j examples) by (rewrite Eq, in_app_iff; right; left; auto).
      eapply Permutation_in in H0; [|exact Hp]. apply in_seq in H0. lia. }
    assert (Hnj: ~ In j p).
    { rewrite Eq in Hnd. apply NoDup_remove_2 in Hnd. rewrite in_app_iff in Hnd. tauto. }
    destruct (H j Hj) as (Hr & s & Hs & Hsc). unfold aget. rewrite F, Hs by auto.
    rewrite (aggregate_ok add junk m it stop rules j (row j) s) by auto. rewrite Hsc.
    rewrite aset_Some by lia. eexists. split; [reflexivity|]. rewrite upd_length. split; auto. split.
    + intros i Hi. rewrite in_app_iff in Hi. destruct (Nat.eq_dec j i) as [<-|Hne].
      * apply nth_error_upd_eq. lia.
      * rewrite nth_error_upd_neq by auto. apply E. destruct Hi as [Hi|[Hi|[]]]; auto. contradiction.
    + intros i Hi. rewrite in_app_iff in Hi. rewrite nth_error_upd_neq; [|intros ->; simpl in Hi; tauto].
      apply F. tauto.
  - f_equal. simpl in E. apply nth_error_ext. intros i. destruct (Nat.lt_ge_cases i (fmRows m)) as [Hi|Hi].
    + rewrite nth_error_map_seq by auto. apply E. eapply Permutation_in; [symmetry; exact Hp|]. apply in_seq. lia.
    + transitivity (@None (list V)); [|symmetry]; apply nth_error_None; rewrite ?map_length, ?seq_length; lia.
Qed.

(** ** Statements about rule lists *)

Lemma used_loops {R} (l : ruleList R) maxRules : rlNumUsed l <= rlGetNumRules l ->
  loops_over (rlUsedBegin l maxRules) (rlUsedEnd l maxRules)
    (expected_order (rlDefault l) (rlRules l) (rlPrecedence l) (limitRules maxRules (rlGetNumUsed l))) /\
  length (expected_order (rlDefault l) (rlRules l) (rlPrecedence l) (limitRules maxRules (rlGetNumUsed l))) <=
    rlGetNumRules l.
Proof.
  intros H. destruct (rlGetNumUsed_ok l H) as (H1 & H2).
  destruct (limit_ok l maxRules _ H1 H2) as (H3 & H4).
  pose proof (expected_length l _ H3 H4) as E. split; [|lia].
  pose proof (loops_over_range l 0 _ _ H3 H4 (conj (Nat.le_0_l _) (le_n _))) as L.
  rewrite Nat.sub_0_r in L. simpl skipn in L. rewrite firstn_all2 in L by lia. exact L.
Qed.

Lemma C19_used {V} (add : V -> V -> V) entries sparseValue junk row (l : ruleList (rule V)) maxRules scores :
  same_row (length junk) sparseValue entries row ->
  rlNumUsed l <= rlGetNumRules l -> (N.of_nat (rlGetNumRules l) < 2 ^ 32)%N ->
  applyRulesSparse add entries sparseValue junk (rlUsedBegin l maxRules) (rlUsedEnd l maxRules) scores =
  applyRulesDense add row (rlUsedBegin l maxRules) (rlUsedEnd l maxRules) scores.
Proof.
  intros Hs H H32. destruct (used_loops l maxRules H) as (L & E).
  eapply C19_sparse_lemma; eauto. lia.
Qed.

Lemma C44_used {V O} (add : V -> V -> V) zero (transform : list V -> O) size junk m (l : ruleList (rule V)) maxRules
  numOutputs (row : nat -> list fval) (scores : nat -> list V) assignment interleaved buffers out :
  rlNumUsed l <= rlGetNumRules l -> (N.of_nat (rlGetNumRules l) < 2 ^ 32)%N ->
  (forall i, i < fmRows m -> example_row m i (row i) /\
     score_of add (fun r => coversDense (row i) (fst r))
       (expected_order (rlDefault l) (rlRules l) (rlPrecedence l) (limitRules maxRules (rlGetNumUsed l)))
       (repeat zero numOutputs) = Some (scores i)) ->
  Permutation (concat assignment) (seq 0 (fmRows m)) ->
  length buffers = length assignment -> Forall (fun r => length r = numOutputs) buffers ->
  length out = fmRows m ->
  interleaving (threadPrograms assignment) interleaved ->
  exists s', execAll add zero transform size junk m (rlUsedBegin l maxRules) (rlUsedEnd l maxRules) interleaved
      (mkPState buffers (repeat 0%N (length assignment)) out) = Some s' /\
    psOut s' = map (fun i => transform (scores i)) (seq 0 (fmRows m)) /\
    reduceCounts (psCount s') =
      (fold_right N.add 0%N (map (fun i => size (transform (scores i))) (seq 0 (fmRows m))) mod 2 ^ 32)%N.
Proof.
  intros H H32 Hr. destruct (used_loops l maxRules H) as (L & E).
  eapply C44_lemma; eauto. lia.
Qed.

Lemma C44_scores {V} (add : V -> V -> V) zero junk m (l : ruleList (rule V)) maxRules numOutputs
  (row : nat -> list fval) (scores : nat -> list V) examples :
  rlNumUsed l <= rlGetNumRules l -> (N.of_nat (rlGetNumRules l) < 2 ^ 32)%N ->
  (forall i, i < fmRows m -> example_row m i (row i) /\
     score_of add (fun r => coversDense (row i) (fst r))
       (expected_order (rlDefault l) (rlRules l) (rlPrecedence l) (limitRules maxRules (rlGetNumUsed l)))
       (repeat zero numOutputs) = Some (scores i)) ->
  Permutation examples (seq 0 (fmRows m)) ->
  forL examples (fun i matrix =>
    let* row := aget matrix i in
    let* row := aggregateScores add junk m (rlUsedBegin l maxRules) (rlUsedEnd l maxRules) i row in
    aset matrix i row) (repeat (repeat zero numOutputs) (fmRows m)) = Some (map scores (seq 0 (fmRows m))) /\
  predictScores add zero junk m l numOutputs maxRules = Some (map scores (seq 0 (fmRows m))).
Proof.
  intros H H32 Hr Hp. destruct (used_loops l maxRules H) as (L & E).
  assert (Hr' : forall i, i < fmRows m -> example_row m i (row i) /\
     exists s, nth_error (repeat (repeat zero numOutputs) (fmRows m)) i = Some s /\
       score_of add (fun r => coversDense (row i) (fst r))
         (expected_order (rlDefault l) (rlRules l) (rlPrecedence l) (limitRules maxRules (rlGetNumUsed l))) s =
       Some (scores i)).
  { intros i Hi. destruct (Hr i Hi) as (A & B). split; auto. exists (repeat zero numOutputs). split; auto.
    rewrite (nth_error_nth' _ (repeat zero numOutputs)) by (rewrite repeat_length; auto).
    f_equal. apply nth_repeat. }
  assert (P: predictScores add zero junk m l numOutputs maxRules = Some (map scores (seq 0 (fmRows m)))).
  { unfold predictScores. eapply accumulateAll_ok; eauto; [lia|]. apply repeat_length. }
  split; auto. rewrite <- P. unfold predictScores.
  eapply accumulate_any_order; eauto; [lia|]. apply repeat_length.
Qed.
