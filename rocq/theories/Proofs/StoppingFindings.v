(** Counterexamples for stopping criteria. *)
From Coq Require Import ZArith QArith Arith List Bool Lia.
From Verif Require Import Lib.Arr Model.Containers Model.Stopping Spec.Containers Spec.Stopping Proofs.Pruning.
Import ListNotations.
Open Scope nat_scope.

Lemma remove_refuted :
  exists (configured : preConfig) (junk : bool) (score : nat -> Q),
    pcRemoveUnused configured = true /\
    forall junkBest, exists rs st,
      runTests (fun n => preTest (preFactory junk configured) (score n) n) 5 0
        (preInit (preFactory junk configured) [0%Q] [0%Q] junkBest) = Some (rs, st) /\
      (exists r, In r rs /\ rNumUsed r <> 0) /\ forall r, In r rs -> rStop r = false.
Proof.
  exists (mkPreConfig AggMin true 1 1 1 1 1 (1 # 2)), false, (fun _ => 1%Q). split; auto.
  intros junkBest. eexists. eexists. split; [vm_compute; reflexivity|]. split.
  - exists (mkResult false 3). split; [simpl; auto|]. simpl. lia.
  - intros r Hr. simpl in Hr. repeat destruct Hr as [<-|Hr]; auto. destruct Hr.
Qed.

Lemma interval_refuted :
  exists c, setStopInterval preDefault 0 = Some c /\
    forall junkPast junkRecent junkBest, length junkPast = 50 -> length junkRecent = 50 ->
      runTests (fun n => preTest c 1%Q n) 102 0 (preInit c junkPast junkRecent junkBest) = None.
Proof.
  eexists. split; [reflexivity|]. intros jp jr jb Hp Hr.
  do 50 (destruct jp as [|? jp]; [discriminate|]). destruct jp; [|discriminate].
  do 50 (destruct jr as [|? jr]; [discriminate|]). destruct jr; [|discriminate].
  vm_compute. reflexivity.
Qed.

(** ** Configurations of pre-pruning *)

Definition goodConfig (c : preConfig) : Prop :=
  1 <= pcMinRules c /\ 1 <= pcUpdateInterval c /\ 1 <= pcNumPast c /\ 1 <= pcNumCurrent c /\ (0 <= pcMinImprovement c <= 1)%Q.

Lemma good_call c call : goodConfig c -> goodConfig (applyPreCall c call).
Proof.
  intros (A & B & C & D & E). unfold applyPreCall, preCallResult, setUpdateInterval, setStopInterval, goodConfig.
  destruct call; cbn; repeat split; try tauto; try apply E;
    repeat match goal with |- context [if ?b then _ else _] => destruct b eqn:? end; cbn; try tauto; try apply E;
    try (apply Nat.leb_le; assumption);
    match goal with H: _ && _ = true |- _ => apply andb_prop in H; destruct H as (H1 & H2); apply Qle_bool_iff in H1; apply Qle_bool_iff in H2; assumption end.
Qed.

Lemma good_calls calls c : goodConfig c -> goodConfig (fold_left applyPreCall calls c).
Proof. revert c. induction calls as [|call calls IH]; cbn; intros c H; auto. apply IH. apply good_call. exact H. Qed.

Lemma good_default : goodConfig preDefault.
Proof. unfold goodConfig, preDefault. cbn. repeat split; try lia; discriminate. Qed.

Lemma configurations_defined :
  forall (calls : list preCall) (score : nat -> Q) (start cnt : nat) (junkPast junkRecent : list Q) (junkBest : nat),
    let c := fold_left applyPreCall calls preDefault in
    (1 <= pcMinRules c /\ 1 <= pcUpdateInterval c /\ 1 <= pcNumPast c /\ 1 <= pcNumCurrent c /\
     (0 <= pcMinImprovement c <= 1)%Q) /\
    (pcStopInterval c <> 0 -> length junkPast = pcNumPast c -> length junkRecent = pcNumCurrent c ->
     exists rs st,
       runTests (fun n => preTest c (score n) n) cnt start (preInit c junkPast junkRecent junkBest) = Some (rs, st)).
Proof.
  intros calls score start cnt jp jr jb c. assert (G: goodConfig c) by (apply good_calls; apply good_default).
  split; [exact G|]. intros S L1 L2. destruct G as (A & B & C & D & E).
  destruct (C26_lemma c score start cnt jp jr jb B ltac:(lia) C D L1 L2) as (rs & st & X & _). eauto.
Qed.

Lemma stop_same calls c : Forall (fun call => match call with SetUpdate _ | SetStop _ => False | _ => True end) calls ->
  pcStopInterval (fold_left applyPreCall calls c) = pcStopInterval c /\
  pcUpdateInterval (fold_left applyPreCall calls c) = pcUpdateInterval c.
Proof.
  intros H. revert c. induction H as [|call calls Hc H IH]; intros c; auto. cbn [fold_left].
  destruct (IH (applyPreCall c call)) as (-> & ->). unfold applyPreCall. destruct call; cbn; try tauto;
    repeat match goal with |- context [if ?b then _ else _] => destruct b end; auto.
Qed.

Lemma stop_interval_multiple :
  forall (before after : list preCall) (n : nat),
    let c := fold_left applyPreCall before preDefault in
    let c' := fold_left applyPreCall (before ++ SetStop n :: after) preDefault in
    Forall (fun call => match call with SetUpdate _ | SetStop _ => False | _ => True end) after ->
    (Nat.divide (pcUpdateInterval c') n -> pcStopInterval c' = n) /\
    (~ Nat.divide (pcUpdateInterval c') n -> pcStopInterval c' = pcStopInterval c) /\
    pcUpdateInterval c' = pcUpdateInterval c.
Proof.
  intros before after n c c' H. unfold c'. rewrite fold_left_app. fold c. cbn [fold_left].
  destruct (stop_same after (applyPreCall c (SetStop n)) H) as (-> & ->).
  assert (U: pcUpdateInterval c <> 0) by (destruct (good_calls before preDefault good_default) as (_ & B & _); unfold c; lia).
  unfold applyPreCall, preCallResult, setStopInterval. destruct (Nat.eqb_spec (n mod pcUpdateInterval c) 0) as [E|E]; cbn.
  - split; [auto|]. split; [|auto]. intros N. exfalso. apply N. apply Nat.mod_divide; auto.
  - split; [|auto]. intros D. exfalso. apply E. apply Nat.mod_divide; auto.
Qed.

Lemma stop_interval_other :
  exists calls, Forall (fun call => match call with SetStop 0 => False | _ => True end) calls /\
    let c := fold_left applyPreCall calls preDefault in ~ Nat.divide (pcUpdateInterval c) (pcStopInterval c).
Proof.
  exists [SetStop 2; SetUpdate 3]. split; [repeat constructor|]. cbn. intros (k & E). lia.
Qed.
