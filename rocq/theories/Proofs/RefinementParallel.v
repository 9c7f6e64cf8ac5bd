(** The parallel search for refinements does not depend on the schedule. *)
From Coq Require Import ZArith Arith List Bool Permutation Lia.
From Verif Require Import Lib.Arr Model.Refinement Spec.Interleaving Spec.Refinement Proofs.Interleaving Proofs.Refinement.
Import ListNotations.
Open Scope nat_scope.

Section Par.
Context {V C : Type}.
Variables (features : list nat) (create : nat -> V) (filtered : V -> V) (numModifications : nat)
  (candidates : nat -> V -> list candidate) (evaluate : candidate -> C -> option C).

Notation exec := (execute features create filtered numModifications candidates evaluate).
Notation inv := (invoke (C:=C) features create filtered numModifications candidates).
Notation evn := (evaluateNext (V:=V) evaluate).
Notation sv cache cf := (searchedVector create filtered numModifications cache cf).

Definition posOf (a : action) : nat := match a with Invoke i => i | Evaluate i => i end.

(** The effect of [invoke] in terms of the cells it accesses. *)
Definition invokeCells (f : nat) (cellF : option V * nat) (cellC : option V)
  : option V (* new cache cell, if written *) * option (option V * nat) (* new filtered cell, if written *) * V :=
  let '(vectorPtr, n) := cellF in
  let '(v, w) := match vectorPtr with
    | Some v => (v, None)
    | None => match cellC with Some v => (v, None) | None => (create f, Some (create f)) end end in
  if n <? numModifications then (w, Some (Some (filtered v), numModifications), filtered v) else (w, None, v).

Definition updOpt {A} (l : list A) (i : nat) (o : option A) : list A := match o with Some v => upd l i v | None => l end.
Definition someOpt {A} (o : option A) : option (option A) := match o with Some v => Some (Some v) | None => None end.

Lemma nth_lt {A} (l : list A) i x : nth_error l i = Some x -> i < length l.
Proof. intros. apply nth_error_Some. congruence. Qed.

Lemma invoke_cells i f cellF cellC st : nth_error features i = Some f ->
  nth_error (psFiltered st) f = Some cellF -> nth_error (psCache st) f = Some cellC -> i < length (psPending st) ->
  let '(w, x, v) := invokeCells f cellF cellC in
  inv i st = Some (mkPState (updOpt (psCache st) f (someOpt w)) (updOpt (psFiltered st) f x)
                     (upd (psPending st) i (candidates f v)) (psEntries st)).
Proof.
  intros Hf HF HC Hi. unfold invokeCells, invoke, aget. rewrite Hf, HF. destruct cellF as [[u|] n].
  - destruct (n <? numModifications).
    + rewrite aset_Some by (eapply nth_lt; eauto). rewrite aset_Some by auto. reflexivity.
    + rewrite aset_Some by auto. reflexivity.
  - rewrite HC. destruct cellC as [u|].
    + destruct (n <? numModifications).
      * rewrite aset_Some by (eapply nth_lt; eauto). rewrite aset_Some by auto. reflexivity.
      * rewrite aset_Some by auto. reflexivity.
    + rewrite aset_Some by (eapply nth_lt; eauto). destruct (n <? numModifications).
      * rewrite aset_Some by (eapply nth_lt; eauto). rewrite aset_Some by auto. reflexivity.
      * rewrite aset_Some by auto. reflexivity.
Qed.

Lemma updOpt_neq {A} (l : list A) f g o : f <> g -> nth_error (updOpt l f o) g = nth_error l g.
Proof. destruct o; auto. apply nth_error_upd_neq. Qed.
Lemma updOpt_len {A} (l : list A) f o : length (updOpt l f o) = length l.
Proof. destruct o; auto. apply upd_length. Qed.
Lemma updOpt_comm {A} (l : list A) f g o p : f <> g -> updOpt (updOpt l f o) g p = updOpt (updOpt l g p) f o.
Proof. destruct o, p; simpl; auto. apply upd_comm. Qed.

(** Executions never fail for positions whose cells exist, so that commutation can be restricted to such states. *)
Definition wf (st : pstate V C) : Prop :=
  length (psPending st) = length features /\ length (psEntries st) = length features /\
  (forall f, In f features -> f < length (psFiltered st) /\ f < length (psCache st)).

Lemma invoke_ok i f st : wf st -> nth_error features i = Some f ->
  exists cache cf, inv i st = Some (mkPState cache cf
     (upd (psPending st) i (candidates f (sv (psCache st) (psFiltered st) f))) (psEntries st)) /\
    wf (mkPState cache cf (upd (psPending st) i (candidates f (sv (psCache st) (psFiltered st) f))) (psEntries st)) /\
    forall g, sv cache cf g = sv (psCache st) (psFiltered st) g.
Proof.
  intros (W1 & W2 & W3) Hf. destruct (W3 f) as [F1 F2]; [eapply nth_error_In; eauto|].
  assert (Hi: i < length (psPending st)) by (rewrite W1; eapply nth_lt; eauto).
  destruct (aget_Some (psFiltered st) f F1) as (cellF & EF). destruct (aget_Some (psCache st) f F2) as (cellC & EC).
  unfold aget in EF, EC. pose proof (invoke_cells i f cellF cellC st Hf EF EC Hi) as H.
  assert (SV: let '(w, x, v) := invokeCells f cellF cellC in v = sv (psCache st) (psFiltered st) f /\
     forall g, sv (updOpt (psCache st) f (someOpt w)) (updOpt (psFiltered st) f x) g = sv (psCache st) (psFiltered st) g).
  { assert (NF: nth f (psFiltered st) (None, 0) = cellF) by (apply nth_error_nth; auto).
    assert (NC: nth f (psCache st) None = cellC) by (apply nth_error_nth; auto).
    destruct (invokeCells f cellF cellC) as [[w x] v] eqn:E. unfold searchedVector. split.
    - rewrite NF, NC. unfold invokeCells in E. destruct cellF as [[u|] n]; [|destruct cellC as [u|]];
        destruct (n <? numModifications); injection E as _ _ E; auto.
    - intros g. destruct (Nat.eq_dec f g) as [<-|Hg].
      + assert (NF': nth f (updOpt (psFiltered st) f x) (None, 0) = match x with Some y => y | None => cellF end).
        { destruct x; auto. apply nth_error_nth. apply nth_error_upd_eq. auto. }
        assert (NC': nth f (updOpt (psCache st) f (someOpt w)) None = match w with Some y => Some y | None => cellC end).
        { destruct w; auto. apply nth_error_nth. apply nth_error_upd_eq. auto. }
        rewrite NF, NC, NF', NC'. unfold invokeCells in E.
        destruct cellF as [[u|] n]; [|destruct cellC as [u|]];
          destruct (n <? numModifications) eqn:En; injection E as <- <- <-; rewrite ?En, ?Nat.ltb_irrefl; auto.
      + assert (NE: forall {A} (l l' : list A) d, nth_error l g = nth_error l' g -> nth g l d = nth g l' d).
        { intros A l l' d Hl. destruct (nth_error l g) eqn:E1.
          - rewrite (nth_error_nth _ _ _ E1). symmetry in Hl. rewrite (nth_error_nth _ _ _ Hl). auto.
          - symmetry in Hl. apply nth_error_None in E1, Hl. rewrite !nth_overflow by auto. auto. }
        rewrite (NE _ (updOpt (psFiltered st) f x) (psFiltered st)) by (apply updOpt_neq; auto).
        rewrite (NE _ (updOpt (psCache st) f (someOpt w)) (psCache st)) by (apply updOpt_neq; auto). auto. }
  destruct (invokeCells f cellF cellC) as [[w x] v]. destruct SV as [-> SV]. eexists _, _. split; [exact H|].
  split; [|exact SV]. unfold wf. cbn [psPending psEntries psFiltered psCache]. rewrite upd_length. split; [auto|].
  split; [auto|]. intros g Hg. rewrite !updOpt_len. auto.
Qed.

(** ** Commutation *)
Hypothesis nodup : NoDup features.

Lemma features_neq i j f g : i <> j -> nth_error features i = Some f -> nth_error features j = Some g -> f <> g.
Proof.
  intros Hij Hf Hg ->. apply Hij. apply (proj1 (NoDup_nth_error features) nodup).
  - eapply nth_lt; eauto.
  - congruence.
Qed.

Lemma cells st f : wf st -> In f features -> exists cf cc,
  nth_error (psFiltered st) f = Some cf /\ nth_error (psCache st) f = Some cc.
Proof.
  intros (_ & _ & W) Hf. destruct (W f Hf) as [F1 F2].
  destruct (aget_Some _ _ F1) as (a & Ea), (aget_Some _ _ F2) as (b & Eb). exists a, b. auto.
Qed.

Lemma wf_exec a st st' : wf st -> exec a st = Some st' -> wf st'.
Proof.
  intros W. destruct a as [i|i]; cbn [execute].
  - intros E. destruct (nth_error features i) as [f|] eqn:Hf.
    + destruct (invoke_ok i f st W Hf) as (cache & cf & E' & W' & _). rewrite E' in E. injection E as <-. exact W'.
    + unfold invoke, aget in E. rewrite Hf in E. discriminate.
  - intros E. unfold evaluateNext in E. destruct W as (W1 & W2 & W3).
    destruct (aget (psPending st) i) as [[|x rest]|]; try discriminate.
    destruct (aget (psEntries st) i); try discriminate. destruct (evaluate x c); try discriminate.
    destruct (aset (psEntries st) i c0) eqn:E1; try discriminate. apply aset_inv in E1. destruct E1 as [_ ->].
    destruct (aset (psPending st) i rest) eqn:E2; try discriminate. apply aset_inv in E2. destruct E2 as [_ ->].
    injection E as <-. unfold wf. cbn [psPending psEntries psFiltered psCache]. rewrite !upd_length. auto.
Qed.

Lemma invoke_none i st : nth_error features i = None -> inv i st = None.
Proof. intros H. unfold invoke, aget. rewrite H. auto. Qed.

Lemma invoke_invoke i j : i <> j -> commute_on exec wf (Invoke i) (Invoke j).
Proof.
  intros Hij st W. cbn [execute].
  destruct (nth_error features i) as [f|] eqn:Hf.
  2:{ rewrite (invoke_none i st Hf). destruct (inv j st) as [s|]; auto. rewrite invoke_none; auto. }
  destruct (nth_error features j) as [g|] eqn:Hg.
  2:{ rewrite (invoke_none j st Hg). destruct (inv i st) as [s|]; auto. rewrite invoke_none; auto. }
  assert (Hfg: f <> g) by (eapply features_neq; eauto).
  assert (Hi: i < length (psPending st)) by (rewrite (proj1 W); eapply nth_lt; eauto).
  assert (Hj: j < length (psPending st)) by (rewrite (proj1 W); eapply nth_lt; eauto).
  destruct (cells st f W) as (cf & cc & EF & EC); [eapply nth_error_In; eauto|].
  destruct (cells st g W) as (cf' & cc' & EF' & EC'); [eapply nth_error_In; eauto|].
  pose proof (invoke_cells i f cf cc st Hf EF EC Hi) as Ei.
  pose proof (invoke_cells j g cf' cc' st Hg EF' EC' Hj) as Ej.
  destruct (invokeCells f cf cc) as [[w x] v] eqn:Ef. destruct (invokeCells g cf' cc') as [[w' x'] v'] eqn:Eg.
  rewrite Ei, Ej.
  pose proof (invoke_cells j g cf' cc' (mkPState (updOpt (psCache st) f (someOpt w)) (updOpt (psFiltered st) f x)
     (upd (psPending st) i (candidates f v)) (psEntries st)) Hg) as Ej2.
  pose proof (invoke_cells i f cf cc (mkPState (updOpt (psCache st) g (someOpt w')) (updOpt (psFiltered st) g x')
     (upd (psPending st) j (candidates g v')) (psEntries st)) Hf) as Ei2.
  cbn [psPending psEntries psFiltered psCache] in Ei2, Ej2. rewrite Ef in Ei2. rewrite Eg in Ej2.
  rewrite Ei2, Ej2; try (rewrite updOpt_neq by auto; auto); try (rewrite upd_length; auto).
  rewrite (updOpt_comm (psCache st) f g), (updOpt_comm (psFiltered st) f g) by auto.
  rewrite (upd_comm (psPending st) i j) by auto. reflexivity.
Qed.

Lemma evaluate_pure j st : evn j st =
  match nth_error (psPending st) j, nth_error (psEntries st) j with
  | Some (x :: rest), Some e =>
      match evaluate x e with
      | Some e' => Some (mkPState (psCache st) (psFiltered st) (upd (psPending st) j rest) (upd (psEntries st) j e'))
      | None => None
      end
  | _, _ => None
  end.
Proof.
  unfold evaluateNext, aget. destruct (nth_error (psPending st) j) as [[|x rest]|] eqn:E1; auto.
  destruct (nth_error (psEntries st) j) as [e|] eqn:E2; auto. destruct (evaluate x e); auto.
  rewrite !aset_Some by (eapply nth_lt; eauto). auto.
Qed.

Lemma invoke_evaluate i j : i <> j -> commute_on exec wf (Invoke i) (Evaluate j).
Proof.
  intros Hij st W. cbn [execute].
  destruct (nth_error features i) as [f|] eqn:Hf.
  2:{ rewrite (invoke_none i st Hf). destruct (evn j st) as [s|]; auto. rewrite invoke_none; auto. }
  assert (Hi: i < length (psPending st)) by (rewrite (proj1 W); eapply nth_lt; eauto).
  destruct (cells st f W) as (cf & cc & EF & EC); [eapply nth_error_In; eauto|].
  pose proof (invoke_cells i f cf cc st Hf EF EC Hi) as Ei.
  destruct (invokeCells f cf cc) as [[w x] v] eqn:Ef. rewrite Ei. rewrite !evaluate_pure.
  cbn [psPending psEntries psFiltered psCache]. rewrite nth_error_upd_neq by auto.
  destruct (nth_error (psPending st) j) as [[|y rest]|] eqn:E1; auto.
  destruct (nth_error (psEntries st) j) as [e|] eqn:E2; auto. destruct (evaluate y e) as [e'|]; auto.
  pose proof (invoke_cells i f cf cc (mkPState (psCache st) (psFiltered st) (upd (psPending st) j rest)
    (upd (psEntries st) j e')) Hf) as Ei2.
  cbn [psPending psEntries psFiltered psCache] in Ei2. rewrite Ef in Ei2. rewrite Ei2; auto.
  - rewrite (upd_comm (psPending st) i j) by auto. reflexivity.
  - rewrite upd_length. auto.
Qed.

Lemma evaluate_evaluate i j : i <> j -> commute_on exec wf (Evaluate i) (Evaluate j).
Proof.
  intros Hij st _. cbn [execute]. rewrite !evaluate_pure.
  destruct (nth_error (psPending st) i) as [[|x rest]|] eqn:E1;
    destruct (nth_error (psPending st) j) as [[|y rest']|] eqn:E2;
    destruct (nth_error (psEntries st) i) as [e|] eqn:E3; destruct (nth_error (psEntries st) j) as [d|] eqn:E4; auto;
    try (destruct (evaluate x e) as [e'|] eqn:E5); try (destruct (evaluate y d) as [d'|] eqn:E6); auto;
    rewrite ?evaluate_pure; cbn [psPending psEntries psFiltered psCache];
    rewrite ?nth_error_upd_neq by auto; rewrite ?E1, ?E2, ?E3, ?E4, ?E5, ?E6; auto.
  rewrite (upd_comm (psPending st) i j), (upd_comm (psEntries st) i j) by auto. reflexivity.
Qed.

Lemma actions_commute_pos a b : posOf a <> posOf b -> commute_on exec wf a b.
Proof.
  destruct a as [i|i], b as [j|j]; cbn [posOf]; intros H.
  - apply invoke_invoke; auto.
  - apply invoke_evaluate; auto.
  - intros st W. symmetry. apply invoke_evaluate; auto.
  - apply evaluate_evaluate; auto.
Qed.

(** ** One iteration *)
Lemma evaluate_all i cands : forall st e e', nth_error (psPending st) i = Some cands ->
  nth_error (psEntries st) i = Some e -> forL cands evaluate e = Some e' ->
  forL (repeat (Evaluate i) (length cands)) exec st =
    Some (mkPState (psCache st) (psFiltered st) (upd (psPending st) i []) (upd (psEntries st) i e')).
Proof.
  induction cands as [|x cands IH]; intros st e e' Hp He Hr; cbn [length repeat forL].
  - injection Hr as <-. rewrite (upd_nth_same _ _ _ Hp), (upd_nth_same _ _ _ He). destruct st; auto.
  - cbn [execute]. rewrite evaluate_pure, Hp, He. cbn [forL] in Hr. destruct (evaluate x e) as [e1|] eqn:E1; [|discriminate].
    rewrite (IH _ e1 e').
    + cbn [psPending psEntries psFiltered psCache]. rewrite !upd_upd. reflexivity.
    + cbn [psPending]. apply nth_error_upd_eq. eapply nth_lt; eauto.
    + cbn [psEntries]. apply nth_error_upd_eq. eapply nth_lt; eauto.
    + exact Hr.
Qed.

Variables (cache0 : list (option V)) (cf0 : list (option V * nat)) (e0 : C) (res : list C).
Hypothesis cells0 : forall f, In f features -> f < length cf0 /\ f < length cache0.
Definition candsOf (i : nat) : list candidate :=
  match nth_error features i with Some f => candidates f (sv cache0 cf0 f) | None => [] end.
Hypothesis runs : Forall2 (fun f e => forL (candidates f (sv cache0 cf0 f)) evaluate e0 = Some e) features res.

Definition Inv (P : list nat) (st : pstate V C) : Prop :=
  wf st /\ (forall g, sv (psCache st) (psFiltered st) g = sv cache0 cf0 g) /\
  forall i, i < length features ->
    nth_error (psEntries st) i = if in_dec Nat.eq_dec i P then nth_error res i else Some e0.

Lemma iteration P i st : Inv P st -> i < length features -> ~ In i P ->
  exists st', forL (iterationProgram (fun i => length (candsOf i)) i) exec st = Some st' /\ Inv (P ++ [i]) st'.
Proof.
  intros (W & SV & HE) Hi Hn. destruct (aget_Some features i Hi) as (f & Hf). unfold aget in Hf.
  destruct (invoke_ok i f st W Hf) as (cache & cf & E & W' & SV').
  unfold iterationProgram. cbn [forL execute]. rewrite E.
  assert (Er: exists e, nth_error res i = Some e /\ forL (candidates f (sv cache0 cf0 f)) evaluate e0 = Some e).
  { clear -runs Hf. revert i Hf. induction runs as [|? ? ? ? H1 H2 IH]; intros [|i] Hf; simpl in *; try discriminate.
    - injection Hf as ->. eauto.
    - eauto. }
  destruct Er as (e & Er & Ee). pose proof (HE i Hi) as H0.
  destruct (in_dec Nat.eq_dec i P) as [H|_]; [contradiction|].
  assert (EC: candsOf i = candidates f (sv (psCache st) (psFiltered st) f)).
  { unfold candsOf. rewrite Hf, SV. auto. }
  rewrite EC. rewrite (evaluate_all i _ _ e0 e).
  - eexists. split; [reflexivity|]. cbn [psPending psEntries psFiltered psCache]. destruct W' as (W1 & W2 & W3).
    cbn [psPending psEntries psFiltered psCache] in *. split; [|split].
    + unfold wf. cbn [psPending psEntries psFiltered psCache]. rewrite !upd_length in *. auto.
    + intros g. cbn [psPending psEntries psFiltered psCache]. rewrite SV'. apply SV.
    + intros j Hj. cbn [psPending psEntries psFiltered psCache]. destruct (Nat.eq_dec i j) as [<-|Hij].
      * rewrite nth_error_upd_eq by (rewrite W2; auto).
        destruct (in_dec Nat.eq_dec i (P ++ [i])) as [_|H]; auto. exfalso. apply H. apply in_or_app. right. left. auto.
      * rewrite nth_error_upd_neq by auto. rewrite HE by auto.
        destruct (in_dec Nat.eq_dec j P) as [H1|H1], (in_dec Nat.eq_dec j (P ++ [i])) as [H2|H2]; auto.
        -- exfalso. apply H2. apply in_or_app. auto.
        -- exfalso. apply in_app_iff in H2. destruct H2 as [H2|[H2|[]]]; auto.
  - cbn [psPending]. rewrite nth_error_upd_eq; auto. rewrite (proj1 W). auto.
  - cbn [psEntries]. auto.
  - rewrite SV. exact Ee.
Qed.

Definition positions (l : list action) := map posOf l.

Lemma program_pos n i a : In a (iterationProgram n i) -> posOf a = i.
Proof. intros [<-|H]; auto. apply repeat_spec in H. subst. auto. Qed.

Lemma concat_flat_map {A B} (g : A -> list B) ll : concat (map (flat_map g) ll) = flat_map g (concat ll).
Proof. induction ll as [|l ll IH]; simpl; auto. rewrite flat_map_app, IH. auto. Qed.

Lemma parallel_run (copy : C -> C) comparator assignment interleaved :
  copy comparator = e0 ->
  Permutation (concat assignment) (seq 0 (length features)) ->
  interleaving (map (flat_map (iterationProgram (fun i => length (candsOf i)))) assignment) interleaved ->
  exists st, forL interleaved exec (parallelInit features copy comparator cache0 cf0) = Some st /\
    psEntries st = res /\ forall g, sv (psCache st) (psFiltered st) g = sv cache0 cf0 g.
Proof.
  intros Ec HP HI. set (st0 := parallelInit features copy comparator cache0 cf0).
  assert (W0: wf st0).
  { unfold wf, st0, parallelInit. cbn [psPending psEntries psFiltered psCache]. rewrite !map_length. auto. }
  assert (ND: NoDup (concat assignment)).
  { apply (Permutation_NoDup (Permutation_sym HP)). apply seq_NoDup. }
  rewrite (interleaving_run_inv exec wf wf_exec _ _ HI).
  - rewrite concat_flat_map.
    assert (I0: Inv [] st0).
    { split; [exact W0|]. split; [reflexivity|]. intros i Hi. cbn [in_dec]. unfold st0, parallelInit. cbn [psEntries].
      rewrite nth_error_map. destruct (nth_error features i) eqn:E; [simpl; congruence|apply nth_error_None in E; lia]. }
    assert (G: forall l P st, Inv P st -> NoDup (P ++ l) -> (forall i, In i l -> i < length features) ->
      exists st', forL (flat_map (iterationProgram (fun i => length (candsOf i))) l) exec st = Some st' /\ Inv (P ++ l) st').
    { induction l as [|i l IH]; intros P st HInv HND Hl.
      - exists st. rewrite app_nil_r. auto.
      - cbn [flat_map]. destruct (iteration P i st HInv) as (st1 & E1 & I1).
        + apply Hl. left. auto.
        + apply NoDup_remove_2 in HND. intros H. apply HND. apply in_or_app. auto.
        + destruct (IH (P ++ [i]) st1 I1) as (st2 & E2 & I2).
          * rewrite <- app_assoc. exact HND.
          * intros j Hj. apply Hl. right. auto.
          * exists st2. rewrite forL_app, E1, E2, <- app_assoc in *. split; auto. }
    destruct (G (concat assignment) [] st0 I0 ND) as (st & E & (Wf & SV & HE)).
    { intros i Hi. apply (Permutation_in _ HP) in Hi. apply in_seq in Hi. lia. }
    exists st. split; [exact E|]. split; [|exact SV].
    assert (LR: length features = length res) by (clear -runs; induction runs; simpl; auto).
    apply list_ext_len; [destruct Wf as (_ & W2 & _); lia|].
    intros i Hi. destruct Wf as (_ & W2 & _). rewrite HE by lia. cbn [app].
    destruct (in_dec Nat.eq_dec i (concat assignment)) as [_|H]; auto. exfalso. apply H.
    apply (Permutation_in _ (Permutation_sym HP)). apply in_seq. lia.
  - intros ps1 p ps2 a b Eps Ha Hb. apply actions_commute_pos. intros Epos.
    assert (exists A1 q A2, assignment = A1 ++ q :: A2 /\ ps1 = map (flat_map (iterationProgram (fun i => length (candsOf i)))) A1 /\
      p = flat_map (iterationProgram (fun i => length (candsOf i))) q) as (A1 & q & A2 & -> & -> & ->).
    { clear -Eps. revert ps1 Eps. induction assignment as [|q0 A IH]; intros [|r ps1] Eps; simpl in Eps; try discriminate.
      - injection Eps as <- <-. exists [], q0, A. auto.
      - injection Eps as <- Eps. destruct (IH _ Eps) as (A1 & q & A2 & -> & -> & ->). exists (q0 :: A1), q, A2. auto. }
    rewrite concat_flat_map in Hb. apply in_flat_map in Ha, Hb. destruct Ha as (i & Hi & Ha), Hb as (j & Hj & Hb).
    apply program_pos in Ha, Hb. assert (Hij: In j q) by congruence. clear Hi.
    rewrite concat_app in ND. cbn [concat] in ND. clear -ND Hij Hj. revert ND Hj. induction (concat A1) as [|z l IH]; intros ND Hj; [destruct Hj|].
    cbn [app] in ND. apply NoDup_cons_iff in ND. destruct ND as [N1 N2]. destruct Hj as [->|Hj]; auto.
    apply N1. apply in_or_app. right. apply in_or_app. auto.
  - exact W0.
Qed.

Lemma parallel_find (copy : C -> C) (merge : C -> C -> option (bool * C)) comparator assignment interleaved :
  copy comparator = e0 ->
  Permutation (concat assignment) (seq 0 (length features)) ->
  interleaving (map (flat_map (iterationProgram (fun i => length (candsOf i)))) assignment) interleaved ->
  exists st, forL interleaved exec (parallelInit features copy comparator cache0 cf0) = Some st /\
    parallelMerge features merge (psEntries st) comparator =
      findRefinement copy evaluate merge (map (fun f => candidates f (sv cache0 cf0 f)) features) comparator /\
    forall g, sv (psCache st) (psFiltered st) g = sv cache0 cf0 g.
Proof.
  intros Ec HP HI. destruct (parallel_run copy comparator assignment interleaved Ec HP HI) as (st & E & Er & SV).
  exists st. split; [exact E|]. split; [|exact SV]. rewrite Er.
  rewrite (find_merge copy evaluate merge _ comparator res).
  - unfold parallelMerge. assert (LR: length features = length res) by (clear -runs; induction runs; simpl; auto).
    rewrite LR. apply mergeLoop_forL.
  - rewrite Ec. clear -runs. induction runs; simpl; constructor; auto.
Qed.
End Par.

Lemma parallel_single V k features (create : nat -> V) filtered numModifications candidates comparator cache cacheFiltered
    assignment interleaved :
  NoDup features -> (forall f, In f features -> f < length cacheFiltered /\ f < length cache) ->
  Permutation (concat assignment) (seq 0 (length features)) ->
  let vector := searchedVector create filtered numModifications cache cacheFiltered in
  let numCandidates i := length (match nth_error features i with Some f => candidates f (vector f) | None => [] end) in
  interleaving (map (flat_map (iterationProgram numCandidates)) assignment) interleaved ->
  exists st, forL interleaved (execute features create filtered numModifications candidates (singleEvaluate k))
      (parallelInit features singleCopy comparator cache cacheFiltered) = Some st /\
    parallelMerge features (singleMerge k) (psEntries st) comparator =
      findSingle k (map (fun f => candidates f (vector f)) features) comparator /\
    forall g, searchedVector create filtered numModifications (psCache st) (psFiltered st) g = vector g.
Proof.
  intros ND HC HP vector numCandidates HI.
  assert (HR: exists res, Forall2 (fun f e => forL (candidates f (vector f)) (singleEvaluate k) (singleCopy comparator) = Some e)
    features res).
  { clear. induction features as [|f fs (es & IH)]; [exists []; constructor|].
    destruct (feed_single k (candidates f (vector f)) (singleCopy comparator)) as (r & _ & E). eexists (_ :: es). constructor; eauto. }
  destruct HR as (res & HR). unfold findSingle.
  exact (parallel_find features create filtered numModifications candidates (singleEvaluate k) ND cache cacheFiltered
    (singleCopy comparator) res HC HR singleCopy (singleMerge k) comparator assignment interleaved eq_refl HP HI).
Qed.

Lemma parallel_fixed V k sort m q features (create : nat -> V) filtered numModifications candidates cache
    cacheFiltered assignment interleaved :
  sorting k sort -> 1 <= m ->
  NoDup features -> (forall f, In f features -> f < length cacheFiltered /\ f < length cache) ->
  Permutation (concat assignment) (seq 0 (length features)) ->
  let vector := searchedVector create filtered numModifications cache cacheFiltered in
  let numCandidates i := length (match nth_error features i with Some f => candidates f (vector f) | None => [] end) in
  interleaving (map (flat_map (iterationProgram numCandidates)) assignment) interleaved ->
  exists st, forL interleaved (execute features create filtered numModifications candidates (fixedEvaluate k sort))
      (parallelInit features fixedCopy (fixedNew m q) cache cacheFiltered) = Some st /\
    parallelMerge features (fixedMerge k) (psEntries st) (fixedNew m q) =
      findFixed k sort (map (fun f => candidates f (vector f)) features) (fixedNew m q) /\
    forall g, searchedVector create filtered numModifications (psCache st) (psFiltered st) g = vector g.
Proof.
  intros Hs Hm ND HC HP vector numCandidates HI.
  assert (HR: exists res, Forall2 (fun f e => forL (candidates f (vector f)) (fixedEvaluate k sort) (fixedCopy (fixedNew m q)) = Some e)
    features res).
  { clear -Hs Hm. induction features as [|f fs (es & IH)]; [exists []; constructor|].
    destruct (feed_fixed k sort m q (candidates f (vector f)) Hs Hm) as (r & E & _). exists (r :: es). constructor; auto. }
  destruct HR as (res & HR). unfold findFixed.
  exact (parallel_find features create filtered numModifications candidates (fixedEvaluate k sort) ND cache cacheFiltered
    (fixedCopy (fixedNew m q)) res HC HR fixedCopy (fixedMerge k) (fixedNew m q) assignment interleaved eq_refl HP HI).
Qed.
