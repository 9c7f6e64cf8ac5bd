(** Proofs about the number of examples covered by rules that are refined. *)
From Coq Require Import ZArith List Bool Arith Lia Permutation.
From Verif Require Import Lib.Arr Model.Refinement Proofs.Greedy Proofs.Refinement Spec.Refinement.
Import ListNotations.
Open Scope nat_scope.

(** ** Properties of all entries *)
Section Entries.
Variables (k : learner) (sortC : list candidate -> list candidate) (sortE : list entry -> list entry)
  (beamWidth minCoverage : nat) (search : nat -> list candidate -> list nat -> list (list candidate)).
Hypothesis sortE_perm : forall l, Permutation l (sortE l).
Variable P : entry -> Prop.
Hypothesis P_kept : forall e, P e -> P (keptEntry e).
Hypothesis P_refined : forall e outs outs' keep x, P e -> beOutputs e = Some outs -> P (refinedEntry minCoverage e outs' keep x).

Definition allP (l : list entry) : Prop := forall e, In e l -> P e.

Lemma replaceLast_all e l st : P e -> allP l -> replaceLast sortE e l = Some st -> allP (fst st).
Proof.
  intros He Hl H. unfold replaceLast in H. destruct (aset l (length l - 1) e) as [l1|] eqn:E; [|discriminate].
  destruct (back (sortE l1)) as [w|]; [|discriminate]. injection H as <-. cbn [fst]. intros x Hx.
  apply (Permutation_in _ (Permutation_sym (sortE_perm l1))) in Hx.
  unfold aset in E. destruct (length l - 1 <? length l); [|discriminate]. injection E as <-. apply upd_In in Hx. destruct Hx as [->|Hx]; auto.
Qed.

Lemma include_allP e st st' : P e -> allP (fst st) -> includeRefinement sortE beamWidth e st = Some st' -> allP (fst st').
Proof.
  destruct st as [l q]. intros He Hl. unfold includeRefinement. destruct (length l <? beamWidth).
  - intros [= <-]. cbn [fst] in *. intros x Hx. apply in_app_iff in Hx. destruct Hx as [Hx|[<- |[]]]; auto.
  - apply replaceLast_all; auto.
Qed.

Lemma refineEntry_all keep e l q r n st : P e -> allP l ->
  refineEntry k sortC sortE beamWidth minCoverage search keep e (l, q, r, n) = Some st -> allP (fst (fst (fst st))).
Proof.
  intros He Hl. unfold refineEntry.
  assert (K : forall (r : bool) (n : nat) st, (if length l <? beamWidth then Some (l ++ [keptEntry e], q, r, n) else
     if negb (compare k q (beQuality e)) then
       let* (newOrder', minQ') := replaceLast sortE (keptEntry e) l in Some (newOrder', minQ', r, n)
     else Some (l, q, r, n)) = Some st -> allP (fst (fst (fst st)))).
  { clear r n st. intros r n st. destruct (length l <? beamWidth).
    - intros [= <-]. cbn [fst]. intros x Hx. apply in_app_iff in Hx. destruct Hx as [Hx|[<- |[]]]; auto.
    - destruct (negb _); [|intros [= <-]; exact Hl]. destruct (replaceLast sortE (keptEntry e) l) as [[o q']|] eqn:E; [|discriminate].
      intros [= <-]. cbn [fst]. apply (replaceLast_all _ _ (o, q')) in E; auto. }
  destruct (beOutputs e) as [outs|] eqn:Eo; [|apply K].
  destruct (findFixed k sortC (search n (beConditions e) outs) (fixedNew beamWidth q)) as [[found c]|]; [|discriminate].
  destruct found; [|apply K].
  destruct (forL (fcOrder c) _ (l, q)) as [[o q']|] eqn:E; [|discriminate]. intros [= <-]. cbn [fst].
  assert (G : forall cs st st', allP (fst st) -> forL cs (fun x => includeRefinement sortE beamWidth (refinedEntry minCoverage e outs keep x)) st = Some st' -> allP (fst st')).
  { induction cs as [|x cs IH]; intros s s' Hs; cbn [forL]; [intros [= <-]; exact Hs|].
    destruct (includeRefinement sortE beamWidth (refinedEntry minCoverage e outs keep x) s) as [s1|] eqn:E1; [|discriminate].
    apply IH. eapply include_allP; [|exact Hs|exact E1]. eapply P_refined; eauto. }
  exact (G _ (l, q) (o, q') Hl E).
Qed.

Lemma refineBeam_all keep order n r order' n' : allP order ->
  refineBeam k sortC sortE beamWidth minCoverage search keep order n = Some (r, order', n') -> allP order'.
Proof.
  intros Ho. unfold refineBeam. destruct (back order) as [w|]; [|discriminate].
  assert (G : forall es st st', allP es -> allP (fst (fst (fst st))) -> forL es (refineEntry k sortC sortE beamWidth minCoverage search keep) st = Some st' ->
    allP (fst (fst (fst st')))).
  { induction es as [|e es IH]; intros [[[l q] r0] m] st' He Hs; cbn [forL]; [intros [= <-]; exact Hs|].
    destruct (refineEntry k sortC sortE beamWidth minCoverage search keep e (l, q, r0, m)) as [s1|] eqn:E1; [|discriminate].
    apply IH; [intros x Hx; apply He; right; auto|]. eapply refineEntry_all; [apply He; left; auto|exact Hs|exact E1]. }
  destruct (forL order _ _) as [[[[o q] r0] m]|] eqn:E; [|discriminate]. intros [= <- <- <-].
  apply (G _ _ _ Ho) in E; [exact E|]. intros x [].
Qed.

Lemma beamLoop_all maxConditions maxHead fuel : forall depth order n order', allP order ->
  beamLoop k sortC sortE beamWidth minCoverage search fuel maxConditions maxHead depth order n = Some order' -> allP order'.
Proof.
  induction fuel as [|fuel IH]; intros depth order n order' Ho; cbn [beamLoop]; [discriminate|].
  destruct ((maxConditions =? 0) || (depth <? maxConditions)); [|intros [= <-]; exact Ho].
  destruct (refineBeam k sortC sortE beamWidth minCoverage search _ order n) as [[[r o] m]|] eqn:E; [|discriminate].
  apply refineBeam_all in E; [|exact Ho]. destruct r; [apply IH; exact E|intros [= <-]; exact E].
Qed.
End Entries.

(** ** Coverage *)
Definition cov_ok (minCoverage : nat) (e : entry) : Prop :=
  (forall i c, 0 < i -> i < length (beConditions e) - 1 -> nth_error (beConditions e) i = Some c -> minCoverage < cCovered c) /\
  (beOutputs e <> None -> forall c, 1 < length (beConditions e) -> nth_error (beConditions e) (length (beConditions e) - 1) = Some c -> minCoverage < cCovered c).

Lemma beam_coverage :
  forall (k : learner) (sortC : list candidate -> list candidate) (sortE : list entry -> list entry)
    (beamWidth minCoverage : nat) (search : nat -> list candidate -> list nat -> list (list candidate)),
    sorting k sortC -> sorting_entries k sortE ->
    forall (fuel maxConditions maxHeadRefinements : nat) (outputs : list nat) (e : entry),
    growBeam k sortC sortE beamWidth minCoverage search fuel maxConditions maxHeadRefinements outputs = Some (Some e) ->
    forall i c, 0 < i -> i < length (beConditions e) - 1 -> nth_error (beConditions e) i = Some c -> minCoverage < cCovered c.
Proof.
  intros k sortC sortE beamWidth minCoverage search _ HE fuel maxConditions maxHead outputs e H.
  assert (G : cov_ok minCoverage e); [|apply G]. unfold growBeam in H.
  destruct (findFixed k sortC (search 0 [] outputs) _) as [[found c]|]; [|discriminate]. destruct found; [|discriminate].
  destruct (beamLoop k sortC sortE beamWidth minCoverage search fuel maxConditions maxHead 1 _ 1) as [order|] eqn:E; [|discriminate].
  destruct order as [|e0 order]; [discriminate|]. injection H as ->.
  eapply (beamLoop_all k sortC sortE beamWidth minCoverage search) with (P := cov_ok minCoverage) in E; [apply E; left; auto| | | |].
  - intros l. apply HE.
  - intros x (A & _). split; [exact A|]. intros X. exfalso. apply X. reflexivity.
  - intros x outs outs' keep y (A & B) Ho. unfold cov_ok, refinedEntry. cbn [beConditions beOutputs]. rewrite app_length. cbn [length]. split.
    + intros i z Hi Hl Hz. rewrite nth_error_app1 in Hz by lia. destruct (Nat.eq_dec i (length (beConditions x) - 1)) as [->|Hne].
      * apply B; [congruence|lia|exact Hz].
      * apply (A i); [lia|lia|exact Hz].
    + intros Hn z _ Hz. rewrite nth_error_app2 in Hz by lia. replace (length (beConditions x) + 1 - 1 - length (beConditions x)) with 0 in Hz by lia.
      injection Hz as <-. destruct (Nat.leb_spec (cCovered y) minCoverage); [exfalso; apply Hn; reflexivity|auto].
  - intros x Hx. apply in_map_iff in Hx. destruct Hx as (y & <- & _). split; cbn [initializeEntry beConditions length]; intros; lia.
Qed.

Lemma greedy_coverage :
  forall (k : learner) (minCoverage maxConditions maxHeadRefinements : nat) (search : nat -> list candidate -> list nat -> list (list candidate))
    (outputs : list nat) (fuel : nat) (conditions : list candidate) (head : option candidate),
    growGreedy fuel k minCoverage maxConditions maxHeadRefinements search outputs = Some (conditions, head) ->
    forall i c, i < length conditions - 1 -> nth_error conditions i = Some c -> minCoverage < cCovered c.
Proof.
  intros k minCoverage maxConditions maxHead search outputs fuel conds head H.
  destruct (greedy_lemma fuel k minCoverage maxConditions maxHead search outputs conds head H) as (_ & _ & _ & X & _). exact X.
Qed.

Lemma beam_coverage_refuted :
  exists (k : learner) (sortC : list candidate -> list candidate) (sortE : list entry -> list entry)
    (beamWidth minCoverage : nat) (search : nat -> list candidate -> list nat -> list (list candidate)),
    sorting k sortC /\ sorting_entries k sortE /\ 1 <= beamWidth /\
    (forall n conditions outputs x, In x (concat (search n conditions outputs)) -> minCoverage <= cCovered x) /\
    exists fuel maxConditions maxHeadRefinements outputs e i c,
      growBeam k sortC sortE beamWidth minCoverage search fuel maxConditions maxHeadRefinements outputs = Some (Some e) /\
      i < length (beConditions e) - 1 /\ nth_error (beConditions e) i = Some c /\ cCovered c <= minCoverage.
Proof.
  exists SeCo, (sortBy SeCo cQuality), (sortBy SeCo beQuality), 1, 2, (fun n conds outs => match conds with [] => [[mkCand 0 0 2 [0] 3]] | [_] => [[mkCand 1 0 2 [0] 4]] | _ => [] end).
  split; [apply sortBy_sorting|]. split; [apply sortBy_sorting_entries|]. split; [auto|]. split.
  { intros n [|a [|b conds]] outs x H; simpl in H; intuition (subst; simpl; auto). }
  exists 10, 0, 0, [0], (mkEntry [mkCand 0 0 2 [0] 3; mkCand 1 0 2 [0] 4] 4 None), 0, (mkCand 0 0 2 [0] 3).
  split; [reflexivity|]. split; [simpl; lia|]. split; [reflexivity|simpl; lia].
Qed.
