(** Greedy and beam-search rule induction. *)
From Coq Require Import ZArith Arith List Bool Permutation Sorted Lia.
From Verif Require Import Lib.Arr Model.Refinement Spec.Refinement Proofs.Refinement.
Import ListNotations.
Open Scope nat_scope.

Lemma firstn_snoc_le {A} (l : list A) x i : i <= length l -> firstn i (l ++ [x]) = firstn i l.
Proof. intros. rewrite firstn_app. replace (i - length l) with 0 by lia. simpl. apply app_nil_r. Qed.

Lemma qualityOf_snoc l x : qualityOf (l ++ [x]) = cQuality x.
Proof. unfold qualityOf. rewrite rev_app_distr. reflexivity. Qed.

Lemma allowedOutputs_snoc mh outs l x :
  allowedOutputs mh outs (l ++ [x]) = if (0 <? mh) && (mh <=? length (l ++ [x])) then cOutputs x else outs.
Proof. unfold allowedOutputs. rewrite rev_app_distr. cbn [rev app]. destruct mh; reflexivity. Qed.

Section Greedy.
Variables (k : learner) (minCoverage maxConditions maxHead : nat)
  (search : nat -> list candidate -> list nat -> list (list candidate)) (outputs : list nat).

Definition chosen (conds : list candidate) : Prop :=
  forall i, i < length conds ->
    first_best k (qualityOf (firstn i conds))
      (concat (search i (firstn i conds) (allowedOutputs maxHead outputs (firstn i conds)))) (nth_error conds i).
Definition stoppable (conds : list candidate) : Prop :=
  (0 < maxConditions /\ length conds = maxConditions) \/
  (exists c, back conds = Some c /\ cCovered c <= minCoverage) \/
  (first_best k (qualityOf conds) (concat (search (length conds) conds (allowedOutputs maxHead outputs conds))) None).
Definition compOf (conds : list candidate) : single := mkSingle (back conds) (qualityOf conds).

Definition greedy_result (conds : list candidate) (comp : single) : Prop :=
  comp = compOf conds /\ chosen conds /\ stoppable conds /\ (0 < maxConditions -> length conds <= maxConditions) /\
  (forall i c, i < length conds - 1 -> nth_error conds i = Some c -> minCoverage < cCovered c).

Lemma chosen_snoc conds x : chosen conds ->
  first_best k (qualityOf conds) (concat (search (length conds) conds (allowedOutputs maxHead outputs conds))) (Some x) ->
  chosen (conds ++ [x]).
Proof.
  intros H Hx i Hi. rewrite app_length in Hi. simpl in Hi. rewrite firstn_snoc_le by lia.
  destruct (Nat.eq_dec i (length conds)) as [->|Hne].
  - rewrite firstn_all, nth_error_app2, Nat.sub_diag by lia. exact Hx.
  - rewrite nth_error_app1 by lia. apply H. lia.
Qed.

(** The state at the start of an iteration. *)
Definition greedy_state (conds : list candidate) (outs : list nat) (comp : single) : Prop :=
  comp = compOf conds /\ chosen conds /\ outs = allowedOutputs maxHead outputs conds /\
  (0 < maxConditions -> length conds <= maxConditions) /\
  (forall i c, nth_error conds i = Some c -> minCoverage < cCovered c).

Lemma greedy_step conds outs comp : greedy_state conds outs comp ->
  exists r, first_best k (qualityOf conds) (concat (search (length conds) conds outs)) r /\
    findSingle k (search (length conds) conds outs) comp
    = Some (match r with Some _ => true | None => false end,
            match r with Some x => compOf (conds ++ [x]) | None => compOf conds end).
Proof.
  intros (-> & Hc & -> & _). destruct (find_single k (search (length conds) conds (allowedOutputs maxHead outputs conds)) (compOf conds))
    as (r & Hr & E). exists r. split; [exact Hr|]. rewrite E. destruct r as [x|]; cbn [single_after].
  - unfold compOf. rewrite back_snoc, qualityOf_snoc. reflexivity.
  - reflexivity.
Qed.

Lemma greedy_next conds outs comp x : greedy_state conds outs comp ->
  (maxConditions = 0 \/ length conds < maxConditions) ->
  first_best k (qualityOf conds) (concat (search (length conds) conds outs)) (Some x) -> minCoverage < cCovered x ->
  greedy_state (conds ++ [x])
    (if (0 <? maxHead) && (maxHead <=? length (conds ++ [x])) then cOutputs x else outs) (compOf (conds ++ [x])).
Proof.
  intros (-> & Hc & -> & Hm & Hcov) Hlt Hx Hcx. split; [reflexivity|]. split; [apply chosen_snoc; auto|].
  split; [|split].
  - rewrite allowedOutputs_snoc. destruct ((0 <? maxHead) && (maxHead <=? length (conds ++ [x]))) eqn:E; auto.
    unfold allowedOutputs. destruct (rev conds) eqn:Er; auto.
    rewrite app_length in E. simpl in E.
    destruct ((1 <=? maxHead) && (maxHead <=? length conds)) eqn:E2; auto.
    apply andb_true_iff in E2. destruct E2 as [E2 E3]. apply Nat.leb_le in E2, E3.
    apply andb_false_iff in E. destruct E as [E|E]; [apply Nat.ltb_ge in E|apply Nat.leb_gt in E]; lia.
  - intros. rewrite app_length. simpl. lia.
  - intros i c Hi. destruct (Nat.lt_ge_cases i (length conds)).
    + rewrite nth_error_app1 in Hi by auto. eauto.
    + rewrite nth_error_app2 in Hi by auto. destruct (i - length conds) as [|[|?]]; try discriminate. simpl in Hi. congruence.
Qed.

Lemma greedy_partial fuel : forall conds outs comp conds' comp', greedy_state conds outs comp ->
  greedyLoop fuel k minCoverage maxConditions maxHead search (length conds) conds outs comp = Some (conds', comp') ->
  greedy_result conds' comp'.
Proof.
  induction fuel as [|fuel IH]; intros conds outs comp conds' comp' Hst; cbn [greedyLoop]; [discriminate|].
  pose proof Hst as (Ecomp & Hc & Eo & Hm & Hcov).
  destruct ((maxConditions =? 0) || (length conds <? maxConditions)) eqn:El.
  - apply orb_true_iff in El. rewrite Nat.eqb_eq, Nat.ltb_lt in El.
    destruct (greedy_step _ _ _ Hst) as (r & Hr & E). rewrite E. destruct r as [x|].
    + unfold compOf at 1. cbn [scBest]. rewrite back_snoc.
      destruct (Nat.leb_spec (cCovered x) minCoverage) as [Hx|Hx].
      * intros [= <- <-]. split; [reflexivity|]. subst outs. split; [apply chosen_snoc; auto|]. split; [|split].
        -- right. left. exists x. split; [apply back_snoc|exact Hx].
        -- intros. rewrite app_length. simpl. lia.
        -- intros i c Hi Hn. rewrite app_length in Hi. simpl in Hi. rewrite nth_error_app1 in Hn by lia. eauto.
      * replace (length conds + 1) with (length (conds ++ [x])) by (rewrite app_length; simpl; lia).
        apply IH. apply (greedy_next conds outs comp); auto.
    + intros [= <- <-]. split; [reflexivity|]. split; [exact Hc|]. split; [|split].
      * right. right. rewrite <- Eo. exact Hr.
      * exact Hm.
      * intros i c _ Hn. eauto.
  - intros [= <- <-]. apply orb_false_iff in El. rewrite Nat.eqb_neq, Nat.ltb_ge in El.
    split; [exact Ecomp|]. split; [exact Hc|]. split; [|split].
    + left. split; [lia|]. assert (length conds <= maxConditions) by (apply Hm; lia). lia.
    + exact Hm.
    + intros i c _ Hn. eauto.
Qed.

Lemma greedy_init : greedy_state [] outputs singleNew.
Proof.
  split; [reflexivity|]. split; [intros i Hi; simpl in Hi; lia|]. split; [reflexivity|].
  split; [simpl; lia|]. intros [|i] c; discriminate.
Qed.

(** Termination: every condition reduces the coverage. *)
Lemma greedy_total N
  (first : forall n outs x, In x (concat (search n [] outs)) -> cCovered x <= N)
  (decreasing : forall n conds c outs x, back conds = Some c -> In x (concat (search n conds outs)) ->
     cCovered x < cCovered c) :
  forall fuel conds outs comp, greedy_state conds outs comp ->
  (match back conds with Some c => cCovered c + 1 | None => N + 2 end) <= fuel ->
  exists conds' comp', greedyLoop fuel k minCoverage maxConditions maxHead search (length conds) conds outs comp
     = Some (conds', comp').
Proof.
  induction fuel as [|fuel IH]; intros conds outs comp Hst Hf.
  { destruct (back conds); lia. }
  cbn [greedyLoop]. destruct ((maxConditions =? 0) || (length conds <? maxConditions)) eqn:El; [|eauto].
  apply orb_true_iff in El. rewrite Nat.eqb_eq, Nat.ltb_lt in El.
  destruct (greedy_step _ _ _ Hst) as (r & Hr & E). rewrite E. destruct r as [x|]; [|eauto].
  unfold compOf at 1. cbn [scBest]. rewrite back_snoc.
  destruct (Nat.leb_spec (cCovered x) minCoverage) as [Hx|Hx]; [eauto|].
  replace (length conds + 1) with (length (conds ++ [x])) by (rewrite app_length; simpl; lia).
  apply IH; [apply (greedy_next conds outs comp); auto|]. rewrite back_snoc.
  destruct Hr as (pre & post & Ein & _).
  assert (Hin: In x (concat (search (length conds) conds outs))) by (rewrite Ein; apply in_or_app; right; left; auto).
  destruct (back conds) as [c|] eqn:Eb.
  - specialize (decreasing _ _ _ _ _ Eb Hin). lia.
  - assert (conds = []).
    { destruct conds; auto. destruct (back_Some (c :: conds)) as (? & ? & _ & Eb'); [discriminate|congruence]. }
    subst conds. specialize (first _ _ _ Hin). lia.
Qed.
End Greedy.

Lemma back_last {A} (l : list A) : nth_error l (length l - 1) = back l.
Proof. reflexivity. Qed.

Lemma greedy_lemma fuel k minCoverage maxConditions maxHead search outputs conds head :
  growGreedy fuel k minCoverage maxConditions maxHead search outputs = Some (conds, head) ->
  (forall i, i < length conds ->
    first_best k (qualityOf (firstn i conds))
      (concat (search i (firstn i conds) (allowedOutputs maxHead outputs (firstn i conds)))) (nth_error conds i)) /\
  head = nth_error conds (length conds - 1) /\
  (0 < maxConditions -> length conds <= maxConditions) /\
  (forall i c, i < length conds - 1 -> nth_error conds i = Some c -> minCoverage < cCovered c) /\
  ((0 < maxConditions /\ length conds = maxConditions) \/
   (exists c, nth_error conds (length conds - 1) = Some c /\ cCovered c <= minCoverage) \/
   first_best k (qualityOf conds) (concat (search (length conds) conds (allowedOutputs maxHead outputs conds))) None).
Proof.
  unfold growGreedy. intros H.
  destruct (greedyLoop fuel k minCoverage maxConditions maxHead search 0 [] outputs singleNew) as [[conds' comp]|] eqn:E; [|discriminate].
  injection H as <- <-.
  destruct (greedy_partial k minCoverage maxConditions maxHead search outputs fuel [] outputs singleNew conds' comp) as (-> & H1 & H2 & H3 & H4).
  - apply greedy_init.
  - exact E.
  - split; [exact H1|]. split; [reflexivity|]. split; [exact H3|]. split; [exact H4|exact H2].
Qed.

Lemma greedy_terminates k minCoverage maxConditions maxHead search outputs numExamples fuel :
  (forall n outs x, In x (concat (search n [] outs)) -> cCovered x <= numExamples) ->
  (forall n conds c outs x, nth_error conds (length conds - 1) = Some c -> In x (concat (search n conds outs)) ->
     cCovered x < cCovered c) ->
  numExamples + 2 <= fuel ->
  exists result, growGreedy fuel k minCoverage maxConditions maxHead search outputs = Some result.
Proof.
  intros H1 H2 Hf. unfold growGreedy.
  destruct (greedy_total k minCoverage maxConditions maxHead search outputs numExamples H1 H2 fuel [] outputs singleNew)
    as (conds & comp & E).
  - apply greedy_init.
  - cbn. lia.
  - cbn [length] in E. rewrite E. eauto.
Qed.

(** ** Beam search *)
Section BeamProofs.
Variables (k : learner) (sortC : list candidate -> list candidate) (sortE : list entry -> list entry)
  (beamWidth minCoverage : nat) (search : nat -> list candidate -> list nat -> list (list candidate)).
Hypothesis sortC_ok : sorting k sortC.
Hypothesis sortE_ok : sorting_entries k sortE.
Hypothesis width : 1 <= beamWidth.

(** Every condition has been found when searching for refinements of the conditions before it. *)
Definition found_conditions (conds : list candidate) : Prop :=
  forall i c, nth_error conds i = Some c -> exists n outs, In c (concat (search n (firstn i conds) outs)).

Definition entry_ok (depth : nat) (e : entry) : Prop :=
  beConditions e <> [] /\ found_conditions (beConditions e) /\ beQuality e = qualityOf (beConditions e) /\
  better k (beQuality e) minQuality /\ length (beConditions e) <= depth /\
  (beOutputs e <> None -> length (beConditions e) = depth).

Definition order_ok (depth : nat) (l : list entry) : Prop :=
  l <> [] /\ length l <= beamWidth /\ forall e, In e l -> entry_ok depth e.

Lemma entry_ok_kept d e : entry_ok d e -> entry_ok (d + 1) (keptEntry e).
Proof.
  intros (H1 & H2 & H3 & H4 & H5 & _). unfold entry_ok, keptEntry. cbn [beConditions beQuality beOutputs].
  split; [exact H1|]. split; [exact H2|]. split; [exact H3|]. split; [exact H4|]. split; [lia|]. intros H. exfalso; auto.
Qed.

Lemma entry_ok_refined d e outs n keep x : entry_ok d e -> beOutputs e <> None ->
  In x (concat (search n (beConditions e) outs)) -> better k (cQuality x) minQuality ->
  entry_ok (d + 1) (refinedEntry minCoverage e outs keep x).
Proof.
  intros (H1 & H2 & H3 & H4 & H5 & H6) Ho Hx Hq. unfold entry_ok, refinedEntry. cbn [beConditions beQuality beOutputs].
  specialize (H6 Ho).
  split; [destruct (beConditions e); discriminate|]. split; [|split; [|split; [exact Hq|]]].
  - intros i c Hi. destruct (Nat.lt_ge_cases i (length (beConditions e))) as [Hlt|Hge].
    + rewrite nth_error_app1 in Hi by auto. rewrite firstn_snoc_le by lia. eauto.
    + rewrite nth_error_app2 in Hi by auto. destruct (i - length (beConditions e)) as [|[|?]] eqn:Ei; try discriminate.
      simpl in Hi. injection Hi as <-. replace i with (length (beConditions e)) by lia.
      rewrite firstn_snoc_le, firstn_all by lia. eauto.
  - rewrite qualityOf_snoc. reflexivity.
  - rewrite app_length. simpl. split; [lia|]. intros _. lia.
Qed.

(** State of the loop over the entries of the old beam. *)
Definition new_ok (d : nat) (newOrder : list entry) (minQ : Z) : Prop :=
  length newOrder <= beamWidth /\ (forall e, In e newOrder -> entry_ok (d + 1) e) /\ better k minQ minQuality.

Lemma replaceLast_ok d e newOrder minQ : new_ok d newOrder minQ -> newOrder <> [] -> entry_ok (d + 1) e ->
  exists o q, replaceLast sortE e newOrder = Some (o, q) /\ new_ok d o q /\ o <> [] /\
    forall x, In x o -> x = e \/ In x newOrder.
Proof.
  intros (HL & HE & HQ) Hne He. unfold replaceLast.
  assert (Hlen: length newOrder - 1 < length newOrder) by (destruct newOrder; [contradiction|simpl; lia]).
  rewrite aset_Some by auto. destruct (sortE_ok (upd newOrder (length newOrder - 1) e)) as [P _].
  assert (NE: sortE (upd newOrder (length newOrder - 1) e) <> []).
  { intros E. rewrite E in P. apply Permutation_sym, Permutation_nil in P.
    apply (f_equal (@length entry)) in P. rewrite upd_length in P. simpl in P. lia. }
  assert (HI: forall x, In x (sortE (upd newOrder (length newOrder - 1) e)) -> x = e \/ In x newOrder).
  { intros x Hx. apply (Permutation_in _ (Permutation_sym P)) in Hx. eapply upd_In; eauto. }
  destruct (back_Some _ NE) as (l' & w & El & Eb). rewrite Eb. eexists _, _. split; [reflexivity|].
  split; [|split; [exact NE|exact HI]]. split; [|split].
  - rewrite <- (Permutation_length P), upd_length. exact HL.
  - intros x Hx. destruct (HI x Hx) as [->|Hx']; auto.
  - assert (Hw: entry_ok (d + 1) w).
    { assert (In w (sortE (upd newOrder (length newOrder - 1) e))) by (rewrite El; apply in_or_app; right; left; auto).
      destruct (HI w H) as [->|H']; auto. }
    apply Hw.
Qed.

Lemma include_ok d e st : new_ok d (fst st) (snd st) -> entry_ok (d + 1) e ->
  exists st', includeRefinement sortE beamWidth e st = Some st' /\ new_ok d (fst st') (snd st') /\ fst st' <> [] /\
    forall x, In x (fst st') -> x = e \/ In x (fst st).
Proof.
  destruct st as [newOrder minQ]. cbn [fst snd]. intros Hn He. unfold includeRefinement.
  destruct (Nat.ltb_spec (length newOrder) beamWidth) as [H|H].
  - eexists. split; [reflexivity|]. cbn [fst snd]. destruct Hn as (HL & HE & HQ).
    split; [|split].
    + split; [rewrite app_length; simpl; lia|]. split; [|exact HQ]. intros x Hx. apply in_app_iff in Hx.
      destruct Hx as [Hx|[<-|[]]]; auto.
    + destruct newOrder; discriminate.
    + intros x Hx. apply in_app_iff in Hx. destruct Hx as [Hx|[<-|[]]]; auto.
  - destruct (replaceLast_ok d e newOrder minQ Hn) as (o & q & E & H1 & H2 & H3); auto.
    + intros ->. simpl in H. lia.
    + exists (o, q). rewrite E. auto.
Qed.

Lemma include_all d keep e outs n cands : entry_ok d e -> beOutputs e <> None ->
  (forall x, In x cands -> In x (concat (search n (beConditions e) outs)) /\ better k (cQuality x) minQuality) ->
  forall st, new_ok d (fst st) (snd st) ->
  exists st', forL cands (fun x => includeRefinement sortE beamWidth (refinedEntry minCoverage e outs keep x)) st = Some st' /\
    new_ok d (fst st') (snd st') /\ (cands <> [] \/ fst st <> [] -> fst st' <> []).
Proof.
  intros He Ho. induction cands as [|x cands IH]; intros Hc st Hst.
  - exists st. split; [reflexivity|]. split; [exact Hst|]. intros [H|H]; auto.
  - cbn [forL]. destruct (include_ok d (refinedEntry minCoverage e outs keep x) st Hst) as (st1 & E1 & H1 & N1 & _).
    { destruct (Hc x (or_introl eq_refl)) as [Hx1 Hx2]. eapply entry_ok_refined; eauto. }
    rewrite E1. destruct (IH (fun y Hy => Hc y (or_intror Hy)) st1 H1) as (st2 & E2 & H2 & N2).
    exists st2. split; [exact E2|]. split; [exact H2|]. auto.
Qed.

Lemma refineEntry_ok d keep e newOrder minQ result n : new_ok d newOrder minQ -> entry_ok d e ->
  exists newOrder' minQ' result' n',
    refineEntry k sortC sortE beamWidth minCoverage search keep e (newOrder, minQ, result, n)
      = Some (newOrder', minQ', result', n') /\ new_ok d newOrder' minQ' /\ newOrder' <> [] /\
    (result' = true -> result = true \/ exists x outs m, beOutputs e = Some outs /\ In x (concat (search m (beConditions e) outs))).
Proof.
  intros Hn He. unfold refineEntry.
  assert (Kept: exists newOrder' minQ',
    (if length newOrder <? beamWidth then Some (newOrder ++ [keptEntry e], minQ) else
     if negb (compare k minQ (beQuality e)) then replaceLast sortE (keptEntry e) newOrder else Some (newOrder, minQ))
    = Some (newOrder', minQ') /\ new_ok d newOrder' minQ' /\ newOrder' <> []).
  { destruct (Nat.ltb_spec (length newOrder) beamWidth) as [H|H].
    - destruct (include_ok d (keptEntry e) (newOrder, minQ) Hn (entry_ok_kept _ _ He)) as (st' & E & H1 & H2 & _).
      unfold includeRefinement in E. destruct (Nat.ltb_spec (length newOrder) beamWidth); [|lia]. injection E as <-.
      eexists _, _. split; [reflexivity|]. split; [exact H1|exact H2].
    - assert (newOrder <> []) by (intros ->; simpl in H; lia).
      destruct (negb (compare k minQ (beQuality e))).
      + destruct (replaceLast_ok d (keptEntry e) newOrder minQ Hn) as (o & q & E & H1 & H2 & _); auto.
        { apply entry_ok_kept; auto. }
        rewrite E. eauto.
      + eauto. }
  assert (KeptQ: forall (result : bool) (n : nat), exists newOrder' minQ' result' n',
    (if length newOrder <? beamWidth then Some (newOrder ++ [keptEntry e], minQ, result, n) else
     if negb (compare k minQ (beQuality e)) then
       let* (newOrder', minQ') := replaceLast sortE (keptEntry e) newOrder in Some (newOrder', minQ', result, n)
     else Some (newOrder, minQ, result, n)) = Some (newOrder', minQ', result', n') /\ new_ok d newOrder' minQ' /\
     newOrder' <> [] /\ result' = result).
  { intros r m. destruct Kept as (o & q & E & H1 & H2).
    destruct (length newOrder <? beamWidth); [injection E as <- <-; eauto 10|].
    destruct (negb (compare k minQ (beQuality e))).
    - rewrite E. eauto 10.
    - injection E as <- <-. eauto 10. }
  destruct (beOutputs e) as [outs|] eqn:Eo.
  - destruct (find_fixed k sortC beamWidth minQ (search n (beConditions e) outs) sortC_ok width)
      as (found & c & E & _ & (F1 & F2 & F3 & F4 & F5) & Hfound).
    rewrite E. destruct found.
    + destruct (fun A B => include_all d keep e outs n (fcOrder c) He A B (newOrder, minQ)) as (st' & E' & H1 & H2).
      * congruence.
      * intros x Hx. destruct (F3 x Hx) as [Hx1 Hx2]. split; [exact Hx1|]. destruct Hn as (_ & _ & Hq). bz.
      * exact Hn.
      * rewrite E'. destruct st' as [o q]. cbn [fst snd] in *. eexists _, _, _, _. split; [reflexivity|].
        split; [exact H1|]. split; [apply H2; left; apply Hfound; reflexivity|].
        intros _. right. destruct (fcOrder c) as [|x l]; [exfalso; apply Hfound; auto|].
        exists x, outs, n. split; [reflexivity|]. apply F3. left. auto.
    + destruct (KeptQ result (n + 1)) as (o & q & r & m & E' & H1 & H2 & ->). rewrite E'.
      eexists _, _, _, _. split; [reflexivity|]. auto.
  - destruct (KeptQ result n) as (o & q & r & m & E' & H1 & H2 & ->). rewrite E'.
    eexists _, _, _, _. split; [reflexivity|]. auto.
Qed.

Lemma refineBeam_ok d keep order n : order_ok d order ->
  exists result order' n', refineBeam k sortC sortE beamWidth minCoverage search keep order n = Some (result, order', n') /\
    order_ok (d + 1) order' /\
    (result = true -> exists e x outs m, In e order /\ beOutputs e = Some outs /\ In x (concat (search m (beConditions e) outs))).
Proof.
  intros (Hne & HL & HE). unfold refineBeam. destruct (back_Some _ Hne) as (l' & w & El & Eb). rewrite Eb.
  destruct (forL_inv (fun done st => let '(newOrder, minQ, result, n) := st in
      new_ok d newOrder minQ /\ (done <> [] -> newOrder <> []) /\
      (result = true -> exists e x outs m, In e order /\ beOutputs e = Some outs /\ In x (concat (search m (beConditions e) outs))))
    (refineEntry k sortC sortE beamWidth minCoverage search keep) order [] ([], beQuality w, false, n)) as ([[[o q] r] m] & E & H).
  - split; [|split; [intros H; contradiction|discriminate]]. split; [simpl; lia|]. split; [intros ? []|].
    apply (HE w). rewrite El. apply in_or_app. right. left. auto.
  - intros p a rr [[[o q] r] m] Ep (H1 & H2 & H3). cbn [app] in Ep.
    assert (Ha: In a order) by (rewrite Ep; apply in_or_app; right; left; auto).
    destruct (refineEntry_ok d keep a o q r m H1 (HE a Ha)) as (o' & q' & r' & m' & E' & G1 & G2 & G3).
    exists (o', q', r', m'). split; [exact E'|]. split; [exact G1|]. split; [auto|].
    intros Hr. destruct (G3 Hr) as [Hr'|(x & outs & mm & Ho & Hx)]; auto. exists a, x, outs, mm. auto.
  - rewrite E. eexists _, _, _. split; [reflexivity|]. cbn [app] in H. destruct H as ((G1 & G2 & G3) & H2 & H3).
    split; [|exact H3]. split; [auto|]. split; auto.
Qed.

Definition beam_result (maxConditions depth : nat) (order : list entry) : Prop :=
  exists d, order_ok d order /\ (0 < maxConditions -> d <= Nat.max maxConditions depth).

Lemma beamLoop_partial maxConditions maxHead fuel : forall depth order n order',
  order_ok depth order ->
  beamLoop k sortC sortE beamWidth minCoverage search fuel maxConditions maxHead depth order n = Some order' ->
  exists d, order_ok d order' /\ (0 < maxConditions -> d <= Nat.max maxConditions depth).
Proof.
  induction fuel as [|fuel IH]; intros depth order n order' Ho; cbn [beamLoop]; [discriminate|].
  destruct ((maxConditions =? 0) || (depth <? maxConditions)) eqn:El.
  - apply orb_true_iff in El. rewrite Nat.eqb_eq, Nat.ltb_lt in El.
    destruct (refineBeam_ok depth ((0 <? maxHead) && (maxHead <=? depth + 1)) order n Ho) as (r & o & m & E & H1 & H2).
    rewrite E. destruct r.
    + intros H. destruct (IH _ _ _ _ H1 H) as (d & Hd & Hm). exists d. split; [exact Hd|]. intros Hp. specialize (Hm Hp). lia.
    + intros [= <-]. exists (depth + 1). split; [exact H1|]. lia.
  - intros [= <-]. exists depth. split; [exact Ho|]. lia.
Qed.

Lemma covered_bound N
  (first : forall n outs x, In x (concat (search n [] outs)) -> cCovered x <= N)
  (decreasing : forall n conds c outs x, nth_error conds (length conds - 1) = Some c -> In x (concat (search n conds outs)) ->
     cCovered x < cCovered c) conds : found_conditions conds ->
  forall i c, nth_error conds i = Some c -> cCovered c + i <= N.
Proof.
  intros Hf i. induction i as [|i IH]; intros c Hc.
  - destruct (Hf _ _ Hc) as (n & outs & Hin). simpl in Hin. specialize (first _ _ _ Hin). lia.
  - destruct (nth_error conds i) as [c'|] eqn:Ec'.
    + specialize (IH _ eq_refl). destruct (Hf _ _ Hc) as (n & outs & Hin).
      assert (Hi: i < length conds) by (apply nth_error_Some; congruence).
      assert (Hl: nth_error (firstn (S i) conds) (length (firstn (S i) conds) - 1) = Some c').
      { rewrite firstn_length. replace (Nat.min (S i) (length conds) - 1) with i by lia.
        rewrite <- Ec'. rewrite <- (firstn_skipn (S i) conds) at 2. rewrite nth_error_app1; auto. rewrite firstn_length. lia. }
      specialize (decreasing _ _ _ _ _ Hl Hin). lia.
    + apply nth_error_None in Ec'. assert (S i < length conds) by (apply nth_error_Some; congruence). lia.
Qed.

Lemma beamLoop_total N
  (first : forall n outs x, In x (concat (search n [] outs)) -> cCovered x <= N)
  (decreasing : forall n conds c outs x, nth_error conds (length conds - 1) = Some c -> In x (concat (search n conds outs)) ->
     cCovered x < cCovered c) maxConditions maxHead fuel : forall depth order n,
  order_ok depth order -> N + 2 <= fuel + depth -> 1 <= fuel ->
  exists order', beamLoop k sortC sortE beamWidth minCoverage search fuel maxConditions maxHead depth order n = Some order'.
Proof.
  induction fuel as [|fuel IH]; intros depth order n Ho Hf H1f; [lia|]. cbn [beamLoop].
  destruct ((maxConditions =? 0) || (depth <? maxConditions)); [|eauto].
  destruct (refineBeam_ok depth ((0 <? maxHead) && (maxHead <=? depth + 1)) order n Ho) as (r & o & m & E & H1 & H2).
  rewrite E. destruct r; [|eauto]. destruct (H2 eq_refl) as (e & x & outs & mm & He & Heo & Hx).
  destruct Ho as (_ & _ & HE). destruct (HE e He) as (K1 & K2 & _ & _ & _ & K6).
  assert (Hd: length (beConditions e) = depth) by (apply K6; congruence).
  destruct (back_Some _ K1) as (l' & c & El & Eb). unfold back, aget in Eb.
  pose proof (covered_bound N first decreasing _ K2 _ _ Eb) as HB.
  specialize (decreasing _ _ _ _ _ Eb Hx).
  assert (1 <= length (beConditions e)) by (rewrite El, app_length; simpl; lia).
  apply IH; [exact H1|lia|lia].
Qed.

Lemma beam_start outputs :
  exists found c, findFixed k sortC (search 0 [] outputs) (fixedNew beamWidth minQuality) = Some (found, c) /\
    (found = true -> forall keep, order_ok 1 (map (initializeEntry outputs keep) (fcOrder c))) /\
    (found = false -> forall x, In x (concat (search 0 [] outputs)) -> ~ better k (cQuality x) minQuality).
Proof.
  destruct (find_fixed k sortC beamWidth minQuality (search 0 [] outputs) sortC_ok width)
    as (found & c & E & _ & (F1 & F2 & F3 & F4 & F5) & Hfound).
  exists found, c. split; [exact E|]. split.
  - intros Hf keep. apply Hfound in Hf. split; [|split].
    + destruct (fcOrder c); [contradiction|discriminate].
    + rewrite map_length. exact F2.
    + intros e He. apply in_map_iff in He. destruct He as (x & <- & Hx). destruct (F3 x Hx) as [H1 H2].
      unfold entry_ok, initializeEntry. cbn [beConditions beQuality beOutputs].
      split; [discriminate|]. split; [|split; [reflexivity|split; [exact H2|split; [simpl; lia|reflexivity]]]].
      intros [|i] y Hy; simpl in Hy; [injection Hy as <-|destruct i; discriminate]. exists 0, outputs. exact H1.
  - intros Hf. destruct (fcOrder c) eqn:Eo; [auto|]. assert (found = true) by (apply Hfound; discriminate). congruence.
Qed.

Lemma beam_lemma fuel maxConditions maxHead outputs result :
  growBeam k sortC sortE beamWidth minCoverage search fuel maxConditions maxHead outputs = Some result ->
  match result with
  | Some e => beConditions e <> [] /\ (0 < maxConditions -> length (beConditions e) <= maxConditions) /\
      (forall i c, nth_error (beConditions e) i = Some c -> exists n outs, In c (concat (search n (firstn i (beConditions e)) outs))) /\
      beQuality e = qualityOf (beConditions e) /\ better k (beQuality e) 0%Z
  | None => forall x, In x (concat (search 0 [] outputs)) -> ~ better k (cQuality x) 0%Z
  end.
Proof.
  unfold growBeam. destruct (beam_start outputs) as (found & c & E & H1 & H2). rewrite E. destruct found.
  - specialize (H1 eq_refl (maxHead =? 1)).
    destruct (beamLoop k sortC sortE beamWidth minCoverage search fuel maxConditions maxHead 1
      (map (initializeEntry outputs (maxHead =? 1)) (fcOrder c)) 1) as [order|] eqn:El; [|discriminate].
    destruct (beamLoop_partial maxConditions maxHead fuel _ _ _ _ H1 El) as (d & (G1 & G2 & G3) & Hd).
    destruct order as [|e l]; [contradiction|]. intros [= <-].
    destruct (G3 e (or_introl eq_refl)) as (K1 & K2 & K3 & K4 & K5 & _).
    split; [exact K1|]. split; [intros Hp; specialize (Hd Hp); lia|]. split; [exact K2|]. split; [exact K3|exact K4].
  - intros [= <-]. apply H2. reflexivity.
Qed.

Lemma beam_terminates numExamples fuel maxConditions maxHead outputs :
  (forall n outs x, In x (concat (search n [] outs)) -> cCovered x <= numExamples) ->
  (forall n conds c outs x, nth_error conds (length conds - 1) = Some c -> In x (concat (search n conds outs)) ->
     cCovered x < cCovered c) ->
  numExamples + 1 <= fuel ->
  exists result, growBeam k sortC sortE beamWidth minCoverage search fuel maxConditions maxHead outputs = Some result.
Proof.
  intros HF HD Hf. unfold growBeam. destruct (beam_start outputs) as (found & c & E & H1 & H2). rewrite E. destruct found; [|eauto].
  specialize (H1 eq_refl (maxHead =? 1)).
  destruct (beamLoop_total numExamples HF HD maxConditions maxHead fuel 1 _ 1 H1) as (order & El); [lia|lia|].
  rewrite El. destruct (beamLoop_partial maxConditions maxHead fuel _ _ _ _ H1 El) as (d & (G1 & _) & _).
  destruct order; [contradiction|]. cbn. eauto.
Qed.
End BeamProofs.
