(** Proofs about stopping criteria, the assemblage of rules and the removal of unused rules. *)
From Coq Require Import ZArith QArith Arith List Bool Lia Permutation Lqa.
From Verif Require Import Lib.Arr Model.Containers Model.Rules Model.Stopping Spec.Containers Spec.Rules Spec.Stopping
  Proofs.Containers Proofs.Rules Proofs.Prediction Proofs.Parallel.
Import ListNotations.
Open Scope nat_scope.

(** ** Numbers of used rules *)

Lemma last_reported_app l1 l2 :
  last_reported (l1 ++ l2) = if last_reported l2 =? 0 then last_reported l1 else last_reported l2.
Proof.
  induction l1 as [|n l1 IH]; simpl. { destruct (Nat.eqb_spec (last_reported l2) 0); auto. }
  rewrite IH. destruct (Nat.eqb_spec (last_reported l2) 0); auto.
  destruct (Nat.eqb_spec (last_reported l2) 0); auto. lia.
Qed.

Lemma last_reported_snoc l n : last_reported (l ++ [n]) = if n =? 0 then last_reported l else n.
Proof. rewrite last_reported_app. simpl. auto. Qed.

(** ** Lists of criteria *)

Lemma firstn_S_nth {A} (l : list A) i x : nth_error l i = Some x -> firstn (S i) l = firstn i l ++ [x].
Proof.
  revert i. induction l as [|a l IH]; intros [|i] H; try discriminate.
  - injection H as ->. auto.
  - simpl in H. rewrite (firstn_cons (S i)), (firstn_cons i), (IH i H). auto.
Qed.

Lemma C23_lemma {E C} (test : E -> nat -> C -> option (result * C)) (e : E) (numRules : nat) (criteria : list C)
  (outcomes : list (result * C)) :
  Forall2 (fun c o => test e numRules c = Some o) criteria outcomes ->
  listTest test e numRules criteria =
    Some (mkResult (existsb (fun o => rStop (fst o)) outcomes) (last_reported (map (fun o => rNumUsed (fst o)) outcomes)),
          map snd outcomes).
Proof.
  intros H. unfold listTest.
  assert (L: length criteria = length outcomes) by (clear -H; induction H; simpl; auto).
  pose (Inv := fun i (st : result * list C) =>
    st = (mkResult (existsb (fun o => rStop (fst o)) (firstn i outcomes))
            (last_reported (map (fun o => rNumUsed (fst o)) (firstn i outcomes))),
          map snd (firstn i outcomes) ++ skipn i criteria)).
  match goal with |- forN _ _ ?body _ = _ =>
  destruct (forN_inv Inv body (length criteria) 0 (noResult, criteria)) as (st & E1 & E2) end.
  - reflexivity.
  - intros i st Hi ->. simpl in Hi.
    assert (Hi2: i < length outcomes) by lia.
    destruct (nth_error criteria i) as [c|] eqn:Ec; [|apply nth_error_None in Ec; lia].
    destruct (nth_error outcomes i) as [[r c']|] eqn:Eo; [|apply nth_error_None in Eo; lia].
    assert (Ht: test e numRules c = Some (r, c')).
    { clear -H Ec Eo. revert i Ec Eo. induction H; destruct i; simpl; intros; try discriminate.
      - injection Ec as ->. injection Eo as ->. auto.
      - eauto. }
    assert (Lf: length (map snd (firstn i outcomes)) = i) by (rewrite map_length, firstn_length; lia).
    assert (Sk: skipn i criteria = c :: skipn (S i) criteria) by (apply skipn_nth; auto).
    unfold aget. rewrite nth_error_app2 by lia. rewrite Lf, Nat.sub_diag, Sk. simpl nth_error. cbv beta iota.
    rewrite Ht. rewrite aset_Some by (rewrite app_length; simpl; lia).
    eexists. split; [reflexivity|]. unfold Inv.
    assert (F: firstn (S i) outcomes = firstn i outcomes ++ [(r, c')]).
    { apply firstn_S_nth; auto. }
    rewrite F, existsb_app, !map_app, last_reported_app. simpl.
    rewrite upd_app2 by lia. rewrite Lf, Nat.sub_diag. simpl. rewrite orb_false_r, <- app_assoc. simpl.
    do 2 f_equal. destruct (Nat.eqb_spec (rNumUsed r) 0) as [->|]; simpl; auto.
  - rewrite E1. unfold Inv in E2. rewrite Nat.add_0_l in E2. rewrite E2, skipn_all, app_nil_r.
    rewrite L, firstn_all. auto.
Qed.

(** ** Sequential assemblage *)

Section Assemblage.
Context {R T C : Type} (test : T -> nat -> C -> option (result * C)) (induce : T -> option R * T).

Definition keep (old new : nat) : nat := if new =? 0 then old else new.

Lemma induceLoop_iff fuel : forall t c n used b b' used' t',
  induceLoop test induce fuel t c n used b = Some (Some (b', used', t')) <->
  exists ts cs rules results, length rules < fuel /\ ts 0 = t /\ cs 0 = c /\
    training_run test induce n ts cs rules results t' /\
    b' = mkBuilder (bDefault b) (bRules b ++ rules) (bNumUsed b) /\
    used' = keep used (last_reported (map rNumUsed results)).
Proof.
  induction fuel as [|fuel IH]; intros t c n used b b' used' t'; simpl.
  { split; [discriminate|]. intros (ts & cs & rules & results & H & _). lia. }
  split.
  - intros H. destruct (test t n c) as [[r c1]|] eqn:Et; [|discriminate].
    destruct r as [stop u]. simpl in H. destruct stop.
    + injection H as <- <- <-.
      exists (fun _ => t), (fun i => if i =? 0 then c else c1), [], [mkResult true u].
      simpl. split; [lia|]. split; auto. split; auto. split; [|split].
      * split; auto. split; [|split].
        -- intros [|[|i]] r0 H0; simpl in H0; try discriminate. injection H0 as <-. simpl. rewrite Nat.add_0_r. auto.
        -- intros [|i] r0 H0; discriminate.
        -- exists true, u. auto.
      * rewrite app_nil_r. destruct b; auto.
      * unfold keep. destruct (Nat.eqb_spec u 0); auto.
    + destruct (induce t) as [[rule|] t1] eqn:Ei.
      * apply IH in H as (ts & cs & rules & results & H1 & H2 & H3 & H4 & H5 & H6).
        exists (fun i => match i with 0 => t | S j => ts j end), (fun i => match i with 0 => c | S j => cs j end),
          (rule :: rules), (mkResult false u :: results).
        simpl. split; [lia|]. split; auto. split; auto. split; [|split].
        -- destruct H4 as (A1 & A2 & A3 & A4). split; [simpl; lia|]. split; [|split].
           ++ intros [|i] r0 H0; simpl in H0.
              ** injection H0 as <-. rewrite Nat.add_0_r. simpl. subst c1. auto.
              ** apply A2 in H0. replace (n + S i) with (n + 1 + i) by lia. auto.
           ++ intros [|i] r0 H0; simpl in H0.
              ** injection H0 as <-. simpl. split; eauto. subst t1. auto.
              ** apply A3 in H0 as ((u0 & B1) & B2). split; [exists u0; auto|]. auto.
           ++ destruct A4 as (stop & u0 & B1 & B2). exists stop, u0. split; auto.
        -- rewrite H5. simpl. rewrite <- app_assoc. auto.
        -- rewrite H6. unfold keep. destruct (Nat.eqb_spec u 0); simpl; auto.
           ++ subst u. simpl. destruct (Nat.eqb_spec (last_reported (map rNumUsed results)) 0); auto.
              destruct (Nat.eqb_spec (last_reported (map rNumUsed results)) 0); auto; lia.
           ++ destruct (Nat.eqb_spec (last_reported (map rNumUsed results)) 0); simpl; auto.
              ** destruct (Nat.eqb_spec u 0); auto; lia.
              ** destruct (Nat.eqb_spec (last_reported (map rNumUsed results)) 0); auto; lia.
      * injection H as <- <- <-.
        exists (fun _ => t), (fun i => if i =? 0 then c else c1), [], [mkResult false u].
        simpl. split; [lia|]. split; auto. split; auto. split; [|split].
        -- split; auto. split; [|split].
           ++ intros [|[|i]] r0 H0; simpl in H0; try discriminate. injection H0 as <-. simpl. rewrite Nat.add_0_r. auto.
           ++ intros [|i] r0 H0; discriminate.
           ++ exists false, u. auto.
        -- rewrite app_nil_r. destruct b; auto.
        -- unfold keep. destruct (Nat.eqb_spec u 0); auto.
  - intros (ts & cs & rules & results & H1 & H2 & H3 & H4 & H5 & H6).
    destruct H4 as (A1 & A2 & A3 & A4).
    destruct results as [|r results]; [simpl in A1; lia|].
    assert (Et: test t n c = Some (r, cs 1)).
    { specialize (A2 0 r eq_refl). simpl in A2. rewrite Nat.add_0_r in A2. subst. auto. }
    rewrite Et. destruct rules as [|rule rules].
    + simpl in A1. assert (results = []) by (destruct results; auto; simpl in A1; lia). subst results.
      destruct A4 as (stop & u & B1 & B2). simpl in B1. injection B1 as ->.
      simpl in *. destruct stop.
      * subst. rewrite app_nil_r. unfold keep. destruct b. simpl. do 4 f_equal. destruct (Nat.eqb_spec u 0); auto.
      * rewrite H2 in B2. rewrite B2. subst. rewrite app_nil_r. unfold keep. destruct b. simpl. do 4 f_equal.
        destruct (Nat.eqb_spec u 0); auto.
    + destruct (A3 0 rule eq_refl) as ((u & B1) & B2). simpl in B1. injection B1 as ->. simpl.
      rewrite H2 in B2. rewrite B2. simpl.
      apply IH. exists (fun i => ts (S i)), (fun i => cs (S i)), rules, results.
      simpl in *. split; [lia|]. split; auto. split; auto. split; [|split].
      * split; [lia|]. split; [|split].
        -- intros i r0 H0. specialize (A2 (S i) r0 H0). replace (n + S i) with (n + 1 + i) in A2 by lia. auto.
        -- intros i r0 H0. specialize (A3 (S i) r0 H0). auto.
        -- auto.
      * rewrite H5. simpl. rewrite <- app_assoc. auto.
      * rewrite H6. unfold keep. destruct (Nat.eqb_spec u 0); simpl; auto.
        -- subst u. simpl. destruct (Nat.eqb_spec (last_reported (map rNumUsed results)) 0); auto.
           destruct (Nat.eqb_spec (last_reported (map rNumUsed results)) 0); auto; lia.
        -- destruct (Nat.eqb_spec (last_reported (map rNumUsed results)) 0); simpl; auto.
           ++ destruct (Nat.eqb_spec u 0); auto; lia.
           ++ destruct (Nat.eqb_spec (last_reported (map rNumUsed results)) 0); auto; lia.
Qed.

Lemma C42_lemma (fuel : nat) (default : option R) (t : T) (c : C) (b b' : builder R) (t' : T) :
  let n0 := match default with Some _ => 1 | None => 0 end in
  induceRules test induce fuel default t c b = Some (Some (b', t')) <->
  exists ts cs rules results, length rules < fuel /\ ts 0 = t /\ cs 0 = c /\
    training_run test induce n0 ts cs rules results t' /\
    b' = mkBuilder (match default with Some r => Some r | None => bDefault b end) (bRules b ++ rules)
           (last_reported (map rNumUsed results)).
Proof.
  intros n0. unfold induceRules. fold n0.
  set (b0 := match default with Some r => bSetDefault r b | None => b end).
  split.
  - intros H. destruct (induceLoop test induce fuel t c n0 0 b0) as [[[[b1 u1] t1]|]|] eqn:E; try discriminate.
    injection H as <- <-.
    apply induceLoop_iff in E as (ts & cs & rules & results & H1 & H2 & H3 & H4 & H5 & H6).
    exists ts, cs, rules, results. repeat match goal with |- _ /\ _ => split end; auto.
    subst b1 u1. unfold bSetNumUsed, b0, keep. destruct default; simpl; f_equal;
      destruct (Nat.eqb_spec (last_reported (map rNumUsed results)) 0); auto.
  - intros (ts & cs & rules & results & H1 & H2 & H3 & H4 & H5).
    assert (E: induceLoop test induce fuel t c n0 0 b0 =
      Some (Some (mkBuilder (bDefault b0) (bRules b0 ++ rules) (bNumUsed b0),
                  last_reported (map rNumUsed results), t'))).
    { apply induceLoop_iff. exists ts, cs, rules, results. repeat match goal with |- _ /\ _ => split end; auto.
      unfold keep. destruct (Nat.eqb_spec (last_reported (map rNumUsed results)) 0); auto. }
    rewrite E. subst b'. unfold bSetNumUsed, b0. destruct default; auto.
Qed.

(** Training cannot continue once a criterion stops at [m] rules. *)
Lemma induceLoop_bounded (P : C -> Prop) (m : nat) :
  (forall t n c r c', P c -> test t n c = Some (r, c') -> P c' /\ (m <= n -> rStop r = true)) ->
  forall fuel t c n used b, P c -> n <= m -> m < n + fuel ->
    induceLoop test induce fuel t c n used b <> Some None.
Proof.
  intros HP. induction fuel as [|fuel IH]; intros t c n used b Hc Hn Hf; [lia|]. simpl.
  destruct (test t n c) as [[r c1]|] eqn:E; [|discriminate].
  destruct (HP _ _ _ _ _ Hc E) as (Hc1 & Hs). destruct (rStop r) eqn:Er; [discriminate|].
  destruct (induce t) as [[rule|] t1]; [|discriminate].
  apply IH; auto; destruct (Nat.le_gt_cases m n); try lia; specialize (Hs H); discriminate.
Qed.

Lemma run_bounded (P : C -> Prop) (m : nat) n0 ts cs rules results final :
  (forall t n c r c', P c -> test t n c = Some (r, c') -> P c' /\ (m <= n -> rStop r = true)) ->
  P (cs 0) -> n0 <= m ->
  training_run test induce n0 ts cs rules results final -> n0 + length rules <= m.
Proof.
  intros HP H0 Hn (A1 & A2 & A3 & A4).
  assert (Hc: forall i, i <= length rules -> P (cs i)).
  { induction i as [|i IH]; intros Hi; auto.
    destruct (nth_error results i) as [r|] eqn:E; [|apply nth_error_None in E; lia].
    specialize (A2 _ _ E). rewrite Nat.add_1_r in A2. apply HP in A2; [apply A2|apply IH; lia]. }
  destruct rules as [|r0 rules0] using rev_ind; [simpl; lia|]. clear IHrules0.
  rewrite app_length in *. simpl in *.
  destruct (A3 (length rules0) r0) as ((u & B) & _).
  { rewrite nth_error_app2 by lia. rewrite Nat.sub_diag. auto. }
  pose proof (A2 _ _ B) as B2. apply HP in B2 as (_ & B2); [|apply Hc; lia]. simpl in B2.
  destruct (Nat.le_gt_cases m (n0 + length rules0)) as [Hl|Hl]; [|lia]. specialize (B2 Hl). discriminate.
Qed.

End Assemblage.

(** ** Removal of unused rules *)

Lemma bRemoveLast_snoc {R} (d : option R) l r u : bRemoveLast (mkBuilder d (l ++ [r]) u) = Some (mkBuilder d l u).
Proof. unfold bRemoveLast. simpl. rewrite rev_app_distr. simpl. rewrite rev_involutive. auto. Qed.

Lemma removeLoop_ok {R} (d : option R) u0 used : forall fuel l,
  let k := match d with Some _ => 1 | None => 0 end in
  0 < used -> length l < fuel ->
  removeLoop fuel used (mkBuilder d l u0) = Some (mkBuilder d (firstn (used - k) l) u0).
Proof.
  induction fuel as [|fuel IH]; intros l k Hu Hf; [lia|]. simpl. unfold bGetNumRules. simpl. fold k.
  destruct (Nat.ltb_spec used (length l + k)).
  - destruct l as [|r l] using rev_ind.
    + simpl in *. assert (k <= 1) by (unfold k; destruct d; lia). lia.
    + clear IHl. rewrite bRemoveLast_snoc. rewrite app_length in *. simpl in *.
      rewrite IH by lia. fold k. rewrite firstn_app. replace (used - k - length l) with 0 by lia.
      simpl. rewrite app_nil_r. auto.
  - rewrite firstn_all2 by lia. auto.
Qed.

Lemma fold_rlAddRule {R} (l : list R) : forall rl, fold_left rlAddRule l rl =
  mkRuleList (rlDefault rl) (rlRules rl ++ l) (rlNumUsed rl) (rlPrecedence rl).
Proof.
  induction l as [|r l IH]; intros rl; simpl.
  - rewrite app_nil_r. destruct rl; auto.
  - rewrite IH. simpl. rewrite <- app_assoc. auto.
Qed.

Lemma bBuild_eq {R} p (b : builder R) : bBuild p b = mkRuleList (bDefault b) (bRules b) (bNumUsed b) p.
Proof. unfold bBuild. rewrite fold_rlAddRule. destruct (bDefault b); auto. Qed.

Lemma visit_used {R} (l : ruleList R) : rlNumUsed l <= rlGetNumRules l ->
  rlVisitUsed l = Some (expected_order (rlDefault l) (rlRules l) (rlPrecedence l) (rlGetNumUsed l)).
Proof.
  intros H. unfold rlVisitUsed. destruct (used_loops l 0 H) as (L & _). rewrite L.
  unfold limitRules. simpl. rewrite forL_collect. auto.
Qed.

Lemma visit_all {R} (l : ruleList R) :
  rlVisit l = Some (expected_order (rlDefault l) (rlRules l) (rlPrecedence l) (rlGetNumRules l)).
Proof.
  assert (E: rlVisit l = rlVisitUsed (mkRuleList (rlDefault l) (rlRules l) 0 (rlPrecedence l))).
  { unfold rlVisit, rlVisitUsed, rlBegin, rlEnd, rlUsedBegin, rlUsedEnd, rlGetNumUsed, rlGetNumRules. auto. }
  rewrite E. rewrite visit_used by (simpl; lia). auto.
Qed.

Lemma C43_lemma {R} (b : builder R) : bNumUsed b <= bGetNumRules b ->
  exists b', removeUnusedRules b = Some b' /\
    bDefault b' = bDefault b /\ bNumUsed b' = 0 /\
    (exists k, bRules b' = firstn k (bRules b)) /\
    (forall precedence, rlVisit (bBuild precedence b') = rlVisitUsed (bBuild precedence b) /\
       rlVisitUsed (bBuild precedence b') = rlVisitUsed (bBuild precedence b) /\
       rlGetNumRules (bBuild precedence b') = rlGetNumUsed (bBuild precedence b)).
Proof.
  intros H. unfold removeUnusedRules. destruct b as [d l u]. simpl in *.
  set (k := match d with Some _ => 1 | None => 0 end).
  assert (G: exists b', (if 0 <? u then
      let* b := removeLoop (bGetNumRules (mkBuilder d l u) + 1) u (mkBuilder d l u) in Some (bSetNumUsed 0 b)
      else Some (mkBuilder d l u)) = Some b' /\
      b' = mkBuilder d (firstn (if u =? 0 then length l else u - k) l) 0).
  { destruct (Nat.ltb_spec 0 u).
    - rewrite removeLoop_ok; auto; [|unfold bGetNumRules; simpl; lia]. unfold bSetNumUsed. simpl.
      eexists. split; [reflexivity|]. destruct (Nat.eqb_spec u 0); auto; lia.
    - assert (u = 0) by lia. subst u. eexists. split; [reflexivity|]. simpl. rewrite firstn_all. auto. }
  destruct G as (b' & -> & ->). eexists. split; [reflexivity|]. simpl. split; auto. split; auto. split; eauto.
  intros p. unfold bGetNumRules in H. simpl in H. fold k in H.
  assert (Hk: k <= 1) by (unfold k; destruct d; lia).
  assert (E: rlVisit (bBuild p (mkBuilder d (firstn (if u =? 0 then length l else u - k) l) 0)) =
             rlVisitUsed (bBuild p (mkBuilder d l u)) /\
             rlGetNumRules (bBuild p (mkBuilder d (firstn (if u =? 0 then length l else u - k) l) 0)) =
             rlGetNumUsed (bBuild p (mkBuilder d l u))).
  { rewrite !bBuild_eq. rewrite visit_all, visit_used by (unfold rlGetNumRules; simpl; fold k; lia).
    unfold rlGetNumUsed, rlGetNumRules. simpl. fold k. rewrite !firstn_length.
    destruct (Nat.eqb_spec u 0) as [->|Hu].
    - simpl. rewrite ?firstn_all, ?Nat.min_id. auto.
    - destruct (Nat.ltb_spec 0 u); [|lia]. rewrite Nat.min_l by lia. split; [|lia]. f_equal.
      unfold expected_order. subst k. destruct d; simpl in *; rewrite firstn_firstn.
      + replace (Nat.min (u - 1 + 1 - 1) (u - 1)) with (u - 1) by lia. auto.
      + f_equal. lia. }
  destruct E as (E1 & E2). split; [exact E1|]. split; [|exact E2].
  rewrite <- E1. rewrite !bBuild_eq. rewrite visit_all, visit_used by (simpl; lia). auto.
Qed.
