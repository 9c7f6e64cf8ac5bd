(** Comparators and the search over several features. *)
From Coq Require Import ZArith Arith List Bool Permutation Sorted Lia.
From Verif Require Import Lib.Arr Model.Refinement Spec.Refinement.
Import ListNotations.
Open Scope nat_scope.

Ltac bz := unfold better in *; match goal with k : learner |- _ => destruct k; lia end.

Lemma compare_true k a b : compare k a b = true <-> better k a b.
Proof. destruct k; simpl; rewrite Z.ltb_lt; lia. Qed.
Lemma compare_false k a b : compare k a b = false <-> ~ better k a b.
Proof. destruct k; simpl; rewrite Z.ltb_ge; lia. Qed.

Lemma compare_spec k a b : reflect (better k a b) (compare k a b).
Proof.
  destruct (compare k a b) eqn:E; constructor; [apply compare_true|apply compare_false]; auto.
Qed.

(** ** Single comparator *)

Definition single_after (c : single) (r : option candidate) : single :=
  match r with Some x => mkSingle (Some x) (cQuality x) | None => c end.

Lemma feed_single k : forall cands c, exists r,
  first_best k (scQuality c) cands r /\ forL cands (singleEvaluate k) c = Some (single_after c r).
Proof.
  induction cands as [|x cands IH]; intros c.
  - exists None. split; [intros ? []|reflexivity].
  - cbn [forL]. unfold singleEvaluate at 1, singleIsImprovement.
    destruct (compare_spec k (cQuality x) (scQuality c)) as [Hx|Hx].
    + destruct (IH (singlePush x c)) as (r & Hr & E). cbn [scQuality singlePush] in Hr. rewrite E.
      destruct r as [y|].
      * exists (Some y). split; [|reflexivity]. destruct Hr as (pre & post & -> & Hy & Hpre & Hpost).
        exists (x :: pre), post. split; [reflexivity|]. split; [bz|]. split; [|exact Hpost].
        intros z [->|Hz]; auto.
      * exists (Some x). split; [|reflexivity]. exists [], cands. split; [reflexivity|]. split; [exact Hx|].
        split; [intros ? []|exact Hr].
    + destruct (IH c) as (r & Hr & E). rewrite E. exists r. split; [|reflexivity]. destruct r as [y|].
      * destruct Hr as (pre & post & -> & Hy & Hpre & Hpost).
        exists (x :: pre), post. split; [reflexivity|]. split; [exact Hy|]. split; [|exact Hpost].
        intros z [->|Hz]; auto. bz.
      * intros z [->|Hz]; auto.
Qed.

Definition pick (k : learner) (ra rb : option candidate) : option candidate :=
  match ra, rb with
  | None, _ => rb
  | _, None => ra
  | Some a, Some b => if compare k (cQuality b) (cQuality a) then Some b else Some a
  end.

Lemma first_best_app k q A B ra rb :
  first_best k q A ra -> first_best k q B rb -> first_best k q (A ++ B) (pick k ra rb).
Proof.
  destruct ra as [a|], rb as [b|]; cbn [pick].
  - intros (p1 & s1 & -> & Ha & P1 & S1) (p2 & s2 & -> & Hb & P2 & S2).
    destruct (compare_spec k (cQuality b) (cQuality a)) as [H|H].
    + exists ((p1 ++ a :: s1) ++ p2), s2. split; [rewrite <- !app_assoc; reflexivity|].
      split; [exact Hb|]. split; [|exact S2].
      intros x Hx. rewrite !in_app_iff in Hx. destruct Hx as [[Hx|[->|Hx]]|Hx]; auto.
      * specialize (P1 _ Hx). bz.
      * specialize (S1 _ Hx). bz.
    + exists p1, (s1 ++ p2 ++ b :: s2). split; [rewrite <- !app_assoc; reflexivity|].
      split; [exact Ha|]. split; [exact P1|].
      intros x Hx. rewrite !in_app_iff in Hx. destruct Hx as [Hx|[Hx|[->|Hx]]]; auto.
      * specialize (P2 _ Hx). bz.
      * specialize (S2 _ Hx). bz.
  - intros (p1 & s1 & -> & Ha & P1 & S1) Hb. exists p1, (s1 ++ B).
    split; [rewrite <- app_assoc; reflexivity|]. split; [exact Ha|]. split; [exact P1|].
    intros x Hx. apply in_app_iff in Hx. destruct Hx as [Hx|Hx]; auto. specialize (Hb _ Hx). bz.
  - intros Ha (p2 & s2 & -> & Hb & P2 & S2). exists (A ++ p2), s2.
    split; [rewrite <- app_assoc; reflexivity|]. split; [exact Hb|]. split; [|exact S2].
    intros x Hx. apply in_app_iff in Hx. destruct Hx as [Hx|Hx]; auto. specialize (Ha _ Hx). bz.
  - intros Ha Hb x Hx. apply in_app_iff in Hx. destruct Hx; auto.
Qed.

Lemma first_best_unique k q cands r r' : first_best k q cands r -> first_best k q cands r' -> r = r'.
Proof.
  destruct r as [a|], r' as [b|]; intros Ha Hb; auto.
  - destruct Ha as (p1 & s1 & E1 & Ha & P1 & S1), Hb as (p2 & s2 & E2 & Hb & P2 & S2). rewrite E1 in E2.
    apply app_eq_app in E2. destruct E2 as (d & [[E3 E4]|[E3 E4]]).
    + destruct d as [|d0 d]; simpl in E4; injection E4 as E5 E6; [congruence|]. subst d0 s2.
      assert (H1: better k (cQuality a) (cQuality b)).
      { apply P1. rewrite E3. apply in_or_app. right. left. auto. }
      exfalso. apply (S2 a); auto. apply in_or_app. right. left. auto.
    + destruct d as [|d0 d]; simpl in E4; injection E4 as E5 E6; [congruence|]. subst d0 s1.
      assert (H1: better k (cQuality b) (cQuality a)).
      { apply P2. rewrite E3. apply in_or_app. right. left. auto. }
      exfalso. apply (S1 b); auto. apply in_or_app. right. left. auto.
  - destruct Ha as (p1 & s1 & -> & Ha & _). exfalso. apply (Hb a); auto. apply in_or_app. right. left. auto.
  - destruct Hb as (p1 & s1 & -> & Hb & _). exfalso. apply (Ha b); auto. apply in_or_app. right. left. auto.
Qed.

(** ** Search over several features *)

Section Find.
Context {C : Type} (copy : C -> C) (evaluate : candidate -> C -> option C) (merge : C -> C -> option (bool * C)).

Definition mergeStep (entry : C) (st : bool * C) : option (bool * C) :=
  let '(found, comparator) := st in
  let* (merged, comparator') := merge comparator entry in
  Some (found || merged, comparator').

Lemma forN_forL {A S} (es : list A) (body : A -> S -> option S) : forall pre st,
  forN (length es) (length pre) (fun i st => let* e := aget (pre ++ es) i in body e st) st = forL es body st.
Proof.
  induction es as [|e es IH]; intros pre st; [reflexivity|]. cbn [length forN forL].
  unfold aget at 1. rewrite nth_error_app2, Nat.sub_diag by lia. cbn [nth_error].
  destruct (body e st) as [st'|]; auto. specialize (IH (pre ++ [e]) st'). rewrite <- IH.
  rewrite app_length. cbn [length]. rewrite Nat.add_1_r. apply forN_ext. intros j s _.
  rewrite <- app_assoc. reflexivity.
Qed.

Lemma mergeLoop_forL (es : list C) st :
  forN (length es) 0 (fun i '(found, comparator) =>
    let* entry := aget es i in
    let* (merged, comparator') := merge comparator entry in
    Some (found || merged, comparator')) st = forL es mergeStep st.
Proof.
  rewrite <- (forN_forL es mergeStep []). apply forN_ext. intros j [found comparator] _. cbn [app length].
  destruct (aget es j); auto.
Qed.

Lemma find_merge features c res :
  Forall2 (fun cands e => forL cands evaluate (copy c) = Some e) features res ->
  findRefinement copy evaluate merge features c = forL res mergeStep (false, c).
Proof.
  intros H. unfold findRefinement.
  assert (L: length features = length res) by (clear -H; induction H; simpl; auto).
  destruct (forN_inv (fun i entries => entries = firstn i res ++ skipn i (map (fun _ => copy c) features))
    (fun i entries =>
      let* candidates := aget features i in
      let* entry := aget entries i in
      let* entry' := forL candidates evaluate entry in
      aset entries i entry') (length features) 0 (map (fun _ => copy c) features)) as (es & E & Hes).
  - reflexivity.
  - intros j st Hj ->.
    destruct (nth_error features j) as [cands|] eqn:Ef; [|apply nth_error_None in Ef; lia].
    destruct (nth_error res j) as [e|] eqn:Er; [|apply nth_error_None in Er; lia].
    unfold aget. rewrite Ef.
    assert (Lf: length (firstn j res) = j) by (rewrite firstn_length; lia).
    assert (S1: skipn j (map (fun _ => copy c) features) = copy c :: skipn (S j) (map (fun _ => copy c) features)).
    { clear -Hj. revert j Hj. induction features as [|a f IH]; intros [|j] Hj; simpl in *; try lia; auto.
      apply IH. lia. }
    rewrite nth_error_app2 by lia. rewrite Lf, Nat.sub_diag, S1. cbn [nth_error].
    assert (Ev: forL cands evaluate (copy c) = Some e).
    { clear -H Ef Er. revert j Ef Er. induction H as [|? ? ? ? H1 H2 IH]; intros [|j] Ef Er; simpl in *; try discriminate.
      - congruence.
      - eauto. }
    rewrite Ev. rewrite aset_Some by (rewrite app_length, Lf; simpl; lia). eexists. split; [reflexivity|].
    rewrite upd_app2 by lia. rewrite Lf, Nat.sub_diag. cbn [upd].
    assert (F1: firstn (S j) res = firstn j res ++ [e]).
    { clear -Er. revert j Er. induction res as [|a f IH]; intros [|j] Er; simpl in *; try discriminate.
      - congruence.
      - rewrite IH by auto. reflexivity. }
    rewrite F1, <- app_assoc. reflexivity.
  - rewrite E. rewrite Hes. rewrite Nat.add_0_l, L, firstn_all, skipn_all2 by (rewrite map_length; lia).
    rewrite app_nil_r. apply mergeLoop_forL.
Qed.
End Find.

Lemma find_single k features c : exists r,
  first_best k (scQuality c) (concat features) r /\
  findSingle k features c = Some (match r with Some _ => true | None => false end, single_after c r).
Proof.
  assert (HR: exists rs, Forall2 (fun cands r => first_best k (scQuality c) cands r /\
     forL cands (singleEvaluate k) (singleCopy c) = Some (single_after (singleCopy c) r)) features rs).
  { induction features as [|f fs (rs & IH)].
    - exists []. constructor.
    - destruct (feed_single k f (singleCopy c)) as (r & Hr & E). exists (r :: rs). constructor; auto. }
  destruct HR as (rs & HR). unfold findSingle.
  rewrite (find_merge singleCopy (singleEvaluate k) (singleMerge k) features c (map (single_after (singleCopy c)) rs)).
  2:{ clear -HR. induction HR as [|? ? ? ? [_ E] _ IH]; constructor; auto. }
  assert (G: forall pre ra, first_best k (scQuality c) pre ra ->
    exists r, first_best k (scQuality c) (pre ++ concat features) r /\
      forL (map (single_after (singleCopy c)) rs) (mergeStep (singleMerge k))
        (match ra with Some _ => true | None => false end, single_after c ra)
      = Some (match r with Some _ => true | None => false end, single_after c r)).
  { clear -HR. induction HR as [|f r fs rs [Hr _] _ IH]; intros pre ra Hra.
    - exists ra. split; [simpl; rewrite app_nil_r; exact Hra|reflexivity].
    - cbn [map forL concat]. destruct (IH (pre ++ f) (pick k ra r)) as (r' & Hr' & E).
      + apply first_best_app; auto.
      + exists r'. split; [rewrite <- app_assoc in Hr'; exact Hr'|]. rewrite <- E.
        assert (M: mergeStep (singleMerge k) (single_after (singleCopy c) r)
            (match ra with Some _ => true | None => false end, single_after c ra)
          = Some (match pick k ra r with Some _ => true | None => false end, single_after c (pick k ra r))).
        { unfold mergeStep, singleMerge. destruct ra as [a|], r as [b|]; cbn [single_after singleCopy scQuality scBest pick].
          - destruct (compare_spec k (cQuality b) (cQuality a)); reflexivity.
          - destruct Hra as (? & ? & _ & Ha & _).
            destruct (compare_spec k (scQuality c) (cQuality a)); [exfalso; bz|reflexivity].
          - destruct Hr as (? & ? & _ & Hb & _).
            destruct (compare_spec k (cQuality b) (scQuality c)); [reflexivity|contradiction].
          - destruct (compare_spec k (scQuality c) (scQuality c)); [exfalso; bz|reflexivity]. }
        rewrite M. reflexivity. }
  apply (G [] None). intros ? [].
Qed.

(** ** Fixed comparator *)

Lemma best_first_app k l1 l2 : best_first k l1 -> best_first k l2 ->
  (forall x y, In x l1 -> In y l2 -> ~ better k (cQuality y) (cQuality x)) -> best_first k (l1 ++ l2).
Proof.
  unfold best_first. induction l1 as [|a l1 IH]; intros H1 H2 H; auto. apply StronglySorted_inv in H1.
  destruct H1 as [H1 F1]. cbn [app]. constructor.
  - apply IH; auto. intros x y Hx. apply H. right. auto.
  - apply Forall_app. split; auto. apply Forall_forall. intros y Hy. apply H; auto. left. auto.
Qed.

Lemma best_first_app_inv k l1 l2 : best_first k (l1 ++ l2) ->
  best_first k l1 /\ best_first k l2 /\ (forall x y, In x l1 -> In y l2 -> ~ better k (cQuality y) (cQuality x)).
Proof.
  unfold best_first. induction l1 as [|a l1 IH]; intros H.
  - split; [constructor|]. split; [exact H|]. intros ? ? [].
  - apply StronglySorted_inv in H. destruct H as [H F]. apply IH in H. destruct H as (H1 & H2 & H3).
    apply Forall_app in F. destruct F as [F1 F2]. split; [constructor; auto|]. split; [exact H2|].
    intros x y [->|Hx] Hy; auto. rewrite Forall_forall in F2. auto.
Qed.

Lemma best_first_nil k : best_first k []. Proof. constructor. Qed.

Lemma best_first_cons k a l : best_first k l -> (forall y, In y l -> ~ better k (cQuality y) (cQuality a)) ->
  best_first k (a :: l).
Proof. intros. constructor; auto. apply Forall_forall. auto. Qed.

Lemma n_best_0 k all : n_best k 0 all [].
Proof. split; [constructor|]. split; [reflexivity|]. exists all. split; [reflexivity|]. intros ? ? []. Qed.

Lemma n_best_cons k n a all all' out :
  Permutation all' (a :: all) -> (forall x, In x all -> ~ better k (cQuality x) (cQuality a)) ->
  n_best k n all out -> n_best k (S n) all' (a :: out).
Proof.
  intros HP Ha (Hs & HL & rest & HR & Hrest). split; [|split].
  - apply best_first_cons; auto. intros y Hy. apply Ha. apply (Permutation_in _ (Permutation_sym HR)). apply in_or_app. auto.
  - rewrite (Permutation_length HP). simpl. lia.
  - exists rest. split.
    + rewrite HP. simpl. constructor. exact HR.
    + intros x y [->|Hx] Hy; auto. apply Ha. apply (Permutation_in _ (Permutation_sym HR)). apply in_or_app. auto.
Qed.

Lemma mergeOrders_spec k : forall b o1 o2, best_first k o1 -> best_first k o2 ->
  let (r, l) := mergeOrders k b o1 o2 in
  n_best k b (o1 ++ o2) l /\
  exists n1 n2, Permutation l (firstn n1 o1 ++ firstn n2 o2) /\ n1 <= length o1 /\ n2 <= length o2 /\ r = (0 <? n2).
Proof.
  induction b as [|b IH]; intros o1 o2 H1 H2; cbn [mergeOrders].
  - split; [apply n_best_0|]. exists 0, 0. repeat split; auto; lia.
  - destruct o1 as [|x o1], o2 as [|y o2].
    + split; [split; [constructor|split; [reflexivity|exists []; split; [reflexivity|intros ? ? []]]]|].
      exists 0, 0. repeat split; auto.
    + pose proof (IH [] o2 H1) as G. apply StronglySorted_inv in H2. destruct H2 as [H2 F2].
      specialize (G H2). destruct (mergeOrders k b [] o2) as [r l]. destruct G as (G & n1 & n2 & P & L1 & L2 & _).
      split.
      * apply (n_best_cons k b y o2); auto. rewrite Forall_forall in F2. exact F2.
      * exists 0, (S n2). simpl in *. split; [|repeat split; auto; lia].
        constructor. destruct n1; simpl in P; auto.
    + apply StronglySorted_inv in H1. destruct H1 as [H1 F1].
      pose proof (IH o1 [] H1 H2) as G. destruct (mergeOrders k b o1 []) as [r l].
      destruct G as (G & n1 & n2 & P & L1 & L2 & R).
      split.
      * rewrite app_nil_r in *. apply (n_best_cons k b x o1); auto. rewrite Forall_forall in F1. exact F1.
      * exists (S n1), n2. simpl in *. split; [constructor; exact P|]. split; [lia|]. auto.
    + destruct (compare_spec k (cQuality x) (cQuality y)) as [H|H].
      * apply StronglySorted_inv in H1. destruct H1 as [H1 F1].
        pose proof (IH o1 (y :: o2) H1 H2) as G. destruct (mergeOrders k b o1 (y :: o2)) as [r l].
        destruct G as (G & n1 & n2 & P & L1 & L2 & R). split.
        -- apply (n_best_cons k b x (o1 ++ y :: o2)); auto. intros z Hz. apply in_app_iff in Hz.
           rewrite Forall_forall in F1. destruct Hz as [Hz|[->|Hz]]; auto; [bz|].
           apply StronglySorted_inv in H2. destruct H2 as [_ F2]. rewrite Forall_forall in F2. specialize (F2 _ Hz). bz.
        -- exists (S n1), n2. simpl. simpl in L1, L2. split; [constructor; exact P|]. repeat split; auto; lia.
      * apply StronglySorted_inv in H2. destruct H2 as [H2 F2].
        pose proof (IH (x :: o1) o2 H1 H2) as G. destruct (mergeOrders k b (x :: o1) o2) as [r l].
        destruct G as (G & n1 & n2 & P & L1 & L2 & R). split.
        -- apply (n_best_cons k b y ((x :: o1) ++ o2)); auto.
           { symmetry. apply Permutation_middle. }
           intros z Hz. apply in_app_iff in Hz. rewrite Forall_forall in F2.
           destruct Hz as [[->|Hz]|Hz]; auto.
           apply StronglySorted_inv in H1. destruct H1 as [_ F1]. rewrite Forall_forall in F1. specialize (F1 _ Hz). bz.
        -- exists n1, (S n2). split.
           { cbn [firstn]. rewrite P. apply Permutation_middle. }
           simpl in L1, L2. split; [simpl; lia|]. split; [simpl; lia|]. reflexivity.
Qed.

Lemma back_snoc {A} (l : list A) x : back (l ++ [x]) = Some x.
Proof. unfold back, aget. rewrite app_length. simpl. rewrite nth_error_app2 by lia.
  replace (length l + 1 - 1 - length l) with 0 by lia. reflexivity. Qed.

Lemma back_Some {A} (l : list A) : l <> [] -> exists l' x, l = l' ++ [x] /\ back l = Some x.
Proof.
  intros H. destruct (exists_last H) as (l' & x & ->). exists l', x. split; auto. apply back_snoc.
Qed.

(** State of a fixed comparator that has been given the candidates [cands]. *)
Definition fixed_inv (k : learner) (m : nat) (q : Z) (cands : list candidate) (c : fixed) : Prop :=
  fcMax c = m /\ length (fcOrder c) <= m /\ n_best k (length (fcOrder c)) cands (fcOrder c) /\
  (forall x, In x (fcOrder c) -> better k (cQuality x) q) /\
  match back (fcOrder c) with
  | Some w => fcMin c = cQuality w
  | None => fcMin c = q
  end /\
  (fcOrder c = [] -> forall x, In x cands -> ~ better k (cQuality x) q).

Lemma sorting_perm_snoc k sort l : sorting k sort -> l <> [] -> exists l' w, sort l = l' ++ [w] /\ back (sort l) = Some w.
Proof.
  intros Hs H. apply back_Some. intros E. destruct (Hs l) as [P _]. rewrite E in P.
  apply Permutation_sym, Permutation_nil in P. auto.
Qed.

Lemma evaluate_fixed k sort m q cands c x : sorting k sort -> 1 <= m -> fixed_inv k m q cands c ->
  exists c', fixedEvaluate k sort x c = Some c' /\ fixed_inv k m q (cands ++ [x]) c'.
Proof.
  intros Hs Hm (Emax & HL & (B & BL & rest & BP & BR) & Hq & Hmin & Hnil).
  unfold fixedEvaluate, fixedIsImprovement.
  destruct (compare_spec k (cQuality x) (fcMin c)) as [Hx|Hx].
  - unfold fixedPush. rewrite Emax.
    assert (Xq: better k (cQuality x) q).
    { destruct (back (fcOrder c)) as [w|] eqn:Eb; [|rewrite Hmin in Hx; exact Hx].
      assert (In w (fcOrder c)) by (apply nth_error_In in Eb; exact Eb). specialize (Hq _ H). rewrite Hmin in Hx. bz. }
    destruct (Nat.ltb_spec (length (fcOrder c)) m) as [Hlt|Hge].
    + destruct (sorting_perm_snoc k sort (fcOrder c ++ [x])) as (l' & w & El & Eb); auto; [destruct (fcOrder c); discriminate|].
      rewrite Eb. eexists. split; [reflexivity|]. destruct (Hs (fcOrder c ++ [x])) as [P SB].
      assert (PL: length (sort (fcOrder c ++ [x])) = S (length (fcOrder c))).
      { rewrite <- (Permutation_length P), app_length. simpl. lia. }
      split; [reflexivity|]. cbn [fcOrder fcMin fcMax]. split; [lia|]. split; [|split; [|split]].
      * split; [exact SB|]. split.
        { rewrite app_length, PL. cbn [length]. rewrite (Permutation_length BP), app_length. lia. }
        exists rest. split.
        { rewrite <- P, BP. rewrite <- !app_assoc. apply Permutation_app_head. apply Permutation_app_comm. }
        intros u v Hu Hv. apply (Permutation_in _ (Permutation_sym P)) in Hu. apply in_app_iff in Hu.
        destruct Hu as [Hu|[<-|[]]]; auto.
        destruct (back (fcOrder c)) as [w'|] eqn:Eb'.
        { assert (In w' (fcOrder c)) by (apply nth_error_In in Eb'; exact Eb'). specialize (BR _ _ H Hv).
          rewrite Hmin in Hx. bz. }
        { assert (fcOrder c = []).
          { unfold back in Eb'. apply nth_error_None in Eb'. destruct (fcOrder c); auto. simpl in Eb'. lia. }
          assert (~ better k (cQuality v) q).
          { apply Hnil; auto. apply (Permutation_in _ (Permutation_sym BP)). apply in_or_app. auto. } bz. }
      * intros u Hu. apply (Permutation_in _ (Permutation_sym P)) in Hu. apply in_app_iff in Hu.
        destruct Hu as [Hu|[<-|[]]]; auto.
      * rewrite Eb. reflexivity.
      * intros E. rewrite El in E. destruct l'; discriminate.
    + assert (Hne: fcOrder c <> []) by (intros E; rewrite E in Hge; simpl in Hge; lia).
      destruct (back_Some _ Hne) as (l0 & w0 & E0 & Eb0). rewrite Eb0 in Hmin.
      rewrite aset_Some by (rewrite E0, app_length; simpl; lia).
      assert (EU: upd (fcOrder c) (length (fcOrder c) - 1) x = l0 ++ [x]).
      { rewrite E0, app_length. simpl. rewrite upd_app2 by lia. replace (length l0 + 1 - 1 - length l0) with 0 by lia.
        reflexivity. }
      rewrite EU.
      destruct (sorting_perm_snoc k sort (l0 ++ [x])) as (l' & w & El & Eb); auto; [destruct l0; discriminate|].
      rewrite Eb. eexists. split; [reflexivity|]. destruct (Hs (l0 ++ [x])) as [P SB].
      assert (L0: length (fcOrder c) = S (length l0)) by (rewrite E0, app_length; simpl; lia).
      assert (PL: length (sort (l0 ++ [x])) = S (length l0)).
      { rewrite <- (Permutation_length P), app_length. simpl. lia. }
      split; [reflexivity|]. cbn [fcOrder fcMin fcMax]. split; [lia|]. split; [|split; [|split]].
      * split; [exact SB|]. split.
        { rewrite app_length, PL. cbn [length]. rewrite (Permutation_length BP), app_length. lia. }
        exists (w0 :: rest). split.
        { rewrite <- P, BP, E0. rewrite <- !app_assoc. apply Permutation_app_head. simpl.
          transitivity (x :: w0 :: rest); [|reflexivity]. symmetry. apply (Permutation_cons_append (w0 :: rest) x). }
        rewrite E0 in B. apply best_first_app_inv in B. destruct B as (_ & _ & B3).
        intros u v Hu Hv. apply (Permutation_in _ (Permutation_sym P)) in Hu. apply in_app_iff in Hu.
        assert (Hw: In w0 (fcOrder c)) by (rewrite E0; apply in_or_app; right; left; auto).
        destruct Hu as [Hu|[<-|[]]], Hv as [<-|Hv].
        { apply B3; auto. left. auto. }
        { apply BR; auto. rewrite E0. apply in_or_app. auto. }
        { rewrite Hmin in Hx. bz. }
        { specialize (BR _ _ Hw Hv). rewrite Hmin in Hx. bz. }
      * intros u Hu. apply (Permutation_in _ (Permutation_sym P)) in Hu. apply in_app_iff in Hu.
        destruct Hu as [Hu|[<-|[]]]; auto. apply Hq. rewrite E0. apply in_or_app. auto.
      * rewrite Eb. reflexivity.
      * intros E. rewrite El in E. destruct l'; discriminate.
  - exists c. split; [reflexivity|]. split; [exact Emax|]. split; [exact HL|]. split; [|split; [exact Hq|split; [exact Hmin|]]].
    + split; [exact B|]. split; [rewrite app_length; cbn [length]; rewrite (Permutation_length BP), app_length; lia|].
      exists (rest ++ [x]). split; [rewrite BP, app_assoc; reflexivity|].
      intros u v Hu Hv. apply in_app_iff in Hv. destruct Hv as [Hv|[<-|[]]]; auto.
      destruct (fcOrder c) as [|a l] eqn:Eo; [destruct Hu|].
      destruct (back_Some (a :: l)) as (l0 & w0 & E0 & Eb0); [discriminate|]. rewrite Eb0 in Hmin. rewrite Hmin in Hx.
      rewrite E0 in B, Hu. apply best_first_app_inv in B. destruct B as (_ & _ & B3). apply in_app_iff in Hu.
      destruct Hu as [Hu|[<-|[]]]; auto. assert (~ better k (cQuality w0) (cQuality u)) by (apply B3; auto; left; auto). bz.
    + intros E y Hy. apply in_app_iff in Hy. destruct Hy as [Hy|[<-|[]]]; auto.
      rewrite E in Hmin. cbn [back aget length nth_error] in Hmin. unfold back, aget in Hmin. simpl in Hmin.
      rewrite Hmin in Hx. exact Hx.
Qed.

Lemma fixed_inv_new k m q : fixed_inv k m q [] (fixedNew m q).
Proof.
  split; [reflexivity|]. split; [simpl; lia|]. split; [apply n_best_0|]. split; [intros ? []|]. split; [reflexivity|].
  intros _ ? [].
Qed.

Lemma feed_fixed k sort m q cands : sorting k sort -> 1 <= m ->
  exists c, forL cands (fixedEvaluate k sort) (fixedNew m q) = Some c /\ fixed_inv k m q cands c.
Proof.
  intros Hs Hm.
  destruct (forL_inv (fixed_inv k m q) (fixedEvaluate k sort) cands [] (fixedNew m q) (fixed_inv_new k m q)) as (c & E & H).
  - intros p a r st _ Hst. apply evaluate_fixed; auto.
  - eauto.
Qed.

(** What is known after merging: the front is the best candidate. *)
Definition front_ok (k : learner) (m : nat) (q : Z) (cands : list candidate) (order : list candidate) : Prop :=
  best_first k order /\ length order <= m /\ (forall x, In x order -> In x cands /\ better k (cQuality x) q) /\
  (order = [] -> forall x, In x cands -> ~ better k (cQuality x) q) /\
  (forall h l, order = h :: l -> forall x, In x cands -> ~ better k (cQuality x) (cQuality h)).

Lemma fixed_inv_front k m q cands c : fixed_inv k m q cands c -> front_ok k m q cands (fcOrder c).
Proof.
  intros (Emax & HL & (B & BL & rest & BP & BR) & Hq & Hmin & Hnil). split; [exact B|]. split; [exact HL|].
  split; [|split; [exact Hnil|]].
  - intros x Hx. split; auto. apply (Permutation_in _ (Permutation_sym BP)). apply in_or_app. auto.
  - intros h l E x Hx. apply (Permutation_in _ BP) in Hx. rewrite E in *. apply in_app_iff in Hx.
    destruct Hx as [[->|Hx]|Hx].
    + bz.
    + apply StronglySorted_inv in B. destruct B as [_ F]. rewrite Forall_forall in F. auto.
    + apply BR; auto. left. auto.
Qed.

Lemma merge_front k m q A B o1 o2 : 1 <= m -> front_ok k m q A o1 -> front_ok k m q B o2 ->
  front_ok k m q (A ++ B) (snd (mergeOrders k m o1 o2)).
Proof.
  intros Hm (S1 & L1 & I1 & N1 & H1) (S2 & L2 & I2 & N2 & H2).
  pose proof (mergeOrders_spec k m o1 o2 S1 S2) as G. destruct (mergeOrders k m o1 o2) as [r l]. cbn [snd].
  destruct G as ((SB & L & rest & P & R) & _).
  assert (In1: forall x, In x l -> In x o1 \/ In x o2).
  { intros x Hx. apply in_app_iff. apply (Permutation_in _ (Permutation_sym P)). apply in_or_app. auto. }
  split; [exact SB|]. split; [lia|]. split; [|split].
  - intros x Hx. rewrite in_app_iff. destruct (In1 x Hx) as [Hx'|Hx']; [destruct (I1 _ Hx')|destruct (I2 _ Hx')]; auto.
  - intros -> x Hx. simpl in L. rewrite app_length in L.
    assert (o1 = []) by (destruct o1; auto; simpl in L; lia).
    assert (o2 = []) by (destruct o2; auto; simpl in L; lia).
    apply in_app_iff in Hx. destruct Hx; auto.
  - intros h l' El x Hx.
    assert (Hall: forall y, In y (o1 ++ o2) -> ~ better k (cQuality y) (cQuality h)).
    { intros y Hy. apply (Permutation_in _ P) in Hy. rewrite El in *. apply in_app_iff in Hy.
      destruct Hy as [[->|Hy]|Hy].
      - bz.
      - apply StronglySorted_inv in SB. destruct SB as [_ F]. rewrite Forall_forall in F. auto.
      - apply R; auto. left. auto. }
    assert (Hh: better k (cQuality h) q).
    { assert (Hin: In h l) by (rewrite El; left; auto). destruct (In1 h Hin) as [Hx'|Hx']; [destruct (I1 _ Hx')|destruct (I2 _ Hx')]; auto. }
    apply in_app_iff in Hx. destruct Hx as [Hx|Hx].
    + destruct o1 as [|a o1]; [specialize (N1 eq_refl _ Hx); bz|].
      specialize (H1 _ _ eq_refl _ Hx). assert (~ better k (cQuality a) (cQuality h)) by (apply Hall; left; auto). bz.
    + destruct o2 as [|a o2]; [specialize (N2 eq_refl _ Hx); bz|].
      specialize (H2 _ _ eq_refl _ Hx).
      assert (~ better k (cQuality a) (cQuality h)) by (apply Hall; apply in_or_app; right; left; auto). bz.
Qed.

Lemma find_fixed k sort m q features : sorting k sort -> 1 <= m ->
  exists found c, findFixed k sort features (fixedNew m q) = Some (found, c) /\ fcMax c = m /\
    front_ok k m q (concat features) (fcOrder c) /\
    (found = true <-> fcOrder c <> []).
Proof.
  intros Hs Hm.
  assert (HR: exists es, Forall2 (fun cands e => fixed_inv k m q cands e /\
     forL cands (fixedEvaluate k sort) (fixedCopy (fixedNew m q)) = Some e) features es).
  { induction features as [|f fs (es & IH)].
    - exists []. constructor.
    - destruct (feed_fixed k sort m q f Hs Hm) as (e & E & He). exists (e :: es). constructor; auto. }
  destruct HR as (es & HR). unfold findFixed.
  rewrite (find_merge fixedCopy (fixedEvaluate k sort) (fixedMerge k) features (fixedNew m q) es).
  2:{ clear -HR. induction HR as [|? ? ? ? [_ E] _ IH]; constructor; auto. }
  assert (G: forall pre found c, front_ok k m q pre (fcOrder c) -> fcMax c = m -> (found = true <-> fcOrder c <> []) ->
    exists found' c', forL es (mergeStep (fixedMerge k)) (found, c) = Some (found', c') /\ fcMax c' = m /\
      front_ok k m q (pre ++ concat features) (fcOrder c') /\ (found' = true <-> fcOrder c' <> [])).
  { clear -HR Hm. induction HR as [|f e fs es [He _] _ IH]; intros pre found c Hf Em Hfound.
    - exists found, c. cbn [forL concat]. rewrite app_nil_r. auto.
    - cbn [forL concat]. pose proof (fixed_inv_front _ _ _ _ _ He) as Fe.
      pose proof (merge_front k m q pre f _ _ Hm Hf Fe) as Fm.
      remember (mergeStep (fixedMerge k) e (found, c)) as M eqn:HM. unfold mergeStep, fixedMerge in HM. rewrite Em in HM.
      pose proof (mergeOrders_spec k m (fcOrder c) (fcOrder e) (proj1 Hf) (proj1 Fe)) as Sp.
      destruct (mergeOrders k m (fcOrder c) (fcOrder e)) as [r l] eqn:EM. cbn [snd] in Fm.
      destruct Sp as ((_ & SL & _) & n1 & n2 & P & Ln1 & Ln2 & ->).
      assert (Hiff: found || (0 <? n2) = true <-> l <> []).
      { split.
        - intros H E. subst l. cbn [length] in SL. rewrite app_length in SL.
          apply Permutation_nil in P. apply app_eq_nil in P. destruct P as [P1 P2].
          apply orb_true_iff in H. destruct H as [H|H].
          + apply Hfound in H. apply H. destruct (fcOrder c); auto. simpl in SL. lia.
          + apply Nat.ltb_lt in H. destruct n2; [lia|]. destruct (fcOrder e); [simpl in Ln2; lia|discriminate].
        - intros H. destruct (Nat.ltb_spec 0 n2); [apply orb_true_r|]. rewrite orb_false_r. apply Hfound.
          intros E. apply H. assert (n2 = 0) by lia. subst n2. rewrite E, firstn_nil in P. simpl in P.
          apply Permutation_sym, Permutation_nil in P. exact P. }
      destruct l as [|a l].
      + subst M. destruct (IH (pre ++ f) (found || (0 <? n2)) (mkFixed [] m (fcMin c))) as (found' & c' & E & Em' & Hf' & Hi'); auto.
        exists found', c'. rewrite E, app_assoc. auto.
      + destruct (back_Some (a :: l)) as (l0 & w0 & E0 & Eb0); [discriminate|]. rewrite Eb0 in HM. subst M.
        destruct (IH (pre ++ f) (found || (0 <? n2)) (mkFixed (a :: l) m (cQuality w0))) as (found' & c' & E & Em' & Hf' & Hi'); auto.
        exists found', c'. rewrite E, app_assoc. auto. }
  apply (G [] false (fixedNew m q)); auto.
  - split; [constructor|]. split; [simpl; lia|]. split; [intros ? []|]. split; [intros _ ? []|]. intros ? ? [=].
  - split; [discriminate|]. intros H. exfalso. apply H. reflexivity.
Qed.

(** ** Insertion sort *)
Lemma insertBy_perm {A} k (q : A -> Z) x l : Permutation (x :: l) (insertBy k q x l).
Proof.
  induction l as [|y l IH]; simpl; [auto|]. destruct (compare k (q y) (q x)); auto.
  eapply perm_trans; [apply perm_swap|]. auto.
Qed.

Lemma sortBy_ok {A} k (q : A -> Z) l :
  Permutation l (sortBy k q l) /\ StronglySorted (fun a b => ~ better k (q b) (q a)) (sortBy k q l).
Proof.
  unfold sortBy. induction l as [|x l [IP IS]]; simpl; [split; constructor|]. split.
  - eapply perm_trans; [apply perm_skip; exact IP|]. apply insertBy_perm.
  - clear IP. induction IS as [|y s S IH F]; simpl; [repeat constructor|].
    destruct (compare_spec k (q y) (q x)) as [H|H].
    + constructor; [exact IH|]. rewrite Forall_forall in *. intros z Hz.
      apply (Permutation_in z (Permutation_sym (insertBy_perm k q x s))) in Hz. destruct Hz as [<-|Hz]; [bz|auto].
    + constructor; [constructor; auto|]. constructor; [exact H|]. rewrite Forall_forall in *. intros z Hz.
      specialize (F z Hz). cbn beta in F. bz.
Qed.

Lemma sortBy_sorting k : sorting k (sortBy k cQuality).
Proof. intros l. apply sortBy_ok. Qed.
Lemma sortBy_sorting_entries k : sorting_entries k (sortBy k beQuality).
Proof. intros l. apply sortBy_ok. Qed.

Lemma fixed_merge k c other : best_first k (fcOrder c) -> best_first k (fcOrder other) ->
  exists found c', fixedMerge k c other = Some (found, c') /\ fcMax c' = fcMax c /\
    n_best k (fcMax c) (fcOrder c ++ fcOrder other) (fcOrder c').
Proof.
  intros H1 H2. unfold fixedMerge. pose proof (mergeOrders_spec k (fcMax c) _ _ H1 H2) as G.
  destruct (mergeOrders k (fcMax c) (fcOrder c) (fcOrder other)) as [r l]. destruct G as [G _].
  destruct l as [|x l].
  - eexists _, _. split; [reflexivity|]. split; [reflexivity|exact G].
  - unfold back. destruct (aget_Some (x :: l) (length (x :: l) - 1)) as (w & Ew); [cbn [length]; lia|]. rewrite Ew.
    eexists _, _. split; [reflexivity|]. split; [reflexivity|exact G].
Qed.
