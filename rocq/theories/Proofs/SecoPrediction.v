(** Lemmas about the predictions of decision lists. *)
From Coq Require Import NArith Arith List Bool Sorted Lia.
From Verif Require Import Lib.Arr Model.Rules Model.Prediction Model.Labels Model.SecoPrediction Spec.Rules Spec.SecoPrediction
  Proofs.Rules Proofs.Prediction Proofs.Labels.
From Verif Require Model.SecoStatistics Proofs.Seco.
Import ListNotations.
Open Scope nat_scope.
Local Arguments Nat.leb : simpl never.
Local Arguments Nat.ltb : simpl never.

(** ** Loops over rules *)
Lemma dense_features {S} row (apply : head bool -> S -> option S) rules : forall st,
  forL rules (fun r st => let* covered := coversDense row (fst r) in if covered then apply (snd r) st else Some st) st =
  forL rules (fun r st => match coversDense row (fst r) with Some true => apply (snd r) st | Some false => Some st | None => None end) st.
Proof. reflexivity. Qed.

Lemma sparse_features {S} entries sv row numFeatures (apply : head bool -> S -> option S) rules :
  same_row numFeatures sv entries row ->
  forall st t1 t2 n, length t1 = numFeatures -> length t2 = numFeatures ->
  (forall x, In x t2 -> (x < n)%N) -> (n + N.of_nat (length rules) <= 2 ^ 32)%N ->
  (let* (st', _, _) := forL rules (fun r st =>
        let '(st, tmp, n) := st in
        let* (covered, tmp) := coversSparse entries sv tmp n (fst r) in
        let* st := if covered : bool then apply (snd r) st else Some st in
        Some (st, tmp, ((n + 1) mod 2 ^ 32)%N)) (st, (t1, t2), n) in Some st') =
  forL rules (fun r st => match coversDense row (fst r) with Some true => apply (snd r) st | Some false => Some st | None => None end) st.
Proof.
  intros Hs. induction rules as [|r rules IH]; intros s t1 t2 n L1 L2 Hn Hlen; [reflexivity|].
  cbn [forL length] in *.
  pose proof (coversSparse_ok entries n t1 t2 row numFeatures sv (fst r) Hs L1 L2) as C.
  assert (Hni: ~ In n t2). { intros Hin. apply Hn in Hin. lia. } specialize (C Hni).
  destruct (coversDense row (fst r)) as [c|].
  2:{ rewrite C. reflexivity. }
  destruct C as (t1' & t2' & -> & L1' & L2' & Ht).
  assert (Hn': forall x, In x t2' -> (x < (n + 1) mod 2 ^ 32)%N \/ rules = []).
  { intros x Hx. destruct rules; [right; auto|left]. rewrite N.mod_small by (simpl length in Hlen; lia).
    destruct (Ht x Hx) as [->|H]; [lia|]. apply Hn in H. lia. }
  assert (HK : forall s', (let* (st', _, _) := forL rules (fun r st =>
        let '(st, tmp, n) := st in
        let* (covered, tmp) := coversSparse entries sv tmp n (fst r) in
        let* st := if covered : bool then apply (snd r) st else Some st in
        Some (st, tmp, ((n + 1) mod 2 ^ 32)%N)) (s', (t1', t2'), ((n + 1) mod 2 ^ 32)%N) in Some st') =
    forL rules (fun r st => match coversDense row (fst r) with Some true => apply (snd r) st | Some false => Some st | None => None end) s').
  { intros s'. destruct rules as [|r' rules']; [reflexivity|]. apply IH; auto.
    - intros x Hx. destruct (Hn' x Hx) as [H|H]; [auto|discriminate].
    - rewrite N.mod_small by (simpl length in Hlen; lia). lia. }
  destruct c.
  - destruct (apply (snd r) s) as [s'|]; [|reflexivity]. apply HK.
  - apply HK.
Qed.

Definition covered_by (row : list fval) (r : rule bool) : bool :=
  match coversDense row (fst r) with Some b => b | None => false end.

Lemma forCovering_spec {S} junk m it stop rules i row (apply : head bool -> S -> option S) st :
  example_row m i row -> loops_over it stop rules -> (N.of_nat (length rules) < 2 ^ 32)%N ->
  Forall (fun r => coversDense row (fst r) <> None) rules ->
  forCovering junk m it stop i apply st = forL rules (fun r st => if covered_by row r then apply (snd r) st else Some st) st.
Proof.
  intros Hr Hl Hlen HC.
  assert (X : forCovering junk m it stop i apply st = forL rules (fun r st => match coversDense row (fst r) with Some true => apply (snd r) st | Some false => Some st | None => None end) st).
  { destruct m as [rows|numCols sv rows]; simpl in *; unfold aget.
    - rewrite Hr, Hl. apply dense_features.
    - destruct Hr as (entries & -> & Hs). rewrite Hl. apply (sparse_features entries sv row numCols apply rules Hs); rewrite ?repeat_length; auto; try lia.
      intros x Hx. apply repeat_spec in Hx. subst. lia. }
  rewrite X. clear X Hl Hlen. revert st. induction HC as [|r rules Hc HC IH]; intros st; simpl; auto.
  unfold covered_by at 1. destruct (coversDense row (fst r)) as [[]|]; [| |contradiction]; auto.
  destruct (apply (snd r) st); auto.
Qed.

(** ** Dense predictions *)
Definition lookup (ps : list (nat * bool)) (l : nat) : option bool := option_map snd (find (fun p => fst p =? l) ps).

Lemma lookup_snoc ps i v l : lookup (ps ++ [(i, v)]) l = match lookup ps l with Some b => Some b | None => if i =? l then Some v else None end.
Proof.
  unfold lookup. induction ps as [|[j w] ps IH]; simpl.
  - destruct (i =? l); auto.
  - destruct (j =? l); auto.
Qed.

Lemma lookup_combine values : forall s l, lookup (combine (seq s (length values)) values) l = if l <? s then None else nth_error values (l - s).
Proof.
  unfold lookup. induction values as [|v values IH]; intros s l; simpl.
  - destruct (l <? s); auto. destruct (l - s); auto.
  - destruct (Nat.eqb_spec s l) as [->|N]; simpl.
    + destruct (Nat.ltb_spec l l); [lia|]. rewrite Nat.sub_diag. reflexivity.
    + rewrite IH. destruct (Nat.ltb_spec l s), (Nat.ltb_spec l (S s)); auto; try lia.
      replace (l - s) with (S (l - S s)) by lia. reflexivity.
Qed.

(** The state after some predictions have been made. *)
Definition decided (init : list bool) (d : nat -> option bool) (n : nat) (st : list bool * list bool) : Prop :=
  length (fst st) = n /\ length (snd st) = n /\
  forall l, l < n -> match d l with
    | Some b => nth_error (fst st) l = Some b /\ nth_error (snd st) l = Some true
    | None => nth_error (fst st) l = nth_error init l /\ nth_error (snd st) l = Some false
    end.

Lemma predictLabel_spec init d n st i v : i < n -> decided init d n st ->
  exists st', predictLabel i v st = Some st' /\
    decided init (fun l => match d l with Some b => Some b | None => if i =? l then Some v else None end) n st'.
Proof.
  intros Hi (L1 & L2 & HD). destruct st as [row mask]. cbn [fst snd] in *. unfold predictLabel, aget. cbn [fst snd].
  assert (HDi := HD i Hi). destruct (d i) as [b|] eqn:E.
  - destruct HDi as (HR & ->). eexists. split; [reflexivity|]. split; [auto|]. split; [auto|]. intros l Hl. cbn [fst snd].
    assert (X := HD l Hl). destruct (d l) eqn:El; auto. destruct (Nat.eqb_spec i l) as [<-|]; [congruence|]. auto.
  - destruct HDi as (HR & ->). rewrite !aset_Some by lia. eexists. split; [reflexivity|]. split; [cbn; rewrite upd_length; auto|].
    split; [cbn; rewrite upd_length; auto|]. intros l Hl. cbn [fst snd]. assert (X := HD l Hl).
    rewrite !nth_error_upd, L1, L2. destruct (Nat.eqb_spec i l) as [<-|N].
    + rewrite E. destruct (Nat.ltb_spec i n); [|lia]. auto.
    + cbn [andb]. destruct (d l); auto.
Qed.

Lemma forPairs_spec init d n ps st : Forall (fun p => fst p < n) ps -> decided init d n st ->
  exists st', forN (length ps) 0 (fun i st => let* (index, v) := aget ps i in predictLabel index v st) st = Some st' /\
    decided init (fun l => match d l with Some b => Some b | None => lookup ps l end) n st'.
Proof.
  intros HF HD. set (body := fun (i : nat) (st : list bool * list bool) => _).
  destruct (forN_inv (fun i st => decided init (fun l => match d l with Some b => Some b | None => lookup (firstn i ps) l end) n st) body (length ps) 0 st)
    as (st' & E & H).
  - destruct HD as (A & B & C). split; auto. split; auto. intros l Hl. specialize (C l Hl). simpl. destruct (d l); auto.
  - intros i s Hi Hs. unfold body. destruct (nth_error ps i) as [[index v]|] eqn:E; [|apply nth_error_None in E; lia].
    unfold aget. rewrite E. assert (Hidx : index < n). { rewrite Forall_forall in HF. apply (HF (index, v)). eapply nth_error_In; eauto. }
    destruct (predictLabel_spec init _ n s index v Hidx Hs) as (s' & -> & H'). exists s'. split; auto.
    replace (firstn (S i) ps) with (firstn i ps ++ [(index, v)]).
    + destruct H' as (A & B & C). split; auto. split; auto. intros l Hl. specialize (C l Hl). cbv beta in C. rewrite lookup_snoc.
      destruct (d l); auto.
    + clear -E. revert i E. induction ps as [|p ps IH]; intros [|i] E; simpl in *; try discriminate.
      * injection E as ->. reflexivity.
      * f_equal. apply IH. auto.
  - simpl in H. rewrite firstn_all in H. exists st'. auto.
Qed.

Lemma applyHeadDense_spec init d n h st : head_for n h -> decided init d n st ->
  exists st', applyHeadDense h st = Some st' /\
    decided init (fun l => match d l with Some b => Some b | None => predicts h l end) n st'.
Proof.
  intros HH HD. destruct h as [values|values]; simpl in *.
  - assert (LC : length (combine (seq 0 (length values)) values) = length values) by (rewrite combine_length, seq_length; lia).
    destruct (forPairs_spec init d n (combine (seq 0 (length values)) values) st) as (st' & E & H); auto.
    { apply Forall_forall. intros [i v] Hi. apply in_combine_l in Hi. apply in_seq in Hi. simpl. lia. }
    exists st'. rewrite LC in E. split.
    + rewrite <- E. apply forN_ext. intros i s Hi. unfold aget.
      assert (E1 : nth_error (combine (seq 0 (length values)) values) i = match nth_error values i with Some v => Some (i, v) | None => None end).
      { clear. assert (X : forall s, nth_error (combine (seq s (length values)) values) i = match nth_error values i with Some v => Some (s + i, v) | None => None end).
        { revert i. induction values as [|v values IH]; intros i s; [destruct i; reflexivity|]. destruct i as [|i]; simpl; [rewrite Nat.add_0_r; reflexivity|].
          rewrite IH. replace (S s + i) with (s + S i) by lia. reflexivity. }
        apply (X 0). }
      rewrite E1. destruct (nth_error values i); auto.
    + destruct H as (A & B & C). split; auto. split; auto. intros l Hl. specialize (C l Hl). rewrite lookup_combine in C.
      destruct (Nat.ltb_spec l 0); [lia|]. rewrite Nat.sub_0_r in C. auto.
  - apply forPairs_spec; auto.
Qed.

Lemma decide_app (covers : rule bool -> bool) r1 r2 l : decide covers (r1 ++ r2) l = match decide covers r1 l with Some b => Some b | None => decide covers r2 l end.
Proof. induction r1 as [|r r1 IH]; simpl; auto. destruct (if covers r then predicts (snd r) l else None); auto. Qed.

Lemma rulesDense_spec init (covers : rule bool -> bool) n rules : Forall (fun r => head_for n (snd r)) rules -> forall d st, decided init d n st ->
  exists st', forL rules (fun r st => if covers r then applyHeadDense (snd r) st else Some st) st = Some st' /\
    decided init (fun l => match d l with Some b => Some b | None => decide covers rules l end) n st'.
Proof.
  induction 1 as [|r rules Hr HF IH]; intros d st HD; simpl.
  - exists st. split; auto. destruct HD as (A & B & C). split; auto. split; auto. intros l Hl. specialize (C l Hl). destruct (d l); auto.
  - destruct (covers r) eqn:Ec.
    + destruct (applyHeadDense_spec init d n (snd r) st Hr HD) as (st1 & -> & H1).
      destruct (IH _ _ H1) as (st' & -> & H'). exists st'. split; auto. destruct H' as (A & B & C). split; auto. split; auto.
      intros l Hl. specialize (C l Hl). cbv beta in C. destruct (d l); auto.
    + destruct (IH _ _ HD) as (st' & -> & H'). exists st'. split; auto.
Qed.

(** The rules that are used for prediction. *)
Definition used_rules {R} (l : ruleList R) (maxRules : nat) : list R :=
  expected_order (rlDefault l) (rlRules l) (rlPrecedence l) (limitRules maxRules (rlGetNumUsed l)).

Lemma used_loop {R} (l : ruleList R) maxRules : rlNumUsed l <= rlGetNumRules l ->
  loops_over (rlUsedBegin l maxRules) (rlUsedEnd l maxRules) (used_rules l maxRules) /\
  length (used_rules l maxRules) <= rlGetNumRules l /\
  (forall d, rlDefault l = Some d -> In d (used_rules l maxRules)) /\
  (forall r, In r (used_rules l maxRules) -> rlDefault l = Some r \/ In r (rlRules l)).
Proof.
  intros H. destruct (rlGetNumUsed_ok l H) as (A & B). destruct (limit_ok l maxRules _ A B) as (C & D).
  assert (E := expected_length l _ C D). split.
  - unfold rlUsedBegin, rlUsedEnd. cbv zeta. intros S f st. rewrite iterLoop_ok by (auto; lia). rewrite Nat.sub_0_r. simpl skipn.
    rewrite firstn_all2; auto. rewrite E. auto.
  - split; [unfold used_rules; rewrite E; auto|]. unfold used_rules, expected_order. split.
    + intros d ->. destruct (rlPrecedence l); [left; auto|apply in_or_app; right; left; auto].
    + intros r Hr. assert (HX : forall n x, In x (firstn n (rlRules l)) -> In x (rlRules l)).
      { intros n x Hx. rewrite <- (firstn_skipn n (rlRules l)). apply in_or_app. auto. }
      destruct (rlDefault l) as [d|]; [|right; eauto]. destruct (rlPrecedence l).
      * destruct Hr as [->|Hr]; [left; auto|right; eauto].
      * apply in_app_or in Hr. destruct Hr as [Hr|[->|[]]]; [right; eauto|left; auto].
Qed.

(** A loop over the rows of a matrix. *)
Lemma forRows {A} (n : nat) (f : nat -> A -> option A) (good : nat -> A -> Prop) (matrix : list A) : length matrix = n ->
  (forall i row, i < n -> nth_error matrix i = Some row -> exists row', f i row = Some row' /\ good i row') ->
  exists result, forN n 0 (fun i m => let* row := aget m i in let* row := f i row in aset m i row) matrix = Some result /\
    length result = n /\ forall i row, nth_error result i = Some row -> good i row.
Proof.
  intros HL HG. set (body := fun (i : nat) (m : list A) => _).
  destruct (forN_inv (fun k m => length m = n /\ (forall i, k <= i -> nth_error m i = nth_error matrix i) /\
    forall i row, i < k -> nth_error m i = Some row -> good i row) body n 0 matrix) as (m & E & H1 & H2 & H3).
  - split; auto. split; auto. intros; lia.
  - intros j m Hj (L & HE & HI). unfold body. destruct (nth_error matrix j) as [row|] eqn:Er; [|apply nth_error_None in Er; lia].
    unfold aget. rewrite HE, Er by lia. destruct (HG j row ltac:(lia) Er) as (row' & -> & Hg). rewrite aset_Some by lia.
    eexists. split; [reflexivity|]. rewrite upd_length. split; auto. split.
    + intros i Hi. rewrite nth_error_upd. destruct (Nat.eqb_spec j i); [lia|]. simpl. apply HE. lia.
    + intros i r Hi. rewrite nth_error_upd. destruct (Nat.eqb_spec j i) as [<-|].
      * destruct (Nat.ltb_spec j (length m)); [|lia]. simpl. intros X. injection X as <-. auto.
      * simpl. apply HI. lia.
  - exists m. split; auto. split; auto. intros i row Hr. apply H3; auto. simpl.
    assert (i < length m) by (apply nth_error_Some; congruence). lia.
Qed.

Section Predictor.
Variables (junk : fval) (m : featureMatrix) (l : ruleList (rule bool)) (numLabels maxRules : nat) (row : nat -> list fval).
Hypothesis Hused : rlNumUsed l <= rlGetNumRules l.
Hypothesis H32 : (N.of_nat (rlGetNumRules l) < 2 ^ 32)%N.
Hypothesis HRow : forall i, i < fmRows m -> example_row m i (row i).
Hypothesis HCov : forall i r, i < fmRows m -> In r (used_rules l maxRules) -> coversDense (row i) (fst r) <> None.
Hypothesis HHead : forall r, In r (used_rules l maxRules) -> head_for numLabels (snd r).

Lemma used_lt : (N.of_nat (length (used_rules l maxRules)) < 2 ^ 32)%N.
Proof. destruct (used_loop l maxRules Hused) as (_ & A & _). lia. Qed.

Lemma dense_row junkLabels : default_for numLabels (rlDefault l) ->
  length junkLabels = fmRows m -> Forall (fun r => length r = numLabels) junkLabels ->
  exists result, predictDense junk junkLabels m l numLabels maxRules = Some result /\ length result = fmRows m /\
    forall i labels, nth_error result i = Some labels -> length labels = numLabels /\
      forall label, label < numLabels -> nth_error labels label =
        Some (match decide (covered_by (row i)) (used_rules l maxRules) label with Some b => b | None => false end).
Proof.
  intros HD HJ1 HJ2. unfold predictDense. set (matrix := match rlDefault l with Some _ => _ | None => _ end).
  assert (HM : length matrix = fmRows m /\ forall r, In r matrix -> length r = numLabels).
  { unfold matrix. destruct (rlDefault l); [rewrite Forall_forall in HJ2; auto|]. split; [apply repeat_length|].
    intros r Hr. apply repeat_spec in Hr. subst. apply repeat_length. }
  destruct HM as (HM1 & HM2).
  destruct (forRows (fmRows m) (fun i row => let* (row, _) := forCovering junk m (rlUsedBegin l maxRules) (rlUsedEnd l maxRules) i applyHeadDense
      (row, repeat false numLabels) in Some row)
    (fun i labels => length labels = numLabels /\ forall label, label < numLabels -> nth_error labels label =
        Some (match decide (covered_by (row i)) (used_rules l maxRules) label with Some b => b | None => false end)) matrix HM1) as (res & E & HL & HG).
  - intros i init Hi Hinit. destruct (used_loop l maxRules Hused) as (HLoop & _ & HDef & _).
    rewrite (forCovering_spec junk m _ _ (used_rules l maxRules) i (row i)); auto using used_lt.
    2:{ apply Forall_forall. intros r Hr. apply HCov; auto. }
    destruct (rulesDense_spec init (covered_by (row i)) numLabels (used_rules l maxRules)) with (d := fun _ : nat => @None bool) (st := (init, repeat false numLabels))
      as ((labels & mask) & -> & A & B & C).
    { apply Forall_forall. auto. }
    { split; [cbn; apply HM2; eapply nth_error_In; eauto|]. split; [apply repeat_length|]. intros x Hx. split; auto. cbn.
      apply nth_error_repeat. auto. }
    exists labels. split; auto. split; auto. intros label Hlab. specialize (C label Hlab). cbn [fst snd] in C.
    destruct (decide (covered_by (row i)) (used_rules l maxRules) label) as [b|] eqn:Ed; [apply C|]. destruct C as (-> & _).
    unfold matrix in Hinit. destruct (rlDefault l) as [d|] eqn:Edef.
    + exfalso. destruct HD as (HD1 & values & HD2 & HD3). specialize (HDef d eq_refl).
      assert (X : forall rs, In d rs -> decide (covered_by (row i)) rs label <> None).
      { induction rs as [|r rs IH]; simpl; [tauto|]. intros [->|Hin].
        - unfold covered_by at 1. rewrite HD1. simpl. rewrite HD2. simpl. destruct (nth_error values label) eqn:En; [congruence|].
          apply nth_error_None in En. lia.
        - destruct (if covered_by (row i) r then _ else _); [congruence|auto]. }
      apply (X _ HDef Ed).
    + assert (Hin := nth_error_In _ _ Hinit). apply repeat_spec in Hin. subst init. apply nth_error_repeat. auto.
  - exists res. split; [|auto]. rewrite <- E. apply forN_ext. intros i st _. destruct (aget st i); auto.
    destruct (forCovering _ _ _ _ _ _ _) as [[]|]; auto.
Qed.

(** ** Sparse predictions *)
Fixpoint merge (a : list nat) : list nat -> list nat :=
  fix go (b : list nat) : list nat :=
    match a, b with
    | [], _ => b
    | _, [] => a
    | x :: a', y :: b' => if x <? y then x :: merge a' b else if x =? y then x :: merge a' b' else y :: go b'
    end.

Lemma merge_nil_l b : merge [] b = b.
Proof. destruct b; reflexivity. Qed.
Lemma merge_nil_r a : merge a [] = a.
Proof. destruct a; reflexivity. Qed.
Lemma merge_cons x a y b : merge (x :: a) (y :: b) = if x <? y then x :: merge a (y :: b) else if x =? y then x :: merge a b else y :: merge (x :: a) b.
Proof. reflexivity. Qed.

Lemma merge_In a : forall b x, In x (merge a b) <-> In x a \/ In x b.
Proof.
  induction a as [|u a IHa]; intros b x; [rewrite merge_nil_l; simpl; tauto|].
  induction b as [|v b IHb]; [rewrite merge_nil_r; simpl; tauto|]. rewrite merge_cons.
  destruct (Nat.ltb_spec u v); [simpl; rewrite IHa; simpl; tauto|]. destruct (Nat.eqb_spec u v) as [->|]; simpl.
  - rewrite IHa. tauto.
  - rewrite IHb. simpl. tauto.
Qed.

Lemma merge_sorted a : forall b, StronglySorted lt a -> StronglySorted lt b -> StronglySorted lt (merge a b).
Proof.
  induction a as [|u a IHa]; intros b Ha Hb; [rewrite merge_nil_l; auto|].
  induction b as [|v b IHb]; [rewrite merge_nil_r; auto|]. rewrite merge_cons. inversion Ha as [|? ? Ha1 Ha2]; subst. inversion Hb as [|? ? Hb1 Hb2]; subst.
  rewrite Forall_forall in Ha2, Hb2.
  destruct (Nat.ltb_spec u v); [|destruct (Nat.eqb_spec u v)]; constructor; auto; apply Forall_forall; intros x Hx; apply merge_In in Hx; simpl in Hx.
  - destruct Hx as [Hx|[<-|Hx]]; auto. specialize (Hb2 x Hx). lia.
  - subst. destruct Hx as [Hx|Hx]; auto.
  - destruct Hx as [[<-|Hx]|Hx]; [lia| |auto]. specialize (Ha2 x Hx). lia.
Qed.

Lemma mergeFirst_spec cnt : forall b s, Forall (fun x => x < numLabels) b -> Forall (fun x => x < numLabels) s -> cnt <= length (merge b s) ->
  exists b' s', mergeFirst cnt numLabels b s = Some (firstn cnt (merge b s), (b', s')) /\ merge b' s' = skipn cnt (merge b s) /\
    Forall (fun x => x < numLabels) b' /\ Forall (fun x => x < numLabels) s'.
Proof.
  induction cnt as [|cnt IH]; intros b s Hb Hs Hc; [exists b, s; auto|]. cbn [mergeFirst].
  destruct b as [|x b], s as [|y s].
  - simpl in Hc. lia.
  - rewrite merge_nil_l in *. assert (Hy := Forall_inv Hs). cbv beta in Hy. cbn [hd tl]. destruct (Nat.ltb_spec numLabels y); [lia|]. destruct (Nat.eqb_spec numLabels y); [lia|].
    destruct (IH [] s) as (b' & s' & E & H'); auto. { apply Forall_inv_tail in Hs; auto. } { rewrite merge_nil_l. simpl in Hc. lia. }
    rewrite E, merge_nil_l. rewrite merge_nil_l in H'. exists b', s'. split; auto.
  - rewrite merge_nil_r in *. assert (Hx := Forall_inv Hb). cbv beta in Hx. cbn [hd tl]. destruct (Nat.ltb_spec x numLabels); [|lia].
    destruct (IH b []) as (b' & s' & E & H'); auto. { apply Forall_inv_tail in Hb; auto. } { rewrite merge_nil_r. simpl in Hc. lia. }
    rewrite E, merge_nil_r. rewrite merge_nil_r in H'. exists b', s'. split; auto.
  - rewrite merge_cons in *. cbn [hd tl]. assert (Hb' := Forall_inv_tail Hb). assert (Hs' := Forall_inv_tail Hs).
    destruct (Nat.ltb_spec x y); [|destruct (Nat.eqb_spec x y)]; cbn [length] in Hc.
    + destruct (IH b (y :: s)) as (b' & s' & -> & H'); auto; try lia. exists b', s'. split; auto.
    + destruct (IH b s) as (b' & s' & -> & H'); auto; try lia. exists b', s'. split; auto.
    + destruct (IH (x :: b) s) as (b' & s' & -> & H'); auto; try lia. exists b', s'. split; auto.
Qed.

Lemma mergeWhile_spec fuel : forall b s, Forall (fun x => x < numLabels) b -> length b + length s <= fuel ->
  exists out rest, mergeWhile fuel numLabels b s = Some (out, rest) /\ out ++ rest = merge b s.
Proof.
  induction fuel as [|fuel IH]; intros b s Hb Hc.
  - destruct b; [|simpl in Hc; lia]. exists [], s. split; auto. rewrite merge_nil_l. auto.
  - destruct b as [|x b]; [exists [], s; split; auto; rewrite merge_nil_l; auto|]. cbn [mergeWhile]. assert (Hb' := Forall_inv_tail Hb). assert (Hx := Forall_inv Hb). cbv beta in Hx.
    destruct s as [|y s]; cbn [hd].
    + destruct (Nat.ltb_spec x numLabels); [|lia]. simpl length in Hc. destruct (IH b []) as (out & rest & -> & E); auto; [simpl; lia|].
      exists (x :: out), rest. split; auto. rewrite merge_nil_r in *. simpl. f_equal. auto.
    + rewrite merge_cons. simpl length in Hc. destruct (Nat.ltb_spec x y); [|destruct (Nat.eqb_spec x y)].
      * destruct (IH b (y :: s)) as (out & rest & -> & E); auto; [simpl; lia|]. exists (x :: out), rest. split; auto. simpl. f_equal. auto.
      * destruct (IH b s) as (out & rest & -> & E); auto; [lia|]. exists (x :: out), rest. split; auto. simpl. f_equal. auto.
      * destruct (IH (x :: b) s) as (out & rest & -> & E); auto; [simpl; lia|]. exists (y :: out), rest. split; auto. simpl. f_equal. auto.
Qed.

Lemma merge_length_ge a : forall b, length a <= length (merge a b).
Proof.
  induction a as [|u a IHa]; intros b; [simpl; lia|]. induction b as [|v b IHb]; [rewrite merge_nil_r; lia|]. rewrite merge_cons.
  destruct (u <? v); [|destruct (u =? v)].
  - assert (X := IHa (v :: b)). cbn [length]. lia.
  - assert (X := IHa b). cbn [length]. lia.
  - cbn [length] in *. lia.
Qed.

Lemma lowerBound_split l0 x : StronglySorted lt l0 -> exists pre, l0 = pre ++ SecoStatistics.lowerBound l0 x /\ Forall (fun y => y < x) pre /\
  Forall (fun y => x <= y) (SecoStatistics.lowerBound l0 x).
Proof.
  induction 1 as [|y l1 HS IH HF]; [exists []; simpl; auto|]. simpl. destruct (Nat.ltb_spec y x).
  - destruct IH as (pre & E & A & B). exists (y :: pre). split; [simpl; f_equal; auto|]. auto.
  - exists []. split; auto. split; auto. constructor; auto. rewrite Forall_forall in *. intros z Hz. specialize (HF z Hz). lia.
Qed.

Lemma SS_app_inv {A} (R : A -> A -> Prop) a b : StronglySorted R (a ++ b) -> StronglySorted R a /\ StronglySorted R b /\ forall x y, In x a -> In y b -> R x y.
Proof.
  induction a as [|u a IH]; simpl; intros H; [repeat split; auto; [constructor|intros; contradiction]|].
  inversion H as [|? ? H1 H2]; subst. destruct (IH H1) as (A1 & A2 & A3). rewrite Forall_forall in H2. repeat split; auto.
  - constructor; auto. apply Forall_forall. intros x Hx. apply H2. apply in_or_app. auto.
  - intros x y [<-|Hx] Hy; auto. apply H2. apply in_or_app. auto.
Qed.
Lemma SS_app {A} (R : A -> A -> Prop) a b : StronglySorted R a -> StronglySorted R b -> (forall x y, In x a -> In y b -> R x y) -> StronglySorted R (a ++ b).
Proof.
  induction 1 as [|u a HS IH HF]; simpl; intros Hb HR; auto. constructor; auto. apply Forall_forall. intros x Hx. apply in_app_or in Hx.
  rewrite Forall_forall in HF. destruct Hx; auto.
Qed.

Lemma mergeRow_spec scores r : StronglySorted lt scores -> Forall (fun x => x < numLabels) scores ->
  StronglySorted lt r -> Forall (fun x => x < numLabels) r ->
  exists r', mergeRow numLabels scores r = Some r' /\ StronglySorted lt r' /\ (forall x, In x r' <-> In x r \/ In x scores).
Proof.
  intros HS1 HF1 HS2 HF2. destruct scores as [|f scores]; [exists r; simpl; split; auto; split; auto; tauto|].
  unfold mergeRow. destruct (Nat.ltb_spec 0 (length r)).
  - destruct (lowerBound_split r f HS2) as (pre & E & Hpre & Hlow). remember (SecoStatistics.lowerBound r f) as buf eqn:Eb.
    clear Eb. subst r. destruct (SS_app_inv _ _ _ HS2) as (A1 & A2 & A3). apply Forall_app in HF2. destruct HF2 as (F1 & F2).
    destruct (mergeFirst_spec (length buf) buf (f :: scores) F2 HF1 (merge_length_ge _ _)) as (b' & s' & -> & EM & F3 & F4).
    destruct (mergeWhile_spec (length b' + length s') b' s' F3 (le_n _)) as (out & rest & -> & EW).
    rewrite EM in EW. eexists. split; [reflexivity|]. rewrite app_assoc, <- app_assoc, EW, firstn_skipn.
    replace (length (pre ++ buf) - length buf) with (length pre) by (rewrite app_length; lia). rewrite firstn_app, Nat.sub_diag, firstn_all, firstn_O, app_nil_r.
    split.
    + apply SS_app; auto. { apply merge_sorted; auto. } intros x y Hx Hy. apply merge_In in Hy. rewrite Forall_forall in Hpre.
      specialize (Hpre x Hx). destruct Hy as [Hy|[<-|Hy]]; auto. inversion HS1 as [|? ? Q1 Q2]; subst. rewrite Forall_forall in Q2. specialize (Q2 y Hy). lia.
    + intros x. rewrite !in_app_iff, merge_In. tauto.
  - destruct r; [|simpl in *; lia]. exists (f :: scores). split; auto. split; auto. intros; simpl; tauto.
Qed.

Lemma relevantIndices_partial values : relevantIndices (PartialHead values) = Some (map fst (filter snd values)).
Proof.
  simpl. rewrite nz_read_trues.
  assert (X : forall (vs pre : list (nat * bool)) (acc : list nat), forL (trues (map snd vs) (length pre)) (fun i acc => let* (index, _) := aget (pre ++ vs) i in Some (acc ++ [index])) acc =
    Some (acc ++ map fst (filter snd vs))).
  { induction vs as [|[a b] vs IH]; intros pre acc; simpl; [rewrite app_nil_r; auto|].
    assert (E : pre ++ (a, b) :: vs = (pre ++ [(a, b)]) ++ vs) by (rewrite <- app_assoc; reflexivity).
    replace (length pre + 1) with (length (pre ++ [(a, b)])) by (rewrite app_length; simpl; lia). rewrite E.
    destruct b; simpl.
    - unfold aget at 1. rewrite <- E, nth_error_app2, Nat.sub_diag by lia. simpl. rewrite E, IH, <- app_assoc. reflexivity.
    - apply IH. }
  apply (X values []).
Qed.

Lemma relevantIndices_spec h : head_for numLabels h -> head_sorted h ->
  exists scores, relevantIndices h = Some scores /\ StronglySorted lt scores /\ Forall (fun x => x < numLabels) scores /\
    forall x, In x scores <-> predicts h x = Some true.
Proof.
  intros HH HS. destruct h as [values|values].
  - exists (nz_read values). destruct (C16_non_zero values) as (A & B). split; auto. split; auto. split; auto.
    apply Forall_forall. intros x Hx. apply B in Hx. simpl in HH. rewrite <- HH. apply nth_error_Some. congruence.
  - rewrite relevantIndices_partial. eexists. split; [reflexivity|]. simpl in *.
    assert (HI : forall x, In x (map fst (filter snd values)) <-> In (x, true) values).
    { intros x. rewrite in_map_iff. split.
      - intros ([a b] & <- & Hx). apply filter_In in Hx. simpl in Hx. destruct Hx as (Hx & ->). auto.
      - intros Hx. exists (x, true). split; auto. apply filter_In. auto. }
    split; [|split].
    + clear - HS. induction values as [|[a b] values IH]; simpl in *; [constructor|]. inversion HS as [|? ? H1 H2]; subst. destruct b; simpl; auto.
      constructor; auto. rewrite Forall_forall in *. intros x Hx. apply in_map_iff in Hx. destruct Hx as (p & <- & Hp). apply filter_In in Hp. apply H2, in_map, Hp.
    + apply Forall_forall. intros x Hx. apply HI in Hx. rewrite Forall_forall in HH. apply (HH _ Hx).
    + intros x. rewrite HI. clear - HS. induction values as [|[a b] values IH]; simpl in *; [split; [tauto|discriminate]|].
      inversion HS as [|? ? H1 H2]; subst. rewrite Forall_forall in H2. destruct (Nat.eqb_spec a x) as [->|N]; simpl.
      * split; [intros [X|X]; [congruence|]|intros X; left; congruence]. apply (in_map fst) in X. simpl in X. specialize (H2 x X). lia.
      * rewrite <- IH by auto. split; [intros [X|X]; [congruence|auto]|auto].
Qed.

Lemma applyHeadSparse_spec h r : head_for numLabels h -> head_sorted h -> StronglySorted lt r -> Forall (fun x => x < numLabels) r ->
  exists r', applyHeadSparse numLabels h r = Some r' /\ StronglySorted lt r' /\ Forall (fun x => x < numLabels) r' /\
    (forall x, In x r' <-> In x r \/ predicts h x = Some true).
Proof.
  intros H1 H2 H3 H4. unfold applyHeadSparse. destruct (relevantIndices_spec h H1 H2) as (scores & -> & A & B & C).
  destruct (mergeRow_spec scores r A B H3 H4) as (r' & -> & D & E). exists r'. split; auto. split; auto. split.
  - apply Forall_forall. intros x Hx. apply E in Hx. rewrite Forall_forall in *. destruct Hx; auto.
  - intros x. rewrite E, C. tauto.
Qed.

Lemma rulesSparse_spec (covers : rule bool -> bool) rules : Forall (fun r => head_for numLabels (snd r) /\ head_sorted (snd r)) rules ->
  forall r0, StronglySorted lt r0 -> Forall (fun x => x < numLabels) r0 ->
  exists r', forL rules (fun r st => if covers r : bool then applyHeadSparse numLabels (snd r) st else Some st) r0 = Some r' /\
    StronglySorted lt r' /\ (forall x, In x r' <-> In x r0 \/ some_relevant covers rules x).
Proof.
  induction 1 as [|r rules (Hr1 & Hr2) HF IH]; intros r0 HS HB; simpl.
  - exists r0. split; auto. split; auto. intros x. unfold some_relevant. split; auto. intros [X|(r & [] & _)]; auto.
  - destruct (covers r) eqn:Ec.
    + destruct (applyHeadSparse_spec (snd r) r0 Hr1 Hr2 HS HB) as (r1 & -> & A & B & C). destruct (IH r1 A B) as (r' & -> & D & E).
      exists r'. split; auto. split; auto. intros x. rewrite E, C. unfold some_relevant. split.
      * intros [[X|X]|(q & X1 & X2)]; auto; right; [exists r; simpl; auto|exists q; simpl; auto].
      * intros [X|(q & [<-|X1] & X2 & X3)]; auto. right. exists q. auto.
    + destruct (IH r0 HS HB) as (r' & -> & D & E). exists r'. split; auto. split; auto. intros x. rewrite E. unfold some_relevant. split.
      * intros [X|(q & X1 & X2)]; auto. right. exists q. simpl. auto.
      * intros [X|(q & [<-|X1] & X2 & X3)]; auto; [congruence|]. right. exists q. auto.
Qed.

Lemma sparse_row : (forall r, In r (used_rules l maxRules) -> head_sorted (snd r)) ->
  exists result, predictSparse junk m l numLabels maxRules = Some result /\ length result = fmRows m /\
    forall i labels, nth_error result i = Some labels -> StronglySorted lt labels /\
      forall label, In label labels <-> some_relevant (covered_by (row i)) (used_rules l maxRules) label.
Proof.
  intros HSort. unfold predictSparse.
  apply (forRows (fmRows m) (fun i row => forCovering junk m (rlUsedBegin l maxRules) (rlUsedEnd l maxRules) i (applyHeadSparse numLabels) row)
    (fun i labels => StronglySorted lt labels /\ forall label, In label labels <-> some_relevant (covered_by (row i)) (used_rules l maxRules) label)).
  - apply repeat_length.
  - intros i init Hi Hinit. destruct (used_loop l maxRules Hused) as (HLoop & _ & HDef & _).
    apply nth_error_In, repeat_spec in Hinit. subst init.
    rewrite (forCovering_spec junk m _ _ (used_rules l maxRules) i (row i)); auto using used_lt.
    2:{ apply Forall_forall. intros r Hr. apply HCov; auto. }
    destruct (rulesSparse_spec (covered_by (row i)) (used_rules l maxRules)) with (r0 := @nil nat) as (r' & -> & A & B).
    { apply Forall_forall. auto. } { constructor. } { constructor. }
    exists r'. split; auto. split; auto. intros x. rewrite B. simpl. tauto.
Qed.
End Predictor.

(** ** Statements *)
Lemma dense_predictions :
  forall junk junkLabels m l numLabels maxRules row,
    rlNumUsed l <= rlGetNumRules l -> (N.of_nat (rlGetNumRules l) < 2 ^ 32)%N ->
    let order := expected_order (rlDefault l) (rlRules l) (rlPrecedence l) (limitRules maxRules (rlGetNumUsed l)) in
    (forall i, i < fmRows m -> example_row m i (row i)) ->
    (forall i r, i < fmRows m -> In r order -> coversDense (row i) (fst r) <> None) ->
    (forall r, In r order -> head_for numLabels (snd r)) ->
    default_for numLabels (rlDefault l) -> length junkLabels = fmRows m -> Forall (fun r => length r = numLabels) junkLabels ->
    exists result, predictDense junk junkLabels m l numLabels maxRules = Some result /\ length result = fmRows m /\
      forall i labels, nth_error result i = Some labels -> length labels = numLabels /\
        forall label, label < numLabels -> nth_error labels label = Some true <->
          decide (fun r => match coversDense (row i) (fst r) with Some true => true | _ => false end) order label = Some true.
Proof.
  intros junk junkLabels m l numLabels maxRules row H1 H2 order H3 H4 H5 H6 H7 H8.
  destruct (dense_row junk m l numLabels maxRules row H1 H2 H3 H4 H5 junkLabels H6 H7 H8) as (res & E & L & HR).
  exists res. split; auto. split; auto. intros i labels Hi. destruct (HR i labels Hi) as (A & B). split; auto.
  intros label Hl. rewrite (B label Hl). change (used_rules l maxRules) with order. clearbody order.
  assert (X : forall rs, decide (covered_by (row i)) rs label = decide (fun r => match coversDense (row i) (fst r) with Some true => true | _ => false end) rs label).
  { induction rs as [|r rs IH]; simpl; auto. unfold covered_by at 1. destruct (coversDense (row i) (fst r)) as [[]|]; rewrite IH; auto. }
  rewrite X. destruct (decide _ order label) as [[]|]; split; congruence.
Qed.

Lemma sparse_predictions :
  forall junk m l numLabels maxRules row,
    rlNumUsed l <= rlGetNumRules l -> (N.of_nat (rlGetNumRules l) < 2 ^ 32)%N ->
    let order := expected_order (rlDefault l) (rlRules l) (rlPrecedence l) (limitRules maxRules (rlGetNumUsed l)) in
    (forall i, i < fmRows m -> example_row m i (row i)) ->
    (forall i r, i < fmRows m -> In r order -> coversDense (row i) (fst r) <> None) ->
    (forall r, In r order -> head_for numLabels (snd r)) -> (forall r, In r order -> head_sorted (snd r)) ->
    exists result, predictSparse junk m l numLabels maxRules = Some result /\ length result = fmRows m /\
      forall i labels, nth_error result i = Some labels -> StronglySorted lt labels /\
        forall label, In label labels <->
          some_relevant (fun r => match coversDense (row i) (fst r) with Some true => true | _ => false end) order label.
Proof.
  intros junk m l numLabels maxRules row H1 H2 order H3 H4 H5 H6.
  destruct (sparse_row junk m l numLabels maxRules row H1 H2 H3 H4 H5 H6) as (res & E & L & HR).
  exists res. split; auto. split; auto. intros i labels Hi. destruct (HR i labels Hi) as (A & B). split; auto.
  intros label. rewrite B. unfold used_rules. fold order. unfold some_relevant, covered_by. split; intros (r & X1 & X2 & X3); exists r; split; auto; split; auto;
    destruct (coversDense (row i) (fst r)) as [[]|]; auto; discriminate.
Qed.

(** The union of relevant labels is the right result if no rule that predicts a label as irrelevant precedes one that predicts
    it as relevant. *)
Lemma union_correct (covers : rule bool -> bool) rules label :
  (forall pre r suf, rules = pre ++ r :: suf -> covers r = true -> predicts (snd r) label = Some false -> ~ some_relevant covers suf label) ->
  (some_relevant covers rules label <-> decide covers rules label = Some true).
Proof.
  induction rules as [|r rules IH]; intros H.
  - simpl. split; [intros (q & [] & _)|discriminate].
  - assert (IH' : some_relevant covers rules label <-> decide covers rules label = Some true).
    { apply IH. intros pre q suf E. apply (H (r :: pre) q suf). simpl. f_equal. auto. }
    simpl. destruct (covers r) eqn:Ec; [destruct (predicts (snd r) label) as [[]|] eqn:Ep|].
    + split; auto. intros _. exists r. simpl. auto.
    + split; [|discriminate]. intros (q & [<-|Hq] & X & Y); [congruence|]. exfalso. apply (H [] r rules eq_refl Ec Ep). exists q. auto.
    + rewrite <- IH'. split; intros (q & Hq & X & Y); [destruct Hq as [<-|Hq]; [congruence|]|]; exists q; simpl; auto.
    + rewrite <- IH'. split; intros (q & Hq & X & Y); [destruct Hq as [<-|Hq]; [congruence|]|]; exists q; simpl; auto.
Qed.

Lemma predictions_agree :
  forall junk junk' junkLabels m l numLabels maxRules row,
    rlNumUsed l <= rlGetNumRules l -> (N.of_nat (rlGetNumRules l) < 2 ^ 32)%N ->
    let order := expected_order (rlDefault l) (rlRules l) (rlPrecedence l) (limitRules maxRules (rlGetNumUsed l)) in
    let covers i r := match coversDense (row i) (fst r) with Some true => true | _ => false end in
    (forall i, i < fmRows m -> example_row m i (row i)) ->
    (forall i r, i < fmRows m -> In r order -> coversDense (row i) (fst r) <> None) ->
    (forall r, In r order -> head_for numLabels (snd r)) -> (forall r, In r order -> head_sorted (snd r)) ->
    default_for numLabels (rlDefault l) -> length junkLabels = fmRows m -> Forall (fun r => length r = numLabels) junkLabels ->
    (forall i label pre r suf, i < fmRows m -> order = pre ++ r :: suf -> covers i r = true -> predicts (snd r) label = Some false ->
       ~ some_relevant (covers i) suf label) ->
    exists dense sparse, predictDense junk junkLabels m l numLabels maxRules = Some dense /\
      predictSparse junk' m l numLabels maxRules = Some sparse /\
      forall i labels relevant label, nth_error dense i = Some labels -> nth_error sparse i = Some relevant -> label < numLabels ->
        (nth_error labels label = Some true <-> In label relevant).
Proof.
  intros junk junk' junkLabels m l numLabels maxRules row H1 H2 order covers H3 H4 H5 H6 H7 H8 H9 H10.
  destruct (dense_predictions junk junkLabels m l numLabels maxRules row H1 H2 H3 H4 H5 H7 H8 H9) as (d & E1 & L1 & HD).
  destruct (sparse_predictions junk' m l numLabels maxRules row H1 H2 H3 H4 H5 H6) as (s & E2 & L2 & HS).
  exists d, s. split; auto. split; auto. intros i labels relevant label Hd Hs Hl.
  destruct (HD i labels Hd) as (_ & A). destruct (HS i relevant Hs) as (_ & B). rewrite (A label Hl), B. symmetry. apply union_correct.
  intros pre r suf. apply H10. rewrite <- L1. apply nth_error_Some. congruence.
Qed.

(** ** Counterexamples *)
Lemma sparse_disagrees : exists m l numLabels, rlDefault l = Some (EmptyBody, CompleteHead [true]) /\
  rlRules l = [(EmptyBody, PartialHead [(0, false)])] /\ rlPrecedence l = false /\
  forall junk junkLabels, predictDense junk [[junkLabels]] m l numLabels 0 = Some [[false]] /\
    predictSparse junk m l numLabels 0 = Some [[0]].
Proof.
  exists (DenseMatrix [[]]), (mkRuleList (Some (EmptyBody, CompleteHead [true])) [(EmptyBody, PartialHead [(0, false)])] 0 false), 1.
  repeat split.
Qed.

(** Heads whose labels are not in ascending order, as found by a beam search. *)
Lemma sparse_duplicates : exists m l numLabels maxRules labels, (forall r, In r (rlRules l) -> head_for numLabels (snd r)) /\
  (forall junk, predictSparse junk m l numLabels maxRules = Some [labels]) /\ ~ NoDup labels /\ ~ StronglySorted le labels.
Proof.
  exists (DenseMatrix [[]]), (mkRuleList None [(EmptyBody, PartialHead [(5, true)]); (EmptyBody, PartialHead [(7, true); (3, true)]);
    (EmptyBody, PartialHead [(3, true)])] 0 false), 8, 0, [3; 5; 7; 3].
  split; [|split; [reflexivity|split]].
  - simpl. intros r [<-|[<-|[<-|[]]]]; repeat constructor.
  - intros H. inversion H as [|? ? N _]; subst. apply N. simpl. auto.
  - intros H. inversion H as [|? ? H1 H2]; subst. inversion H1 as [|? ? H3 H4]; subst. inversion H4 as [|? ? H5 H6]; subst. inversion H6; subst. lia.
Qed.
