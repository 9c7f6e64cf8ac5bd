(** Proofs about equal-frequency binning. *)
From Coq Require Import ZArith Arith List Bool Sorted Lia.
From Verif Require Import Lib.Arr Model.Search Model.Filter Model.Binning Spec.Search Spec.Binning Proofs.Search
  Proofs.SearchOrdinal Proofs.Filter.
Import ListNotations.
Open Scope nat_scope.

Lemma firstn_upd_ge {A} n (l : list A) k x : n <= k -> firstn n (upd l k x) = firstn n l.
Proof.
  revert n k; induction l as [|a l IH]; intros n k H; destruct k, n; simpl; auto; try lia. f_equal. apply IH. lia.
Qed.

Lemma firstn_upd_S {A} n (l : list A) x : n < length l -> firstn (S n) (upd l n x) = firstn n l ++ [x].
Proof.
  revert n; induction l as [|a l IH]; intros n H; destruct n; simpl in *; auto; try lia. f_equal. apply IH. lia.
Qed.

Lemma slice_mid {A} (a b c : list A) x y : x = length a -> y = length a + length b -> slice x y (a ++ b ++ c) = b.
Proof.
  intros -> ->. unfold slice. rewrite skipn_app, skipn_all, Nat.sub_diag. simpl.
  replace (length a + length b - length a) with (length b + 0) by lia. rewrite firstn_app_2. simpl. apply app_nil_r.
Qed.

Lemma firstn_concat_S (bs : list (list nat)) j b : nth_error bs j = Some b ->
  concat (firstn (S j) bs) = concat (firstn j bs) ++ b.
Proof.
  revert j; induction bs as [|x bs IH]; intros j H; destruct j; simpl in *; try discriminate.
  - injection H as ->. rewrite app_nil_r. reflexivity.
  - rewrite <- app_assoc. f_equal. apply IH. exact H.
Qed.

(** The arrays hold the given bins. *)
Lemma binsFrom_spec bs indices indptr : indices = concat bs ->
  (forall j, j <= length bs -> nth_error indptr j = Some (length (concat (firstn j bs)))) ->
  binsFrom indices indptr (length bs) = bs.
Proof.
  intros -> H. apply list_ext_len; unfold binsFrom.
  - rewrite map_length, seq_length. reflexivity.
  - rewrite map_length, seq_length. intros j Hj. rewrite nth_error_map.
    assert (Es: nth_error (seq 0 (length bs)) j = Some j).
    { rewrite (nth_error_nth' _ 0) by (rewrite seq_length; auto). rewrite seq_nth by auto. reflexivity. }
    rewrite Es. cbn [option_map]. destruct (nth_Some bs j Hj) as (b & Eb). rewrite Eb. f_equal.
    rewrite (nth_error_nth _ _ _ (H j ltac:(lia))), (nth_error_nth _ _ _ (H (S j) ltac:(lia))).
    rewrite (firstn_concat_S _ _ _ Eb), app_length.
    assert (E: concat bs = concat (firstn j bs) ++ b ++ concat (skipn (S j) bs)).
    { rewrite app_assoc, <- (firstn_concat_S _ _ _ Eb), <- concat_app, firstn_skipn. reflexivity. }
    rewrite E. apply slice_mid; reflexivity.
Qed.

(** ** Ranges *)

Definition in_range (ts : list Z) (p : nat) (z : Z) : Prop :=
  (forall t, nth_error ts p = Some t -> (z <= t)%Z) /\
  (forall t q, p = S q -> nth_error ts q = Some t -> (t < z)%Z).

Lemma in_range_snoc ts p z t : p <= length ts -> in_range ts p z -> (z <= t)%Z -> in_range (ts ++ [t]) p z.
Proof.
  intros Hp [H1 H2] Ht. split.
  - intros t' E. destruct (Nat.eq_dec p (length ts)) as [->|N].
    + rewrite nth_error_app2, Nat.sub_diag in E by lia. injection E as <-. exact Ht.
    + rewrite nth_error_app1 in E by lia. apply H1, E.
  - intros t' q -> E. rewrite nth_error_app1 in E by lia. eapply H2; eauto.
Qed.

Lemma in_range_last ts z : (forall t, In t ts -> (t < z)%Z) -> in_range ts (length ts) z.
Proof.
  intros H. split.
  - intros t E. apply nth_len in E. lia.
  - intros t q Hq E. apply H. eapply nth_error_In, E.
Qed.

Lemma in_range_unique ts p q z : StronglySorted Z.lt ts -> p <= length ts -> q <= length ts ->
  in_range ts p z -> in_range ts q z -> p = q.
Proof.
  intros HS.
  assert (HH: forall p q, p < q -> q <= length ts -> in_range ts p z -> in_range ts q z -> False).
  { clear p q. intros p q H Hq [H1 _] [_ H2]. destruct q as [|q]; [lia|].
    destruct (nth_Some ts p) as (t & Et); [lia|]. destruct (nth_Some ts q) as (t' & Et'); [lia|].
    pose proof (H1 _ Et). pose proof (H2 _ _ eq_refl Et').
    destruct (Nat.eq_dec p q) as [->|N]; [assert (t = t') by congruence; lia|].
    pose proof (ss_nth _ _ HS p q t t' ltac:(lia) Et Et'). lia. }
  intros Hp Hq Rp Rq. destruct (lt_eq_lt_dec p q) as [[H|H]|H]; auto; exfalso; eauto.
Qed.

Lemma SS_snoc ts t : StronglySorted Z.lt ts -> (forall x, In x ts -> (x < t)%Z) -> StronglySorted Z.lt (ts ++ [t]).
Proof.
  induction 1 as [|a l H IH HF]; intros Ht; simpl.
  - repeat constructor.
  - constructor; [apply IH; intros; apply Ht; right; auto|]. apply Forall_app. split; auto.
    constructor; auto. apply Ht. left. reflexivity.
Qed.

Lemma SS_cross (a b : list Z) : StronglySorted Z.le (a ++ b) -> forall x y, In x a -> In y b -> (x <= y)%Z.
Proof.
  induction a as [|c a IH]; intros HS x y Hx Hy; [destruct Hx|]. inversion HS as [|? ? HS' HF]; subst.
  destruct Hx as [->|Hx]; [|eauto]. rewrite Forall_forall in HF. apply HF, in_or_app. auto.
Qed.

(** ** The state of the loops *)

Definition stored (bins : list (list nat)) (p i : nat) : Prop := exists ids, nth_error bins p = Some ids /\ In i ids.

Definition Rep (st : efState) (cl : list (list nat)) (cur : list nat) (ts : list Z) : Prop :=
  fBin st = length cl /\ length ts = length cl /\
  firstn (fBin st) (aThresholds (fArrays st)) = ts /\
  fNum st = length (concat cl ++ cur) /\ firstn (fNum st) (aIndices (fArrays st)) = concat cl ++ cur /\
  (forall j, j <= length cl -> nth_error (aIndptr (fArrays st)) j = Some (length (concat (firstn j cl)))).

Definition Good (done : list (nat * Z)) (sp : option Z) (sb : option nat) (cl : list (list nat)) (cur : list nat)
  (ts : list Z) (prev : Z) : Prop :=
  (forall q i, stored (cl ++ [cur]) q i -> exists z, In (i, z) done /\ in_range ts q z) /\
  (forall i z, In (i, z) done ->
     exists p, p <= length cl /\ in_range ts p z /\ (stored (cl ++ [cur]) p i \/ sb = Some p)) /\
  StronglySorted Z.lt ts /\ (forall t, In t ts -> (t < prev)%Z) /\
  (forall i z, In (i, z) done -> (z <= prev)%Z) /\
  NoDup (concat cl ++ cur) /\
  (forall s, sp = Some s -> (s <= prev)%Z /\ exists p, sb = Some p /\ p <= length cl /\ in_range ts p s).

Section EqualFrequency.
Variable mean : Z -> Z -> Z.
Hypothesis Hmean : separates mean.
Variable k : nat.
Hypothesis Hk : 0 < k.
Variable value : nat -> Z.
Local Notation addValue := (addValue Z.eqb mean k).
Local Notation closeBin := (closeBin mean).

(** The bins are filled evenly. *)
Definition Even (done : list (nat * Z)) (st : efState) (cl : list (list nat)) (cur : list nat) : Prop :=
  fInBin st = length cur /\ concat cl ++ cur = map fst done /\
  Forall (fun ids => k <= length ids) cl /\ Forall (not_overfull value k) cl /\
  (forall i, In i cur -> (value i <= fPrevious st)%Z) /\ (cur = [] \/ exists i, In i cur /\ value i = fPrevious st) /\
  length (filter (fun i => value i <? fPrevious st)%Z cur) < k.

(** The same, before an element with the value [fPrevious st] is added. *)
Definition Even' (done : list (nat * Z)) (st : efState) (cl : list (list nat)) (cur : list nat) : Prop :=
  fInBin st = length cur /\ concat cl ++ cur = map fst done /\
  Forall (fun ids => k <= length ids) cl /\ Forall (not_overfull value k) cl /\
  (forall i, In i cur -> (value i <= fPrevious st)%Z) /\
  length (filter (fun i => value i <? fPrevious st)%Z cur) < k.

Lemma filter_length_le {A} (f : A -> bool) l : length (filter f l) <= length l.
Proof. induction l as [|a l IH]; simpl; auto. destruct (f a); simpl; lia. Qed.

Definition Ok (done : list (nat * Z)) (sp : option Z) (sb : option nat) (st : efState) (cl : list (list nat))
  (cur : list nat) (ts : list Z) : Prop :=
  Rep st cl cur ts /\ Good done sp sb cl cur ts (fPrevious st) /\
  ((done = [] /\ sp = None /\ fInBin st = 0 /\ ts = []) \/ (exists i, In (i, fPrevious st) done) \/
   sp = Some (fPrevious st)) /\
  (sp = None -> Even done st cl cur).

Lemma stored_snoc cl (cur : list nat) x q i :
  stored (cl ++ [cur ++ [x]]) q i <-> stored (cl ++ [cur]) q i \/ (q = length cl /\ i = x).
Proof.
  unfold stored. destruct (lt_eq_lt_dec q (length cl)) as [[H|H]|H].
  - rewrite !nth_error_app1 by auto. split; [auto|]. intros [E|[E _]]; [auto|lia].
  - subst q. rewrite !nth_error_app2, !Nat.sub_diag by lia. simpl. split.
    + intros (ids & [= <-] & H). apply in_app_or in H. destruct H as [H|[<-|[]]]; eauto.
    + intros [(ids & [= <-] & H)|[_ ->]]; eexists; (split; [reflexivity|]); apply in_or_app; simpl; auto.
  - rewrite !nth_error_app2 by lia. destruct (q - length cl) as [|m] eqn:Em; [lia|]. simpl. split.
    + intros (ids & E & _). destruct m; discriminate.
    + intros [(ids & E & _)|[E _]]; [destruct m; discriminate|lia].
Qed.

Lemma stored_nil_snoc bins q i : stored (bins ++ [[]]) q i <-> stored bins q i.
Proof.
  unfold stored. split; intros (ids & E & H).
  - destruct (Nat.lt_ge_cases q (length bins)).
    + rewrite nth_error_app1 in E by auto. eauto.
    + rewrite nth_error_app2 in E by auto. destruct (q - length bins) as [|m]; simpl in E.
      * injection E as <-. destruct H.
      * destruct m; discriminate.
  - exists ids. split; auto. rewrite nth_error_app1; auto. eapply nth_len, E.
Qed.

Lemma stored_drop cl (cur : list nat) q i : stored (cl ++ [[]]) q i -> stored (cl ++ [cur]) q i /\ q < length cl.
Proof.
  rewrite stored_nil_snoc. intros (ids & E & H). pose proof (nth_len _ _ _ E). split; auto.
  exists ids. rewrite nth_error_app1; auto.
Qed.

Lemma stored_le cl (cur : list nat) q i : stored (cl ++ [cur]) q i -> q <= length cl.
Proof. intros (ids & E & _). apply nth_len in E. rewrite app_length in E. simpl in E. lia. Qed.

(** Closing the current bin. *)
Lemma close_good done sp sb cl cur ts prev z : Good done sp sb cl cur ts prev -> length ts = length cl -> (prev < z)%Z ->
  Good done sp sb (cl ++ [cur]) [] (ts ++ [mean prev z]) z.
Proof.
  intros (G1 & G2 & G3 & G4 & G5 & G6 & G7) HL Hz. pose proof (Hmean _ _ Hz) as Ht.
  split; [|split; [|split; [|split; [|split; [|split]]]]].
  - intros q i H. apply (proj1 (stored_nil_snoc _ _ _)) in H. pose proof (stored_le _ _ _ _ H).
    destruct (G1 _ _ H) as (z' & Hi & R). exists z'. split; auto. apply in_range_snoc; auto; [lia|].
    pose proof (G5 _ _ Hi). lia.
  - intros i z' Hi. destruct (G2 _ _ Hi) as (p & Hp & R & HS). exists p. split; [rewrite app_length; simpl; lia|].
    split; [apply in_range_snoc; auto; [lia|pose proof (G5 _ _ Hi); lia]|]. rewrite stored_nil_snoc. exact HS.
  - apply SS_snoc; auto. intros x Hx. pose proof (G4 x Hx). lia.
  - intros t Hi. apply in_app_or in Hi. destruct Hi as [Hi|[<-|[]]]; [pose proof (G4 _ Hi)|]; lia.
  - intros i z' Hi. pose proof (G5 _ _ Hi). lia.
  - rewrite concat_app, app_nil_r. simpl. rewrite app_nil_r. exact G6.
  - intros s Hs. destruct (G7 s Hs) as (Hsp & p & E & Hp & R). split; [lia|]. exists p.
    split; [exact E|]. split; [rewrite app_length; simpl; lia|]. apply in_range_snoc; auto; lia.
Qed.

(** Increasing the previous value. *)
Lemma raise_good done sp sb cl cur ts prev z : Good done sp sb cl cur ts prev ->
  (prev <= z)%Z \/ (done = [] /\ sp = None /\ ts = []) -> Good done sp sb cl cur ts z.
Proof.
  intros (G1 & G2 & G3 & G4 & G5 & G6 & G7) Hz.
  split; [|split; [|split; [|split; [|split; [|split]]]]]; auto.
  - intros t Hi. destruct Hz as [Hz|(_ & _ & ->)]; [pose proof (G4 _ Hi); lia|destruct Hi].
  - intros i z' Hi. destruct Hz as [Hz|(-> & _ & _)]; [pose proof (G5 _ _ Hi); lia|destruct Hi].
  - intros s Hs. destruct (G7 s Hs) as (Hsp & HR). split; auto. destruct Hz as [Hz|(_ & E & _)]; [lia|congruence].
Qed.

(** Adding an element to the current bin. *)
Lemma add_good done sp sb cl cur ts i z : Good done sp sb cl cur ts z -> length ts = length cl ->
  ~ In i (map fst done) -> Good (done ++ [(i, z)]) sp sb cl (cur ++ [i]) ts z.
Proof.
  intros (G1 & G2 & G3 & G4 & G5 & G6 & G7) HL Hi.
  assert (HR: in_range ts (length cl) z) by (rewrite <- HL; apply in_range_last; auto).
  split; [|split; [|split; [|split; [|split; [|split]]]]]; auto.
  - intros q x H. apply stored_snoc in H. destruct H as [H|[-> ->]].
    + destruct (G1 _ _ H) as (z' & Hx & R). exists z'. split; auto. apply in_or_app. auto.
    + exists z. split; auto. apply in_or_app. right. left. reflexivity.
  - intros x z' Hx. apply in_app_or in Hx. destruct Hx as [Hx|[[= <- <-]|[]]].
    + destruct (G2 _ _ Hx) as (p & Hp & R & HS). exists p. split; auto. split; auto. rewrite stored_snoc. tauto.
    + exists (length cl). split; auto. split; auto. left. apply stored_snoc. auto.
  - intros x z' Hx. apply in_app_or in Hx. destruct Hx as [Hx|[[= <- <-]|[]]]; [eauto|lia].
  - rewrite app_assoc. apply NoDup_app_iff. split; [exact G6|]. split; [repeat constructor; intros []|].
    intros x H [<-|[]]. apply Hi.
    assert (HS: exists q, stored (cl ++ [cur]) q i).
    { apply in_app_or in H. destruct H as [H|H].
      - apply in_concat in H. destruct H as (ids & H1 & H2). apply In_nth_error in H1. destruct H1 as (q & Eq).
        exists q, ids. split; auto. rewrite nth_error_app1; auto. eapply nth_len, Eq.
      - exists (length cl), cur. rewrite nth_error_app2, Nat.sub_diag by lia. auto. }
    destruct HS as (q & HS). destruct (G1 _ _ HS) as (z' & Hz' & _). apply in_map_iff. exists (i, z'). auto.
Qed.

(** A skipped element that belongs to the sparse bin. *)
Lemma skip_good done sp sb cl cur ts i z : Good done sp sb cl cur ts z -> sb = Some (length cl) ->
  length ts = length cl -> Good (done ++ [(i, z)]) sp sb cl cur ts z.
Proof.
  intros (G1 & G2 & G3 & G4 & G5 & G6 & G7) Hsb HL.
  split; [|split; [|split; [|split; [|split; [|split]]]]]; auto.
  - intros q x H. destruct (G1 _ _ H) as (z' & Hx & R). exists z'. split; auto. apply in_or_app. auto.
  - intros x z' Hx. apply in_app_or in Hx. destruct Hx as [Hx|[[= <- <-]|[]]]; [eauto|].
    exists (length cl). split; auto. split; auto. rewrite <- HL. apply in_range_last; auto.
  - intros x z' Hx. apply in_app_or in Hx. destruct Hx as [Hx|[[= <- <-]|[]]]; [eauto|lia].
Qed.

(** *** Representation by arrays *)

Lemma close_rep next n st st' cl cur ts : Rep st cl cur ts -> closeBin next n st = Some st' ->
  Rep st' (cl ++ [cur]) [] (ts ++ [mean (fPrevious st) next]) /\ fPrevious st' = fPrevious st /\ fInBin st' = n /\
  fBin st < length (aThresholds (fArrays st)).
Proof.
  intros (R1 & R2 & R3 & R4 & R5 & R6) H. unfold Model.Binning.closeBin in H.
  destruct (aset (aThresholds (fArrays st)) (fBin st) (mean (fPrevious st) next)) as [t|] eqn:Et; [|discriminate].
  destruct (aset (aIndptr (fArrays st)) (fBin st + 1) (fNum st)) as [p|] eqn:Ep; [|discriminate].
  injection H as <-. apply aset_inv in Et as [Ht ->]. apply aset_inv in Ep as [Hp ->].
  split; [|auto]. unfold Rep. cbn [fBin fArrays aThresholds aIndices aIndptr fNum].
  assert (Ec: concat (cl ++ [cur]) = concat cl ++ cur) by (rewrite concat_app; simpl; rewrite app_nil_r; reflexivity).
  rewrite app_nil_r, Ec. replace (length (cl ++ [cur])) with (length cl + 1) by (rewrite app_length; reflexivity).
  split; [lia|]. split; [rewrite app_length; simpl; lia|]. split; [rewrite Nat.add_1_r, firstn_upd_S, R3; auto|].
  split; [exact R4|]. split; [exact R5|]. intros j Hj. destruct (Nat.eq_dec j (length cl + 1)) as [->|N].
  - rewrite R1, nth_error_upd_eq by lia. rewrite R4, firstn_all2 by (rewrite app_length; simpl; lia).
    rewrite Ec. reflexivity.
  - rewrite nth_error_upd_neq by lia. rewrite R6 by lia. rewrite firstn_app.
    replace (j - length cl) with 0 by lia. simpl. rewrite app_nil_r. reflexivity.
Qed.

Lemma store_rep st cl cur ts i ids : Rep st cl cur ts -> aset (aIndices (fArrays st)) (fNum st) i = Some ids ->
  Rep (mkEf (mkArrays (aThresholds (fArrays st)) ids (aIndptr (fArrays st))) (fPrevious st) (fInBin st + 1) (fBin st)
         (fNum st + 1)) cl (cur ++ [i]) ts.
Proof.
  intros (R1 & R2 & R3 & R4 & R5 & R6) H. apply aset_inv in H as [H ->]. unfold Rep.
  cbn [fBin fArrays aThresholds aIndices aIndptr fNum]. rewrite app_assoc, app_length. cbn [length].
  split; [auto|]. split; [auto|]. split; [auto|]. split; [lia|]. split; [|auto].
  rewrite Nat.add_1_r, firstn_upd_S, R5; auto.
Qed.

Lemma setPrevious_rep z st cl cur ts : Rep st cl cur ts -> Rep (setPrevious z st) cl cur ts.
Proof. auto. Qed.

Lemma addValue_ok done sp sb st cl cur ts i z st' : Ok done sp sb st cl cur ts ->
  (forall i' z', In (i', z') done -> (z' <= z)%Z) -> (forall s, sp = Some s -> (s <= z)%Z) -> ~ In i (map fst done) ->
  value i = z -> addValue (i, z) st = Some st' ->
  exists cl' cur' ts', Ok (done ++ [(i, z)]) sp sb st' cl' cur' ts' /\ length cl <= length cl'.
Proof.
  intros (HR & HG & HP & HC) Hz Hs Hi Hv. unfold Model.Binning.addValue. cbn [fst snd].
  assert (HR2: length ts = length cl) by apply HR.
  assert (Hstore: forall st1 cl1 cur1 ts1, Rep st1 cl1 cur1 ts1 -> Good done sp sb cl1 cur1 ts1 z -> fPrevious st1 = z ->
     (sp = None -> Even' done st1 cl1 cur1) -> length cl <= length cl1 ->
     (let* ids := aset (aIndices (fArrays st1)) (fNum st1) i in
      Some (mkEf (mkArrays (aThresholds (fArrays st1)) ids (aIndptr (fArrays st1))) (fPrevious st1) (fInBin st1 + 1)
              (fBin st1) (fNum st1 + 1))) = Some st' ->
     exists cl' cur' ts', Ok (done ++ [(i, z)]) sp sb st' cl' cur' ts' /\ length cl <= length cl').
  { intros st1 cl1 cur1 ts1 R1 G1 E1 C1 L1. destruct (aset (aIndices (fArrays st1)) (fNum st1) i) as [ids|] eqn:E; [|discriminate].
    intros [= <-]. exists cl1, (cur1 ++ [i]), ts1. split; [|exact L1]. split; [apply store_rep; auto|].
    cbn [fPrevious fInBin]. rewrite E1. split; [apply add_good; auto; apply R1|]. split.
    - right. left. exists i. apply in_or_app. right. left. reflexivity.
    - intros N. destruct (C1 N) as (F1 & F2 & F3 & F4 & F5 & F7). unfold Even. cbn [fInBin fPrevious].
      rewrite app_assoc, F2, map_app, app_length, F1, filter_app, app_length. cbn [map fst length filter].
      rewrite E1 in *. rewrite Hv, Z.ltb_irrefl, Nat.add_0_r. repeat (split; auto).
      + intros x Hx. apply in_app_or in Hx. destruct Hx as [Hx|[<-|[]]]; [auto|lia].
      + right. exists i. split; auto. apply in_or_app. simpl. auto. }
  destruct (Z.eqb_spec z (fPrevious st)) as [E|NE].
  - apply (Hstore _ _ _ _ HR); auto; [rewrite E; exact HG|]. intros N. destruct (HC N) as (F1 & F2 & F3 & F4 & F5 & F6 & F7).
    split; auto.
  - assert (Hprev: (done = [] /\ sp = None /\ fInBin st = 0 /\ ts = []) \/ (fPrevious st < z)%Z).
    { destruct HP as [HP|[(i' & HP)|HP]]; [auto|right|right].
      - pose proof (Hz _ _ HP). lia.
      - pose proof (Hs _ HP). lia. }
    destruct (Nat.leb_spec k (fInBin st)) as [Hf|Hf].
    + assert (Hlt: (fPrevious st < z)%Z) by (destruct Hprev as [(_ & _ & H0 & _)|H0]; [lia|exact H0]).
      destruct (closeBin z 0 st) as [st1|] eqn:Ec; [|discriminate].
      destruct (close_rep _ _ _ _ _ _ _ HR Ec) as (R1 & P1 & I1 & _).
      apply (Hstore _ _ _ _ (setPrevious_rep z _ _ _ _ R1)); auto.
      * apply close_good; auto.
      * intros N. destruct (HC N) as (F1 & F2 & F3 & F4 & F5 & F6 & F7). unfold Even'. cbn [setPrevious fInBin fPrevious].
        rewrite I1, concat_app, app_nil_r. cbn [concat length filter]. rewrite app_nil_r.
        split; [reflexivity|]. split; [exact F2|]. split; [apply Forall_app; split; auto; constructor; auto; lia|].
        split; [apply Forall_app; split; auto; constructor; auto; exists (fPrevious st); auto|].
        split; [intros ? []|exact Hk].
      * rewrite app_length. simpl. lia.
    + apply (Hstore _ _ _ _ (setPrevious_rep z _ _ _ _ HR)); auto.
      * apply raise_good with (prev := fPrevious st); auto. destruct Hprev as [(H1 & H2 & _ & H3)|H0]; [auto|left; lia].
      * intros N. destruct (HC N) as (F1 & F2 & F3 & F4 & F5 & F6 & F7). unfold Even'. cbn [setPrevious fInBin fPrevious].
        split; [exact F1|]. split; [exact F2|]. split; [exact F3|]. split; [exact F4|].
        assert (HF: length (filter (fun x => value x <? z)%Z cur) < k).
        { pose proof (filter_length_le (fun x => value x <? z)%Z cur). lia. }
        split; [|exact HF]. destruct Hprev as [(H1 & _)|H0].
        -- subst done. simpl in F2. apply app_eq_nil in F2 as [_ ->]. intros ? [].
        -- intros x Hx. pose proof (F5 _ Hx). lia.
Qed.

Lemma addValue_bin e st st' : addValue e st = Some st' -> fBin st <= fBin st'.
Proof.
  unfold Model.Binning.addValue.
  destruct (if (snd e =? fPrevious st)%Z then Some st else
     let* st0 := if k <=? fInBin st then closeBin (snd e) 0 st else Some st in Some (setPrevious (snd e) st0)) as [st1|] eqn:E1;
    [|discriminate].
  assert (H1: fBin st <= fBin st1).
  { destruct (snd e =? fPrevious st)%Z; [injection E1 as <-; auto|]. destruct (k <=? fInBin st).
    - unfold Model.Binning.closeBin in E1.
      destruct (aset (aThresholds (fArrays st)) (fBin st) (mean (fPrevious st) (snd e))); [|discriminate].
      destruct (aset (aIndptr (fArrays st)) (fBin st + 1) (fNum st)); [|discriminate].
      injection E1 as <-. simpl. lia.
    - injection E1 as <-. simpl. auto. }
  destruct (aset (aIndices (fArrays st1)) (fNum st1) (fst e)); [|discriminate]. intros [= <-]. exact H1.
Qed.

Lemma forL_ok rest : forall done sp sb st cl cur ts st', Ok done sp sb st cl cur ts ->
  (forall i z, In (i, z) rest -> value i = z) ->
  StronglySorted Z.le (map snd (done ++ rest)) -> NoDup (map fst (done ++ rest)) ->
  (forall s i z, sp = Some s -> In (i, z) rest -> (s <= z)%Z) ->
  forL rest addValue st = Some st' ->
  exists cl' cur' ts', Ok (done ++ rest) sp sb st' cl' cur' ts' /\ length cl <= length cl'.
Proof.
  induction rest as [|[i z] rest IH]; intros done sp sb st cl cur ts st' HO Hv HS HN Hs; simpl.
  - intros [= <-]. rewrite app_nil_r. eauto 6.
  - destruct (addValue (i, z) st) as [st1|] eqn:E1; [|discriminate]. intros HF.
    assert (E: done ++ (i, z) :: rest = (done ++ [(i, z)]) ++ rest) by (rewrite <- app_assoc; reflexivity).
    destruct (addValue_ok done sp sb st cl cur ts i z st1 HO) as (cl1 & cur1 & ts1 & HO1 & HL1); [| | |apply Hv; simpl; auto|exact E1|].
    + intros i' z' Hi'. rewrite map_app in HS. apply (SS_cross _ _ HS).
      * apply in_map_iff. exists (i', z'). auto.
      * simpl. auto.
    + intros s Es. apply (Hs s i z Es). simpl. auto.
    + rewrite map_app in HN. apply NoDup_app_iff in HN as (_ & _ & HN). intros H. apply (HN i H). simpl. auto.
    + rewrite E in *. destruct (IH _ _ _ _ _ _ _ st' HO1 (fun i z H => Hv i z (or_intror H)) HS HN) as (cl' & cur' & ts' & HO' & HL'); [|exact HF|].
      * intros s i' z' Es Hi'. apply (Hs s i' z' Es). simpl. auto.
      * exists cl', cur', ts'. split; auto. lia.
Qed.

Lemma addSmaller_ok sparseValue v : forall done st cl cur ts rest st', Ok done None None st cl cur ts ->
  (forall i z, In (i, z) v -> value i = z) ->
  StronglySorted Z.le (map snd (done ++ v)) -> NoDup (map fst (done ++ v)) ->
  (forall i z, In (i, z) done -> (z < sparseValue)%Z) ->
  addSmaller Z.eqb mean k sparseValue v st = Some (rest, st') ->
  exists pre cl' cur' ts', v = pre ++ rest /\ Ok (done ++ pre) None None st' cl' cur' ts' /\
    (forall i z, In (i, z) (done ++ pre) -> (z < sparseValue)%Z) /\
    (forall i z, In (i, z) rest -> (sparseValue <= z)%Z).
Proof.
  induction v as [|[i z] v IH]; intros done st cl cur ts rest st' HO Hv HS HN Hd; cbn [addSmaller].
  - intros [= <- <-]. exists [], cl, cur, ts. rewrite (app_nil_r done). split; [reflexivity|]. split; [exact HO|].
    split; [exact Hd|]. intros ? ? [].
  - assert (E: done ++ (i, z) :: v = (done ++ [(i, z)]) ++ v) by (rewrite <- app_assoc; reflexivity).
    cbn [snd]. destruct (Z.ltb_spec z sparseValue) as [Hz|Hz].
    + destruct (addValue (i, z) st) as [st1|] eqn:E1; [|discriminate]. intros HF.
      destruct (addValue_ok done None None st cl cur ts i z st1 HO) as (cl1 & cur1 & ts1 & HO1 & HL1); [| | |apply Hv; simpl; auto|exact E1|].
      * intros i' z' Hi'. rewrite map_app in HS. apply (SS_cross _ _ HS); [|simpl; auto].
        apply in_map_iff. exists (i', z'). auto.
      * discriminate.
      * rewrite map_app in HN. apply NoDup_app_iff in HN as (_ & _ & HN). intros H. apply (HN i H). simpl. auto.
      * rewrite E in *. destruct (IH _ _ _ _ _ rest st' HO1 (fun i z H => Hv i z (or_intror H)) HS HN) as (pre & cl' & cur' & ts' & Ev & HO' & H1 & H2).
        -- intros i' z' Hi'. apply in_app_or in Hi'. destruct Hi' as [Hi'|[[= <- <-]|[]]]; eauto.
        -- exact HF.
        -- exists ((i, z) :: pre), cl', cur', ts'. rewrite Ev. rewrite <- app_assoc in HO', H1. auto.
    + intros [= <- <-]. exists [], cl, cur, ts. rewrite (app_nil_r done). split; [reflexivity|]. split; [exact HO|].
      split; [exact Hd|]. intros i' z' [[= <- <-]|Hi]; [auto|].
      rewrite map_app in HS. assert (HS': StronglySorted Z.le ([z] ++ map snd v)).
      { clear - HS. induction (map snd done) as [|a l IH]; [exact HS|]. apply IH. inversion HS; auto. }
      pose proof (SS_cross _ _ HS' z z' ltac:(simpl; auto) ltac:(apply in_map_iff; exists (i', z'); auto)). lia.
Qed.

(** After the sparse values have been added. *)
Definition Sparse (s : Z) (done : list (nat * Z)) (st : efState) (cl : list (list nat)) (ts : list Z) : Prop :=
  Ok done (Some s) (Some (length cl)) st cl [] ts /\ fPrevious st = s.

Lemma skipEqual_ok s v : forall done st cl ts rest st', Sparse s done st cl ts ->
  skipEqual Z.eqb v st = (rest, st') ->
  exists pre, v = pre ++ rest /\ Sparse s (done ++ pre) st' cl ts.
Proof.
  induction v as [|[i z] v IH]; intros done st cl ts rest st' [HO HP]; cbn [skipEqual snd].
  - intros [= <- <-]. exists []. rewrite (app_nil_r done). split; auto. split; auto.
  - destruct (Z.eqb_spec z (fPrevious st)) as [E|NE].
    + intros HF. edestruct (IH (done ++ [(i, z)])) with (2 := HF) as (pre & Ev & HO').
      * destruct HO as (HR & HG & _ & _). split; [|exact HP]. split; [exact HR|]. cbn [fPrevious].
        split; [rewrite E; apply skip_good; auto; apply HR|]. split; [right; right; congruence|discriminate].
      * exists ((i, z) :: pre). rewrite <- app_assoc in HO'. rewrite Ev. auto.
    + intros [= <- <-]. exists []. rewrite (app_nil_r done). split; auto. split; auto.
Qed.

Lemma addSparse_ok s numSparse v done st cl cur ts rest st' : Ok done None None st cl cur ts ->
  (forall i z, In (i, z) done -> (z < s)%Z) -> addSparse Z.eqb mean k s numSparse v st = Some (rest, st') ->
  exists pre cl' ts', v = pre ++ rest /\ Sparse s (done ++ pre) st' cl' ts'.
Proof.
  intros (HR & HG & HP & HC) Hd. unfold addSparse.
  assert (Hs: forall st1 cl1 ts1, Sparse s done (setPrevious s st1) cl1 ts1 ->
            Some (skipEqual Z.eqb v (setPrevious s st1)) = Some (rest, st') ->
            exists pre cl' ts', v = pre ++ rest /\ Sparse s (done ++ pre) st' cl' ts').
  { intros st1 cl1 ts1 H1 [= E]. destruct (skipEqual_ok _ _ _ _ _ _ _ _ H1 E) as (pre & Ev & H). eauto 6. }
  assert (HL: length ts = length cl) by apply HR.
  destruct (Nat.leb_spec k (fInBin st)) as [Hf|Hf].
  - destruct (closeBin s numSparse st) as [st1|] eqn:Ec; [|discriminate].
    destruct (close_rep _ _ _ _ _ _ _ HR Ec) as (R1 & P1 & I1 & _).
    assert (Hlt: (fPrevious st < s)%Z).
    { destruct HP as [(_ & _ & H0 & _)|[(i & H0)|H0]]; [lia|eauto|discriminate]. }
    apply (Hs _ (cl ++ [cur]) (ts ++ [mean (fPrevious st) s])). split; [|reflexivity]. split; [exact R1|].
    cbn [fPrevious setPrevious]. split; [|split; [auto|discriminate]].
    destruct (close_good _ _ _ _ _ _ _ _ HG HL Hlt) as (G1 & G2 & G3 & G4 & G5 & G6 & G7).
    split; [|split; [|split; [|split; [|split; [|split]]]]]; auto.
    + intros i z Hi. destruct (G2 _ _ Hi) as (p & Hp & Hr & [H|H]); [eauto 6|discriminate].
    + intros s' [= <-]. split; [lia|]. eexists. split; [reflexivity|]. split; [lia|].
      replace (length (cl ++ [cur])) with (length (ts ++ [mean (fPrevious st) s])) by (rewrite !app_length; simpl; lia).
      apply in_range_last; auto.
  - apply (Hs _ cl ts). split; [|reflexivity]. destruct HR as (R1 & R2 & R3 & R4 & R5 & R6).
    rewrite (proj1 (HC eq_refl)). split; [|cbn [fPrevious setPrevious]; split; [|split; [auto|discriminate]]].
    + unfold Rep. cbn [setPrevious fBin fArrays fNum]. rewrite app_nil_r.
      assert (EN: fNum st - length cur = length (concat cl)) by (rewrite R4, app_length; lia). rewrite EN.
      split; [auto|]. split; [auto|]. split; [auto|]. split; [auto|]. split; [|auto].
      replace (length (concat cl)) with (Nat.min (length (concat cl)) (fNum st)) by lia.
      rewrite <- firstn_firstn, R5, firstn_app, Nat.sub_diag, firstn_all. simpl. apply app_nil_r.
    + assert (Hprev: (fPrevious st <= s)%Z \/ (done = [] /\ ts = [])).
      { destruct HP as [(H1 & _ & _ & H2)|[(i & H0)|H0]]; [auto|left; apply Hd in H0; lia|discriminate]. }
      destruct HG as (G1 & G2 & G3 & G4 & G5 & G6 & G7).
      assert (Ht: forall t, In t ts -> (t < s)%Z).
      { intros t Hi. destruct Hprev as [Hz|[_ ->]]; [pose proof (G4 _ Hi); lia|destruct Hi]. }
      assert (HRl: in_range ts (length cl) s) by (rewrite <- HL; apply in_range_last; auto).
      split; [|split; [|split; [|split; [|split; [|split]]]]]; auto.
      * intros q i H. apply (stored_drop _ cur) in H as [H _]. auto.
      * intros i z Hi. destruct (G2 _ _ Hi) as (p & Hp & Hr & [H|H]); [|discriminate].
        exists p. split; [exact Hp|]. split; [exact Hr|]. destruct (Nat.eq_dec p (length cl)) as [->|N]; [auto|left].
        destruct H as (ids & E & H). exists ids. split; auto. rewrite nth_error_app1 in * by lia. exact E.
      * intros i z Hi. pose proof (Hd _ _ Hi). lia.
      * rewrite app_nil_r. apply NoDup_app_iff in G6. tauto.
      * intros s' [= <-]. split; [lia|]. eauto 6.
Qed.

(** *** The result *)

Lemma resize_rep st cl cur ts sb missing vec : Rep st cl cur ts -> sb <= length cl ->
  resizeBins (fArrays st) sb (fBin st + 1) (fNum st) missing = Some vec -> vec = BinnedVec ts (cl ++ [cur]) sb missing.
Proof.
  intros (R1 & R2 & R3 & R4 & R5 & R6) Hsb. unfold resizeBins.
  destruct (aset (firstn (fBin st + 1 + 1) (aIndptr (fArrays st))) (fBin st + 1) (fNum st)) as [p|] eqn:Ep; [|discriminate].
  apply aset_inv in Ep as [Hp ->]. intros [= <-]. f_equal.
  - rewrite Nat.add_sub. exact R3.
  - assert (E: fBin st + 1 = length (cl ++ [cur])) by (rewrite app_length; simpl; lia). rewrite E at 3.
    apply binsFrom_spec.
    + rewrite R5, concat_app. simpl. rewrite app_nil_r. reflexivity.
    + intros j Hj. destruct (Nat.eq_dec j (length (cl ++ [cur]))) as [->|N].
      * rewrite <- E, nth_error_upd_eq by exact Hp. rewrite E, firstn_all, R4, concat_app. simpl. rewrite app_nil_r. reflexivity.
      * rewrite app_length in *. cbn [length] in *. rewrite nth_error_upd_neq by lia.
        rewrite nth_firstn by lia. rewrite R6 by lia. rewrite firstn_app. replace (j - length cl) with 0 by lia.
        simpl. rewrite app_nil_r. reflexivity.
  - destruct (Nat.leb_spec (fBin st + 1) sb); lia.
Qed.

Lemma good_vector examples v sparseValue sparse done sp sb0 sb cl cur ts prev :
  numerical_vector examples value v sparseValue sparse ->
  (forall x, In x v <-> In x done) -> Good done sp sb0 cl cur ts prev -> length ts = length cl ->
  (forall p, sb0 = Some p -> p = sb) -> sb <= length cl -> (sparse = true -> sp = Some sparseValue) ->
  binned_vector examples value ts (cl ++ [cur]) sb.
Proof.
  intros (N1 & N2 & N3 & N4 & N5 & N6) Hv (G1 & G2 & G3 & G4 & G5 & G6 & G7) HL Hsb Hle Hsp.
  assert (Hst: forall q i, stored (cl ++ [cur]) q i -> In i examples /\ in_range ts q (value i) /\ In i (map fst v)).
  { intros q i H. destruct (G1 _ _ H) as (z & Hi & R). apply Hv in Hi. rewrite (N5 _ _ Hi).
    assert (In i (map fst v)) by (apply in_map_iff; exists (i, z); auto). auto. }
  split; [split; [exact N1|split]|split; [exact G3|split; [rewrite app_length; simpl; lia|split; [rewrite app_length; simpl; lia|]]]].
  - rewrite concat_app. simpl. rewrite app_nil_r. exact G6.
  - intros i Hi. apply in_concat in Hi. destruct Hi as (ids & H1 & H2). apply In_nth_error in H1. destruct H1 as (q & E).
    apply (Hst q i). exists ids. auto.
  - intros i Hi.
    assert (HH: exists p, p <= length cl /\ in_range ts p (value i) /\ (stored (cl ++ [cur]) p i \/ p = sb)).
    { destruct (in_dec Nat.eq_dec i (map fst v)) as [Hin|Hout].
      - apply in_map_iff in Hin. destruct Hin as ([i' z] & <- & Hin). cbn [fst] in *.
        destruct (G2 i' z) as (p & Hp & R & HS); [apply Hv; exact Hin|]. rewrite (N5 _ _ Hin).
        exists p. split; auto. split; auto. destruct HS as [HS|HS]; auto.
      - destruct (N6 i Hi Hout) as [Es ->]. destruct (G7 _ (Hsp Es)) as (_ & p & Ep & Hp & R). eauto 6. }
    destruct HH as (p & Hp & R & HS). exists p. split; [rewrite app_length; simpl; lia|].
    split; [apply R|]. split; [apply R|]. split.
    + intros N. destruct HS as [(ids & E & H)|HS]; [|contradiction]. exists p, ids. split; [lia|]. auto.
    + intros _ q ids E H. destruct (Hst q i) as (_ & R' & _); [exists ids; auto|].
      apply (in_range_unique ts q p (value i)); auto; [|lia]. apply nth_len in E. rewrite app_length in E. simpl in E. lia.
Qed.

End EqualFrequency.

(** ** Sizes and progress *)

Definition dims (st : efState) : nat * nat * nat :=
  (length (aThresholds (fArrays st)), length (aIndices (fArrays st)), length (aIndptr (fArrays st))).

Section Progress.
Variables (isEqual : Z -> Z -> bool) (mean : Z -> Z -> Z) (k : nat).
Hypothesis Hk : 0 < k.

Lemma close_dims z n st st' : closeBin mean z n st = Some st' -> dims st' = dims st.
Proof.
  unfold closeBin. destruct (aset (aThresholds (fArrays st)) (fBin st) (mean (fPrevious st) z)) as [t|] eqn:Et; [|discriminate].
  destruct (aset (aIndptr (fArrays st)) (fBin st + 1) (fNum st)) as [p|] eqn:Ep; [|discriminate]. intros [= <-].
  apply aset_inv in Et as [_ ->]. apply aset_inv in Ep as [_ ->]. unfold dims.
  cbn [fArrays aThresholds aIndices aIndptr]. rewrite !upd_length. reflexivity.
Qed.

Lemma add_dims e st st' : addValue isEqual mean k e st = Some st' -> dims st' = dims st.
Proof.
  unfold addValue.
  destruct (if isEqual (snd e) (fPrevious st) then Some st else
     let* st0 := if k <=? fInBin st then closeBin mean (snd e) 0 st else Some st in Some (setPrevious (snd e) st0)) as [st1|] eqn:E1;
    [|discriminate].
  assert (H1: dims st1 = dims st).
  { destruct (isEqual (snd e) (fPrevious st)); [injection E1 as <-; auto|]. destruct (k <=? fInBin st).
    - destruct (closeBin mean (snd e) 0 st) as [st2|] eqn:E2; [|discriminate]. injection E1 as <-.
      apply (close_dims _ _ _ _ E2).
    - injection E1 as <-. reflexivity. }
  destruct (aset (aIndices (fArrays st1)) (fNum st1) (fst e)) as [ids|] eqn:E2; [|discriminate]. intros [= <-].
  apply aset_inv in E2 as [_ ->]. rewrite <- H1. unfold dims. cbn [fArrays aThresholds aIndices aIndptr].
  rewrite upd_length. reflexivity.
Qed.

Lemma addAll_dims v : forall st st', forL v (addValue isEqual mean k) st = Some st' -> dims st' = dims st.
Proof.
  induction v as [|e v IH]; intros st st'; simpl; [intros [= <-]; auto|].
  destruct (addValue isEqual mean k e st) as [st1|] eqn:E; [|discriminate]. intros H.
  rewrite (IH _ _ H). eapply add_dims; eauto.
Qed.

Lemma addSmaller_dims s v : forall st rest st', addSmaller isEqual mean k s v st = Some (rest, st') -> dims st' = dims st.
Proof.
  induction v as [|e v IH]; intros st rest st'; cbn [addSmaller]; [intros [= _ <-]; auto|].
  destruct (snd e <? s)%Z; [|intros [= _ <-]; auto].
  destruct (addValue isEqual mean k e st) as [st1|] eqn:E; [|discriminate]. intros H.
  rewrite (IH _ _ _ H). eapply add_dims; eauto.
Qed.

Lemma skipEqual_dims v : forall st rest st', skipEqual isEqual v st = (rest, st') -> dims st' = dims st.
Proof.
  induction v as [|e v IH]; intros st rest st'; cbn [skipEqual]; [intros [= _ <-]; auto|].
  destruct (isEqual (snd e) (fPrevious st)); [|intros [= _ <-]; auto]. intros H. rewrite (IH _ _ _ H). reflexivity.
Qed.

Lemma addSparse_dims s n v st rest st' : addSparse isEqual mean k s n v st = Some (rest, st') -> dims st' = dims st.
Proof.
  unfold addSparse. destruct (k <=? fInBin st).
  - destruct (closeBin mean s n st) as [st1|] eqn:E; [|discriminate]. intros [= H].
    rewrite (skipEqual_dims _ _ _ _ H). apply (close_dims _ _ _ _ E).
  - intros [= H]. rewrite (skipEqual_dims _ _ _ _ H). reflexivity.
Qed.

Lemma add_bound e st st' : addValue isEqual mean k e st = Some st' -> fBin st <= length (aThresholds (fArrays st)) ->
  fBin st' <= length (aThresholds (fArrays st')).
Proof.
  intros E HB. pose proof (add_dims _ _ _ E) as HD. unfold dims in HD. injection HD. intros _ _ HT. rewrite HT.
  unfold addValue, closeBin in E. destruct (isEqual (snd e) (fPrevious st)).
  - destruct (aset (aIndices (fArrays st)) (fNum st) (fst e)); [|discriminate]. injection E as <-. exact HB.
  - destruct (k <=? fInBin st).
    + destruct (aset (aThresholds (fArrays st)) (fBin st) (mean (fPrevious st) (snd e))) as [t|] eqn:Et; [|discriminate].
      destruct (aset (aIndptr (fArrays st)) (fBin st + 1) (fNum st)) as [p|]; [|discriminate].
      apply aset_inv in Et as [Ht _]. cbn [setPrevious fArrays fNum aIndices] in E.
      destruct (aset (aIndices (fArrays st)) (fNum st) (fst e)); [|discriminate]. injection E as <-. simpl. lia.
    + cbn [setPrevious fArrays fNum aIndices] in E.
      destruct (aset (aIndices (fArrays st)) (fNum st) (fst e)); [|discriminate]. injection E as <-. exact HB.
Qed.

Lemma addAll_bound v : forall st st', forL v (addValue isEqual mean k) st = Some st' ->
  fBin st <= length (aThresholds (fArrays st)) -> fBin st' <= length (aThresholds (fArrays st')).
Proof.
  induction v as [|e v IH]; intros st st'; simpl; [intros [= <-]; auto|].
  destruct (addValue isEqual mean k e st) as [st1|] eqn:E; [|discriminate]. intros H HB. eauto using add_bound.
Qed.

Lemma addSmaller_bound s v : forall st rest st', addSmaller isEqual mean k s v st = Some (rest, st') ->
  fBin st <= length (aThresholds (fArrays st)) -> fBin st' <= length (aThresholds (fArrays st')).
Proof.
  induction v as [|e v IH]; intros st rest st'; cbn [addSmaller]; [intros [= _ <-]; auto|].
  destruct (snd e <? s)%Z; [|intros [= _ <-]; auto].
  destruct (addValue isEqual mean k e st) as [st1|] eqn:E; [|discriminate]. intros H HB. eauto using add_bound.
Qed.

Lemma close_some z n st numBins m : dims st = (numBins - 1, m, numBins + 1) -> fBin st < numBins - 1 ->
  exists st', closeBin mean z n st = Some st' /\ dims st' = dims st /\ fBin st' = fBin st + 1 /\ fInBin st' = n /\
    fNum st' = fNum st /\ fPrevious st' = fPrevious st.
Proof.
  unfold dims. intros [= H1 H2 H3] H. unfold closeBin. rewrite !aset_Some by lia. eexists. split; [reflexivity|].
  cbn [fArrays aThresholds aIndices aIndptr fBin fInBin fNum fPrevious]. rewrite !upd_length. auto.
Qed.

Lemma add_some e st numBins m : dims st = (numBins - 1, m, numBins + 1) -> fNum st < m ->
  (k <= fInBin st -> fBin st < numBins - 1) ->
  exists st', addValue isEqual mean k e st = Some st' /\ dims st' = dims st /\ fNum st' = fNum st + 1 /\
    ((fBin st' = fBin st /\ fInBin st' = fInBin st + 1) \/
     (fBin st' = fBin st + 1 /\ fInBin st' = 1 /\ k <= fInBin st)).
Proof.
  intros HD Hn Hc. unfold addValue.
  assert (Hstore: forall st1, dims st1 = dims st -> fNum st1 = fNum st ->
    exists st', (let* ids := aset (aIndices (fArrays st1)) (fNum st1) (fst e) in
      Some (mkEf (mkArrays (aThresholds (fArrays st1)) ids (aIndptr (fArrays st1))) (fPrevious st1) (fInBin st1 + 1)
              (fBin st1) (fNum st1 + 1))) = Some st' /\ dims st' = dims st /\ fNum st' = fNum st + 1 /\
      fBin st' = fBin st1 /\ fInBin st' = fInBin st1 + 1).
  { intros st1 H1 H2. assert (Hi: fNum st1 < length (aIndices (fArrays st1))).
    { rewrite H2. rewrite HD in H1. unfold dims in H1. injection H1. intros. lia. }
    rewrite aset_Some by exact Hi. eexists. split; [reflexivity|]. rewrite <- H1. unfold dims.
    cbn [fArrays aThresholds aIndices aIndptr fBin fInBin fNum]. rewrite upd_length. auto. }
  destruct (isEqual (snd e) (fPrevious st)).
  - destruct (Hstore st) as (st' & -> & D & N & B & I); auto. exists st'. split; [reflexivity|]. auto.
  - destruct (Nat.leb_spec k (fInBin st)) as [Hf|Hf].
    + destruct (close_some (snd e) 0 st numBins m HD (Hc Hf)) as (st1 & -> & D1 & B1 & I1 & N1 & _).
      destruct (Hstore (setPrevious (snd e) st1)) as (st' & E & D & N & B & I); auto. rewrite E. exists st'.
      split; [reflexivity|]. split; [exact D|]. split; [exact N|]. right. cbn [setPrevious fBin fInBin] in *. lia.
    + destruct (Hstore (setPrevious (snd e) st)) as (st' & E & D & N & B & I); auto. rewrite E. exists st'.
      split; [reflexivity|]. split; [exact D|]. split; [exact N|]. left. cbn [setPrevious fBin fInBin] in *. lia.
Qed.

Variables (numBins total : nat).

(** Before the sparse values are handled, and if there are none. *)
Lemma all_some v : forall st n, dims st = (numBins - 1, total, numBins + 1) -> n + length v <= total -> fNum st <= n ->
  fBin st * k + fInBin st <= n -> total <= numBins * k ->
  exists st', forL v (addValue isEqual mean k) st = Some st' /\ fBin st' * k + fInBin st' <= n + length v /\ dims st' = dims st.
Proof.
  induction v as [|e v IH]; intros st n HD Hn HN HB Ht; cbn [forL length] in *; [exists st; rewrite Nat.add_0_r; auto|].
  destruct (add_some e st numBins total HD) as (st1 & -> & D1 & N1 & H1); [lia|intros Hf; nia|].
  destruct (IH st1 (S n)) as (st' & -> & HB' & D'); [congruence|lia|lia|destruct H1 as [[-> ->]|(-> & -> & Hf)]; nia|lia|].
  exists st'. split; [reflexivity|]. split; [lia|congruence].
Qed.

Lemma smaller_some s v : forall st n, dims st = (numBins - 1, total, numBins + 1) -> n + length v <= total -> fNum st <= n ->
  fBin st * k + fInBin st <= n -> total <= numBins * k ->
  exists rest st' n', addSmaller isEqual mean k s v st = Some (rest, st') /\ dims st' = dims st /\
    n' + length rest <= n + length v /\ fNum st' <= n' /\ fBin st' * k + fInBin st' <= n'.
Proof.
  induction v as [|e v IH]; intros st n HD Hn HN HB Ht; cbn [addSmaller length] in *.
  - exists [], st, n. simpl. split; [reflexivity|]. split; [reflexivity|]. lia.
  - destruct (snd e <? s)%Z.
    + destruct (add_some e st numBins total HD) as (st1 & -> & D1 & N1 & H1); [lia|intros Hf; nia|].
      destruct (IH st1 (S n)) as (rest & st' & n' & -> & D' & L' & N' & B');
        [congruence|lia|lia|destruct H1 as [[-> ->]|(-> & -> & Hf)]; nia|lia|].
      exists rest, st', n'. split; [reflexivity|]. split; [congruence|]. lia.
    + exists (e :: v), st, n. split; [reflexivity|]. split; [reflexivity|]. cbn [length]. lia.
Qed.

(** After the sparse values have been handled, provided that a bin is left. *)
Lemma rest_some v : forall st n, dims st = (numBins - 1, total, numBins + 1) -> n + length v <= total -> fNum st <= n ->
  (fBin st * k <= n \/ (1 <= fBin st /\ (fBin st - 1) * k + fInBin st <= n)) -> total <= (numBins - 1) * k ->
  exists st', forL v (addValue isEqual mean k) st = Some st' /\ dims st' = dims st.
Proof.
  induction v as [|e v IH]; intros st n HD Hn HN HB Ht; cbn [forL length] in *; [eauto|].
  destruct (add_some e st numBins total HD) as (st1 & -> & D1 & N1 & H1); [lia| |].
  { intros Hf. destruct HB as [HB|[HB1 HB2]]; [nia|]. assert ((fBin st - 1) * k + k = fBin st * k) by nia. nia. }
  destruct (IH st1 (S n)) as (st' & -> & D'); [congruence|lia|lia| |lia|exists st'; split; [reflexivity|congruence]].
  destruct H1 as [[-> ->]|(-> & -> & Hf)]; [destruct HB as [HB|[HB1 HB2]]; [left; lia|right; lia]|].
  right. split; [lia|]. rewrite Nat.add_sub. destruct HB as [HB|[HB1 HB2]]; [lia|].
  assert ((fBin st - 1) * k + k = fBin st * k) by nia. lia.
Qed.

Lemma skip_some v : forall st n rest st', skipEqual isEqual v st = (rest, st') -> n + length v <= total -> fNum st <= n ->
  fBin st * k <= n ->
  exists n', n' + length rest <= total /\ fNum st' <= n' /\ fBin st' * k <= n'.
Proof.
  induction v as [|e v IH]; intros st n rest st'; cbn [skipEqual length].
  - intros [= <- <-] ? ? ?. exists n. auto.
  - destruct (isEqual (snd e) (fPrevious st)).
    + intros H ? ? ?. apply (IH _ (S n) _ _ H); cbn [fNum fBin]; lia.
    + intros [= <- <-] ? ? ?. exists n. auto.
Qed.

Lemma sparse_some s m v st n : dims st = (numBins - 1, total, numBins + 1) -> n + length v <= total -> fNum st <= n ->
  fBin st * k + fInBin st <= n -> total <= (numBins - 1) * k ->
  exists rest st' n', addSparse isEqual mean k s m v st = Some (rest, st') /\ dims st' = dims st /\
    n' + length rest <= total /\ fNum st' <= n' /\ fBin st' * k <= n'.
Proof.
  intros HD Hn HN HB Ht. unfold addSparse. destruct (Nat.leb_spec k (fInBin st)) as [Hf|Hf].
  - destruct (close_some s m st numBins total HD) as (st1 & -> & D1 & B1 & I1 & N1 & _); [nia|].
    destruct (skipEqual isEqual v (setPrevious s st1)) as [rest st'] eqn:E.
    destruct (skip_some _ _ n _ _ E) as (n' & H1 & H2 & H3); [lia|cbn [setPrevious fNum]; lia|cbn [setPrevious fBin]; nia|].
    exists rest, st', n'. split; [reflexivity|]. split; [rewrite (skipEqual_dims _ _ _ _ E); exact D1|]. auto.
  - destruct (skipEqual isEqual v (setPrevious s (mkEf (fArrays st) (fPrevious st) (fInBin st + m) (fBin st) (fNum st - fInBin st))))
      as [rest st'] eqn:E.
    destruct (skip_some _ _ n _ _ E) as (n' & H1 & H2 & H3); [lia|cbn [setPrevious fNum]; lia|cbn [setPrevious fBin]; lia|].
    exists rest, st', n'. split; [reflexivity|]. split; [rewrite (skipEqual_dims _ _ _ _ E); reflexivity|]. auto.
Qed.

End Progress.

(** ** Results *)

Lemma perBin_pos n m : 0 < n -> 0 < m -> 0 < perBin n m.
Proof. intros. unfold perBin. apply Nat.div_str_pos. lia. Qed.

Lemma perBin_enough n m : 0 < m -> n <= m * perBin n m.
Proof.
  intros Hm. unfold perBin. pose proof (Nat.div_mod (n + m - 1) m ltac:(lia)).
  pose proof (Nat.mod_upper_bound (n + m - 1) m ltac:(lia)). lia.
Qed.

Lemma allocate_dims junk numBins n a : allocateBins junk numBins n = Some a ->
  length (aThresholds a) <= numBins - 1 /\ length (aIndices a) <= n /\ nth_error (aIndptr a) 0 = Some 0 \/ numBins = 0.
Proof.
  unfold allocateBins. destruct (aset (firstn (numBins + 1) (aIndptr junk)) 0 0) as [p|] eqn:E1; [|discriminate].
  destruct (aset p numBins n) as [p2|] eqn:E2; [|discriminate]. intros [= <-]. cbn [aThresholds aIndices aIndptr].
  apply aset_inv in E1 as [H1 ->]. apply aset_inv in E2 as [H2 ->]. destruct numBins as [|m]; [auto|left].
  rewrite !firstn_length. split; [lia|]. split; [lia|]. rewrite nth_error_upd_neq, nth_error_upd_eq by lia. reflexivity.
Qed.

Lemma allocate_some junk numBins n : allocated junk numBins n -> 0 < numBins ->
  exists a, allocateBins junk numBins n = Some a /\
    dims (mkEf a 0 0 0 0) = (numBins - 1, n, numBins + 1).
Proof.
  intros (H1 & H2 & H3) Hn. unfold allocateBins.
  rewrite aset_Some by (rewrite firstn_length; lia). rewrite aset_Some by (rewrite upd_length, firstn_length; lia).
  eexists. split; [reflexivity|]. unfold dims. cbn [fArrays aThresholds aIndices aIndptr].
  rewrite !upd_length, !firstn_length, !Nat.min_l by lia. reflexivity.
Qed.

Section Results.
Variables (mean : Z -> Z -> Z) (examples : list nat) (value : nat -> Z) (v : list (nat * Z)) (sparseValue : Z) (sparse : bool).
Hypothesis Hmean : separates mean.
Hypothesis HV : numerical_vector examples value v sparseValue sparse.
Variables (junk : arrays) (numBins numExamples : nat) (missing : list nat).
Hypothesis Hv : v <> [].
Hypothesis Hb : 1 < numBins.
Local Notation k := (perBin (length v) numBins).

Lemma length_pos : 0 < length v.
Proof. destruct v; [contradiction|simpl; lia]. Qed.

Lemma frequency_run vec :
  equalFrequency Z.eqb mean k junk numBins numExamples v sparseValue sparse missing = Some vec ->
  exists sp sb0 sb st cl cur ts, Ok k value v sp sb0 st cl cur ts /\ sb <= length cl /\
    (forall p, sb0 = Some p -> p = sb) /\ sp = (if sparse then Some sparseValue else None) /\ length cl <= numBins - 1 /\
    ((cl = [] /\ vec = EqualVec) \/ (cl <> [] /\ vec = BinnedVec ts (cl ++ [cur]) sb missing)).
Proof.
  assert (Hk: 0 < k) by (apply perBin_pos; [apply length_pos|lia]).
  unfold equalFrequency. destruct (Nat.ltb_spec 1 numBins) as [_|]; [|lia].
  destruct (allocateBins junk numBins (length v)) as [a|] eqn:Ea; [|discriminate].
  apply allocate_dims in Ea as [(D1 & D2 & D3)|]; [|lia].
  destruct (addSmaller Z.eqb mean k sparseValue v (mkEf a sparseValue 0 0 0)) as [[rest st1]|] eqn:E1; [|discriminate].
  destruct (if sparse then addSparse Z.eqb mean k sparseValue (numExamples - length v) rest st1 else Some (rest, st1))
    as [[rest2 st2]|] eqn:E2; [|discriminate].
  destruct (forL rest2 (addValue Z.eqb mean k) st2) as [st3|] eqn:E3; [|discriminate]. intros HF.
  pose proof HV as (N1 & N2 & N3 & N4 & N5 & N6).
  assert (HD: dims st3 = dims (mkEf a sparseValue 0 0 0)).
  { rewrite (addAll_dims _ _ _ _ _ _ E3). destruct sparse.
    - rewrite (addSparse_dims _ _ _ _ _ _ _ _ _ E2). apply (addSmaller_dims _ _ _ _ _ _ _ _ E1).
    - injection E2 as <- <-. apply (addSmaller_dims _ _ _ _ _ _ _ _ E1). }
  destruct (addSmaller_ok mean Hmean k Hk value sparseValue v [] (mkEf a sparseValue 0 0 0) [] [] [] rest st1)
    as (pre1 & cl1 & cur1 & ts1 & Ev & HO1 & Hlt & Hge); [| | | | |exact E1|].
  { split; [|split; [|split]].
    - unfold Rep. cbn [fBin fArrays fNum]. split; [reflexivity|]. split; [reflexivity|]. split; [reflexivity|].
      split; [reflexivity|]. split; [reflexivity|]. intros j Hj. simpl in Hj. assert (j = 0) by lia. subst j. exact D3.
    - split; [|split; [|split; [|split; [|split; [|split]]]]]; try (intros; contradiction); try constructor.
      + intros q i (ids & E & H). destruct q as [|q]; simpl in E; [injection E as <-; destruct H|destruct q; discriminate].
      + discriminate.
      + discriminate.
    - left. auto.
    - intros _. unfold Even. simpl. repeat (split; auto). intros ? []. }
  { exact N5. } { exact N4. } { exact N2. } { intros ? ? []. }
  cbn [app] in *.
  assert (Hfin: forall sp sb0 cl3 cur3 ts3, Ok k value v sp sb0 st3 cl3 cur3 ts3 -> fBin st2 <= length cl3 ->
            (forall p, sb0 = Some p -> p = fBin st2) -> sp = (if sparse then Some sparseValue else None) ->
            exists sp sb0 sb st cl cur ts, Ok k value v sp sb0 st cl cur ts /\ sb <= length cl /\
    (forall p, sb0 = Some p -> p = sb) /\ sp = (if sparse then Some sparseValue else None) /\ length cl <= numBins - 1 /\
    ((cl = [] /\ vec = EqualVec) \/ (cl <> [] /\ vec = BinnedVec ts (cl ++ [cur]) sb missing))).
  { intros sp sb0 cl3 cur3 ts3 HO Hle Hsb Hsp. exists sp, sb0, (fBin st2), st3, cl3, cur3, ts3.
    split; [exact HO|]. split; [exact Hle|]. split; [exact Hsb|]. split; [exact Hsp|].
    pose proof HO as ((R1 & R2 & R3 & _) & _). split.
    - unfold dims in HD. injection HD. cbn [fArrays]. intros _ _ HT.
      assert (length ts3 <= length (aThresholds (fArrays st3))) by (rewrite <- R3, firstn_length; lia). lia.
    - destruct (Nat.ltb_spec 0 (fBin st3)) as [Hp|Hp].
      + right. split; [intros ->; simpl in R1; lia|]. eapply (resize_rep k Hk); [apply HO|exact Hle|exact HF].
      + left. split; [destruct cl3; auto; simpl in R1; lia|]. injection HF as <-. reflexivity. }
  destruct sparse.
  - destruct (addSparse_ok mean Hmean k Hk value sparseValue _ rest pre1 st1 cl1 cur1 ts1 rest2 st2 HO1 Hlt E2)
      as (pre2 & cl2 & ts2 & Er & HS2 & HP2).
    assert (Ev': v = (pre1 ++ pre2) ++ rest2) by (rewrite <- app_assoc, <- Er; exact Ev).
    destruct (forL_ok mean Hmean k Hk value rest2 (pre1 ++ pre2) (Some sparseValue) (Some (length cl2)) st2 cl2 [] ts2 st3)
      as (cl3 & cur3 & ts3 & HO3 & HL3); [exact HS2| | | | |exact E3|].
    + intros i z Hi. apply N5. rewrite Ev'. apply in_or_app. auto.
    + rewrite <- Ev'. exact N4.
    + rewrite <- Ev'. exact N2.
    + intros s i z [= <-] Hi. apply (Hge i). rewrite Er. apply in_or_app. auto.
    + rewrite <- Ev' in HO3. assert (EB: fBin st2 = length cl2) by apply HS2.
      apply (Hfin _ _ _ _ _ HO3); [lia| |reflexivity]. intros p [= <-]. auto.
  - injection E2 as <- <-.
    destruct (forL_ok mean Hmean k Hk value rest pre1 None None st1 cl1 cur1 ts1 st3)
      as (cl3 & cur3 & ts3 & HO3 & HL3); [exact HO1| | | | |exact E3|].
    + intros i z Hi. apply N5. rewrite Ev. apply in_or_app. auto.
    + rewrite <- Ev. exact N4.
    + rewrite <- Ev. exact N2.
    + discriminate.
    + rewrite <- Ev in HO3. assert (EB: fBin st1 = length cl1) by apply HO1.
      apply (Hfin _ _ _ _ _ HO3); [lia|discriminate|reflexivity].
Qed.

(** A valid vector is created. *)
Lemma frequency_vector vec :
  equalFrequency Z.eqb mean k junk numBins numExamples v sparseValue sparse missing = Some vec ->
  vec = EqualVec \/ exists thresholds bins sparseBin, vec = BinnedVec thresholds bins sparseBin missing /\
    2 <= length bins <= numBins /\ binned_vector examples value thresholds bins sparseBin.
Proof.
  intros H. destruct (frequency_run _ H) as (sp & sb0 & sb & st & cl & cur & ts & HO & Hle & Hsb & Hsp & HL & [[Hc ->]|[Hc ->]]).
  - left. reflexivity.
  - right. exists ts, (cl ++ [cur]), sb. split; [reflexivity|]. split.
    + rewrite app_length. destruct cl; [contradiction|]. simpl in *. lia.
    + destruct HO as (HR & HG & _). assert (Hk: 0 < k) by (apply perBin_pos; [apply length_pos|lia]). eapply (good_vector k Hk); [exact HV| |exact HG|apply HR|exact Hsb|exact Hle|].
      * intros x. tauto.
      * intros E. rewrite Hsp, E. reflexivity.
Qed.

(** The bins of dense vectors are filled evenly. *)
Lemma frequency_even vec : sparse = false ->
  equalFrequency Z.eqb mean k junk numBins numExamples v sparseValue sparse missing = Some vec ->
  (vec = EqualVec /\ not_overfull value k (map fst v)) \/
  exists thresholds bins sparseBin, vec = BinnedVec thresholds bins sparseBin missing /\
    Forall (not_overfull value k) bins /\ Forall (fun ids => k <= length ids) (removelast bins) /\
    concat bins = map fst v.
Proof.
  intros Es H. destruct (frequency_run _ H) as (sp & sb0 & sb & st & cl & cur & ts & HO & Hle & Hsb & Hsp & HL & HC).
  rewrite Es in Hsp. destruct HO as (_ & _ & _ & HE). destruct (HE Hsp) as (F1 & F2 & F3 & F4 & F5 & F6 & F7).
  assert (HO: not_overfull value k cur) by (exists (fPrevious st); auto).
  destruct HC as [[-> ->]|[_ ->]].
  - left. split; [reflexivity|]. simpl in F2. rewrite <- F2. exact HO.
  - right. exists ts, (cl ++ [cur]), sb. split; [reflexivity|]. rewrite removelast_last.
    split; [apply Forall_app; auto|]. split; [exact F3|]. rewrite concat_app. simpl. rewrite app_nil_r. exact F2.
Qed.

(** No element outside of an array is accessed. *)
Lemma frequency_safe : allocated junk numBins (length v) -> sparse = false \/ length v <= (numBins - 1) * k ->
  exists vec, equalFrequency Z.eqb mean k junk numBins numExamples v sparseValue sparse missing = Some vec.
Proof.
  intros HA HS. assert (Hk: 0 < k) by (apply perBin_pos; [apply length_pos|lia]).
  unfold equalFrequency. destruct (Nat.ltb_spec 1 numBins) as [_|]; [|lia].
  destruct (allocate_some _ _ _ HA) as (a & -> & HD0); [lia|].
  assert (HD: dims (mkEf a sparseValue 0 0 0) = (numBins - 1, length v, numBins + 1)) by exact HD0.
  pose proof (perBin_enough (length v) numBins ltac:(lia)) as Hen.
  destruct (smaller_some Z.eqb mean k Hk numBins (length v) sparseValue v _ 0 HD) as (rest & st1 & n1 & E1 & D1 & L1 & N1 & B1);
    [lia|simpl; lia|simpl; lia|lia|].
  epose proof (addSmaller_bound Z.eqb mean k Hk _ _ _ _ _ E1 ltac:(simpl; lia)) as T1. rewrite E1.
  assert (Hres: forall st sb, dims st = dims st1 -> fBin st <= numBins - 1 ->
            exists vec, (if 0 <? fBin st then resizeBins (fArrays st) sb (fBin st + 1) (fNum st) missing else Some EqualVec)
                          = Some vec).
  { intros st sb D B. destruct (0 <? fBin st); [|eauto]. unfold resizeBins. rewrite aset_Some; [eauto|].
    rewrite firstn_length. rewrite D1, HD in D. unfold dims in D. injection D. intros. lia. }
  assert (HT: forall st, dims st = dims st1 -> length (aThresholds (fArrays st)) = numBins - 1).
  { intros st D. rewrite D1, HD in D. unfold dims in D. injection D. auto. }
  assert (Hsafe: forall rest2 st2 n2, dims st2 = dims st1 -> n2 + length rest2 <= length v -> fNum st2 <= n2 ->
     fBin st2 * k <= n2 -> length v <= (numBins - 1) * k ->
     exists vec, (let* st := forL rest2 (addValue Z.eqb mean k) st2 in
       if 0 <? fBin st then resizeBins (fArrays st) (fBin st2) (fBin st + 1) (fNum st) missing else Some EqualVec) = Some vec).
  { intros rest2 st2 n2 D2 L2 N2 B2 Hs.
    destruct (rest_some Z.eqb mean k Hk numBins (length v) rest2 st2 n2) as (st3 & E3 & D3); auto; [congruence|].
    rewrite E3. apply Hres; [congruence|]. rewrite <- (HT st3) by congruence.
    apply (addAll_bound Z.eqb mean k Hk _ _ _ E3). rewrite (HT st2) by congruence. nia. }
  destruct sparse.
  - destruct HS as [HS|HS]; [discriminate|].
    destruct (sparse_some Z.eqb mean k Hk numBins (length v) sparseValue (numExamples - length v) rest st1 n1)
      as (rest2 & st2 & n2 & -> & D2 & L2 & N2 & B2); [congruence|lia|lia|lia|lia|]. eauto.
  - destruct (all_some Z.eqb mean k Hk numBins (length v) rest st1 n1) as (st3 & E3 & B3 & D3); [congruence|lia|lia|lia|lia|].
    rewrite E3. apply Hres; [congruence|]. rewrite <- (HT st3) by congruence.
    apply (addAll_bound Z.eqb mean k Hk _ _ _ E3 T1).
Qed.

End Results.
