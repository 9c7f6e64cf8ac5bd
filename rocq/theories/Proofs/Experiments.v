(** * Parameters, models and characteristics of data sets in experiments: proofs *)

From Coq Require Import List Bool Arith ZArith QArith String Ascii Sorted Permutation Lia Lqa DecimalString DecimalNat.
From Verif Require Import Lib.Arr Model.Testbed Model.Experiments Spec.Experiments.
Import ListNotations.
Open Scope nat_scope.

(** ** Parameters *)

Lemma assoc_In {V} (l : list (string * V)) k v : assoc l k = Some v -> In (k, v) l.
Proof.
  induction l as [|[k' v'] l IH]; cbn; [discriminate|]. destruct (String.eqb_spec k' k) as [->|N].
  - intros [= ->]. now left.
  - intros H. right. auto.
Qed.

Lemma assoc_None {V} (l : list (string * V)) k : assoc l k = None <-> ~ In k (map fst l).
Proof.
  induction l as [|[k' v'] l IH]; cbn; [tauto|]. destruct (String.eqb_spec k' k) as [->|N].
  - split; [discriminate|tauto].
  - rewrite IH. intuition congruence.
Qed.

Lemma assoc_NoDup {V} (l : list (string * V)) k v : NoDup (map fst l) -> In (k, v) l -> assoc l k = Some v.
Proof.
  induction l as [|[k' v'] l IH]; cbn; [tauto|]. intros N H. inversion N as [|? ? N1 N2]; subst.
  destruct (String.eqb_spec k' k) as [->|D].
  - destruct H as [[= ->]|H]; [reflexivity|]. elim N1. apply in_map_iff. exists (k, v). auto.
  - destruct H as [[= -> ->]|H]; [congruence|]. auto.
Qed.

Lemma replace_keys {V} (l : list (string * V)) k v : map fst (replace l k v) = map fst l.
Proof. induction l as [|[k' v'] l IH]; cbn; [reflexivity|]. destruct (String.eqb k' k); cbn; congruence. Qed.

Lemma assoc_replace {V} (l : list (string * V)) k v k' :
  assoc (replace l k v) k' = if String.eqb k k' then match assoc l k' with Some _ => Some v | None => None end else assoc l k'.
Proof.
  induction l as [|[k2 v2] l IH]; cbn; [now destruct (String.eqb k k')|].
  destruct (String.eqb_spec k2 k) as [->|N]; cbn.
  - destruct (String.eqb_spec k k') as [->|N2]; reflexivity.
  - rewrite IH. destruct (String.eqb_spec k2 k') as [->|N2]; [|reflexivity].
    destruct (String.eqb_spec k k') as [->|N3]; [congruence|reflexivity].
Qed.

Lemma setParams_cons p kv l : setParams p (kv :: l) =
  match assoc p (fst kv) with None => None | Some _ => setParams (replace p (fst kv) (Some (snd kv))) l end.
Proof. unfold setParams. cbn. destruct (assoc p (fst kv)); reflexivity. Qed.

Lemma setParams_spec file : forall p, NoDup (map fst file) ->
  ((forall k, In k (map fst file) -> In k (map fst p)) <-> exists q, setParams p file = Some q) /\
  forall q, setParams p file = Some q -> map fst q = map fst p /\
    forall k, assoc q k = match assoc file k with Some v => Some (Some v) | None => assoc p k end.
Proof.
  induction file as [|[k v] file IH]; intros p N.
  - cbn. split; [split; [exists p; reflexivity|tauto]|]. intros q [= ->]. auto.
  - inversion N as [|? ? N1 N2]; subst. cbn [map fst] in *. rewrite setParams_cons. cbn [fst snd].
    destruct (assoc p k) as [o|] eqn:E.
    + destruct (IH (replace p k (Some v)) N2) as [I1 I2]. rewrite replace_keys in I1, I2. split.
      * rewrite <- I1. split; intros H x Hx; [apply H; now right|]. destruct Hx as [<-|Hx]; [|auto].
        apply assoc_In in E. apply in_map_iff. exists (k, o). auto.
      * intros q Q. destruct (I2 q Q) as [K A]. split; [exact K|]. intros x. rewrite A, assoc_replace. cbn [assoc].
        destruct (String.eqb_spec k x) as [<-|D]; [|reflexivity]. apply assoc_None in N1. now rewrite N1, E.
    + split; [|discriminate]. split; [|intros [q Q]; discriminate].
      intros H. exfalso. apply assoc_None in E. apply E, H. now left.
Qed.

Lemma current_eq base file : currentParams base (Some file) = setParams base file.
Proof. destruct file; reflexivity. Qed.

Lemma file_takes_precedence :
  forall base file, NoDup (map fst base) -> NoDup (map fst file) ->
  ((exists p, currentParams base (Some file) = Some p) <-> forall k, In k (map fst file) -> In k (map fst base)) /\
  forall p, currentParams base (Some file) = Some p -> map fst p = map fst base /\
    (forall k v, In (k, v) file -> In (k, Some v) p) /\
    forall k o, ~ In k (map fst file) -> (In (k, o) p <-> In (k, o) base).
Proof.
  intros base file NB NF. rewrite current_eq. destruct (setParams_spec file base NF) as [H1 H2]. split; [tauto|].
  intros p P. destruct (H2 p P) as [K A]. split; [exact K|]. assert (NP : NoDup (map fst p)) by now rewrite K.
  split.
  - intros k v H. apply assoc_In. rewrite A. now rewrite (assoc_NoDup _ _ _ NF H).
  - intros k o H. apply assoc_None in H. specialize (A k). rewrite H in A. split; intros I.
    + apply assoc_In. rewrite <- A. now apply assoc_NoDup.
    + apply assoc_In. rewrite A. now apply assoc_NoDup.
Qed.

Lemma documented_without_conflicts :
  forall base file p, NoDup (map fst base) -> NoDup (map fst file) ->
  (forall k v w, In (k, Some v) base -> In (k, w) file -> v = w) ->
  currentParams base (Some file) = Some p ->
  forall k o, In (k, o) p <-> documentedValue base file k o.
Proof.
  intros base file p NB NF C P k o. destruct (file_takes_precedence base file NB NF) as [_ H].
  destruct (H p P) as [K [A B]]. assert (NP : NoDup (map fst p)) by now rewrite K.
  assert (U : forall o', In (k, o') p -> In (k, o) p -> o = o').
  { intros o' I I'. apply (assoc_NoDup _ _ _ NP) in I, I'. congruence. }
  split.
  - intros I. assert (exists b, In (k, b) base) as [b Ib].
    { assert (X : In k (map fst base)) by (rewrite <- K; apply in_map_iff; exists (k, o); auto).
      apply in_map_iff in X. destruct X as [[k' b] [<- X]]. exists b. exact X. }
    destruct (in_dec string_dec k (map fst file)) as [F|F].
    + apply in_map_iff in F. destruct F as [[k' w] [E F]]. cbn in E. subst k'. rewrite (U _ (A k w F) I).
      destruct b as [v|]; [|now apply FromFile]. rewrite <- (C k v w Ib F). now apply FromCommandLine.
    + apply (B k o F) in I. destruct o; [now apply FromCommandLine|now apply Default].
  - intros D. destruct D as [v I|v I F|I F].
    + destruct (in_dec string_dec k (map fst file)) as [F|F]; [|now apply B].
      apply in_map_iff in F. destruct F as [[k' w] [E F]]. cbn in E. subst k'. rewrite (C k v w I F). now apply A.
    + now apply A.
    + now apply B.
Qed.

Lemma command_line_refuted :
  exists base file p k v w, NoDup (map fst base) /\ NoDup (map fst file) /\ In (k, Some v) base /\ In (k, w) file /\
  currentParams base (Some file) = Some p /\ documentedValue base file k (Some v) /\ ~ In (k, Some v) p /\ In (k, Some w) p.
Proof.
  exists [("max_rules", Some "50"); ("shrinkage", None)]%string, [("max_rules", "500")]%string,
    [("max_rules", Some "500"); ("shrinkage", None)]%string, "max_rules"%string, "50"%string, "500"%string.
  split; [repeat constructor; cbn; intuition discriminate|]. split; [repeat constructor; cbn; tauto|].
  split; [now left|]. split; [now left|]. split; [reflexivity|]. split; [apply FromCommandLine; now left|].
  split; [cbn; intuition discriminate|now left].
Qed.

Lemma tabularize_keys p : forall k, In k (map fst (tabularizeParams p)) -> In k (map fst p).
Proof.
  induction p as [|[k' [v|]] p IH]; cbn; [tauto| |]; intros k H; [destruct H as [H|H]|]; auto.
Qed.

Lemma tabularize_NoDup p : NoDup (map fst p) -> NoDup (map fst (tabularizeParams p)).
Proof.
  induction p as [|[k [v|]] p IH]; cbn; intros N; inversion N as [|? ? N1 N2]; subst; auto; try constructor; auto.
  intros H. apply N1. now apply tabularize_keys.
Qed.

Lemma assoc_tabularize p k : NoDup (map fst p) ->
  assoc (tabularizeParams p) k = match assoc p k with Some (Some v) => Some v | _ => None end.
Proof.
  induction p as [|[k' [v|]] p IH]; cbn; intros N; [reflexivity| |]; inversion N as [|? ? N1 N2]; subst.
  - destruct (String.eqb k' k); auto.
  - etransitivity; [exact (IH N2)|]. destruct (String.eqb_spec k' k) as [->|D]; [|reflexivity].
    apply assoc_None in N1. now rewrite N1.
Qed.

Lemma assoc_ext {V} (a b : list (string * V)) : NoDup (map fst b) -> map fst a = map fst b -> (forall k, assoc a k = assoc b k) -> a = b.
Proof.
  revert b. induction a as [|[k v] a IH]; intros [|[k' v'] b] N E H; try discriminate; [reflexivity|].
  cbn in E. injection E as -> E. inversion N as [|? ? N1 N2]; subst.
  assert (X := H k'). cbn in X. rewrite String.eqb_refl in X. injection X as ->. f_equal. apply IH; auto.
  intros k. specialize (H k). cbn in H. destruct (String.eqb_spec k' k) as [->|D]; [|exact H].
  assert (A : assoc b k = None) by now apply assoc_None. assert (B : assoc a k = None) by (apply assoc_None; now rewrite E). congruence.
Qed.

Lemma parameters_restored :
  forall p, NoDup (map fst p) ->
  (forall k v, In (k, v) (tabularizeParams p) <-> In (k, Some v) p) /\
  currentParams (map (fun kv => (fst kv, None)) p) (Some (tabularizeParams p)) = Some p.
Proof.
  intros p N. split.
  - intros k v. unfold tabularizeParams. rewrite in_flat_map. split.
    + intros [[k' [v'|]] [I H]]; cbn in H; [|tauto]. destruct H as [[= -> ->]|[]]. exact I.
    + intros I. exists (k, Some v). split; [exact I|now left].
  - rewrite current_eq. set (d := map (fun kv => (fst kv, None)) p).
    assert (KD : map fst d = map fst p) by (unfold d; rewrite map_map; reflexivity).
    destruct (setParams_spec (tabularizeParams p) d (tabularize_NoDup p N)) as [H1 H2].
    destruct H1 as [H1 _]. destruct H1 as [q Q]; [intros k; rewrite KD; apply tabularize_keys|].
    rewrite Q. f_equal. destruct (H2 q Q) as [K A]. apply assoc_ext; [exact N|congruence|]. intros k. rewrite A, assoc_tabularize by exact N.
    assert (X : assoc d k = match assoc p k with Some _ => Some None | None => None end).
    { unfold d. clear. induction p as [|[k' v] p IH]; cbn; [reflexivity|]. destruct (String.eqb k' k); auto. }
    rewrite X. destruct (assoc p k) as [[v|]|]; reflexivity.
Qed.

(** ** Models *)

Lemma append_inj_l a : forall b c, (a ++ b)%string = (a ++ c)%string -> b = c.
Proof. induction a as [|x a IH]; cbn; intros b c H; [exact H|]. injection H as H. auto. Qed.

Lemma append_inj_r (a b c : string) : (a ++ c)%string = (b ++ c)%string -> a = b.
Proof.
  assert (L : forall x y, String.length (x ++ y) = String.length x + String.length y).
  { induction x as [|? x IH]; cbn; intros y; [reflexivity|]. now rewrite IH. }
  revert b. induction a as [|x a IH]; intros [|y b] H; [reflexivity| | |].
  - apply (f_equal String.length) in H. cbn in H. rewrite L in H. lia.
  - apply (f_equal String.length) in H. cbn in H. rewrite L in H. lia.
  - cbn in H. injection H as -> H. f_equal. auto.
Qed.

Lemma string_of_uint_inj a b : NilEmpty.string_of_uint a = NilEmpty.string_of_uint b -> a = b.
Proof. intros H. apply (f_equal NilEmpty.uint_of_string) in H. rewrite !NilEmpty.usu in H. congruence. Qed.

Lemma append_assoc a : forall b c, ((a ++ b) ++ c)%string = (a ++ (b ++ c))%string.
Proof. induction a as [|x a IH]; cbn; intros b c; [reflexivity|]. now rewrite IH. Qed.

Lemma file_names_distinct :
  forall name suffix fold1 fold2, getFileNamePerFold name suffix fold1 = getFileNamePerFold name suffix fold2 -> fold1 = fold2.
Proof.
  intros name suffix f1 f2. unfold getFileNamePerFold, getFileName. intros H. apply append_inj_r in H.
  apply append_inj_l, append_inj_l in H. destruct f1 as [f1|], f2 as [f2|]; [|discriminate|discriminate|reflexivity].
  apply (append_inj_l "fold-") in H. apply string_of_uint_inj, Unsigned.to_uint_inj in H. f_equal. lia.
Qed.


Lemma load_save_same {L} (dir : list (string * L)) name f m : loadModel (saveModel dir name f m) name f = Some m.
Proof. unfold loadModel, saveModel. cbn [assoc]. now rewrite String.eqb_refl. Qed.

Lemma load_save_other {L} (dir : list (string * L)) name f g m : f <> g -> loadModel (saveModel dir name f m) name g = loadModel dir name g.
Proof.
  intros N. unfold loadModel, saveModel. cbn [assoc]. destruct (String.eqb_spec (getFileNamePerFold name "model" f) (getFileNamePerFold name "model" g)) as [E|E]; [|reflexivity].
  elim N. eapply file_names_distinct. exact E.
Qed.

Lemma use_loaded {L} name (train : option nat -> L) (model : option nat -> L) folds : forall dir,
  (forall f, In f folds -> loadModel dir name f = Some (model f)) ->
  useModels dir name folds train = (dir, map (fun f => (model f, false)) folds).
Proof.
  induction folds as [|f folds IH]; intros dir H; [reflexivity|]. cbn. unfold useModel.
  rewrite (H f) by now left. rewrite IH; [reflexivity|]. intros g G. apply H. now right.
Qed.

Lemma use_trained {L} name (train : option nat -> L) folds : forall dir, NoDup folds ->
  (forall f, In f folds -> loadModel dir name f = None) ->
  exists dir', useModels dir name folds train = (dir', map (fun f => (train f, true)) folds) /\
  (forall f, In f folds -> loadModel dir' name f = Some (train f)) /\
  (forall f, ~ In f folds -> loadModel dir' name f = loadModel dir name f).
Proof.
  induction folds as [|f folds IH]; intros dir N H; [exists dir; cbn; tauto|]. inversion N as [|? ? N1 N2]; subst.
  destruct (IH (saveModel dir name f (train f)) N2) as [dir' [U [A B]]].
  - intros g G. rewrite load_save_other by congruence. apply H. now right.
  - exists dir'. cbn. unfold useModel. rewrite (H f) by now left. rewrite U. split; [reflexivity|]. split.
    + intros g [<-|G]; [|auto]. rewrite (B f N1). apply load_save_same.
    + intros g G. rewrite B by tauto. apply load_save_other. tauto.
Qed.

Lemma models_reused :
  forall {L : Type} dir name folds (train : option nat -> L), NoDup folds -> (forall fold, In fold folds -> loadModel dir name fold = None) ->
  exists dir', useModels dir name folds train = (dir', map (fun fold => (train fold, true)) folds) /\
  forall train', useModels dir' name folds train' = (dir', map (fun fold => (train fold, false)) folds).
Proof.
  intros L dir name folds train N H. destruct (use_trained name train folds dir N H) as [dir' [U [A B]]].
  exists dir'. split; [exact U|]. intros train'. apply use_loaded. exact A.
Qed.

Lemma other_models_refuted :
  exists examples perm runs runs' dir fold r model,
  crossValidation examples 2 perm (-1)%Z = Some runs /\ crossValidation examples 3 perm (-1)%Z = Some runs' /\
  fst (useModels [] "boomer" (foldsOf runs) (trainingExamples runs)) = dir /\
  nth_error (snd (useModels dir "boomer" (foldsOf runs') (trainingExamples runs'))) fold = Some (model, false) /\
  nth_error runs' fold = Some r /\ exists e, In e model /\ In e (rtest r) /\ ~ In e (rtrain r).
Proof.
  exists [0; 1; 2; 3; 4; 5], [0; 1; 2; 3; 4; 5]. eexists. eexists. eexists. exists 1. eexists. eexists.
  split; [vm_compute; reflexivity|]. split; [vm_compute; reflexivity|]. split; [reflexivity|].
  split; [vm_compute; reflexivity|]. split; [reflexivity|]. exists 2. cbn. intuition discriminate.
Qed.

(** ** Characteristics of output matrices *)

Definition nz (v : Z) : bool := negb (v =? 0)%Z.
Definition cols (c : nat) (d : list Z) : list nat := filter (fun j => nz (nth j d 0%Z)) (seq 0 c).

Lemma sorted_ext a : forall b, StronglySorted lt a -> StronglySorted lt b -> (forall x, In x a <-> In x b) -> a = b.
Proof.
  induction a as [|x a IH]; intros [|y b] A B H; [reflexivity| | |].
  - destruct (proj2 (H y)). now left.
  - destruct (proj1 (H x)). now left.
  - inversion A as [|? ? A1 A2]; subst. inversion B as [|? ? B1 B2]; subst. rewrite Forall_forall in A2, B2.
    assert (x = y) as <-.
    { destruct (proj1 (H x) (or_introl eq_refl)) as [E|E]; [auto|]. destruct (proj2 (H y) (or_introl eq_refl)) as [F|F]; [auto|].
      specialize (A2 _ F). specialize (B2 _ E). lia. }
    f_equal. apply IH; auto. intros z. split; intros I.
    + destruct (proj1 (H z) (or_intror I)) as [<-|J]; [|exact J]. specialize (A2 _ I). lia.
    + destruct (proj2 (H z) (or_intror I)) as [<-|J]; [|exact J]. specialize (B2 _ I). lia.
Qed.

Lemma sorted_filter_seq p n : forall i, StronglySorted lt (filter p (seq i n)).
Proof.
  induction n as [|n IH]; intros i; cbn; [constructor|]. destruct (p i); [|apply IH]. constructor; [apply IH|].
  apply Forall_forall. intros x X. apply filter_In in X. destruct X as [X _]. apply in_seq in X. lia.
Qed.

Lemma nz_true v : nz v = true <-> v <> 0%Z.
Proof. unfold nz. destruct (Z.eqb_spec v 0); cbn; intuition congruence. Qed.

Lemma cols_stored c d s : List.length d = c -> (forall j v, nth_error d j = Some v -> storedValue s j v) ->
  StronglySorted lt (map fst s) -> Forall (fun e => fst e < c) s -> Forall (fun e => snd e <> 0%Z) s -> map fst s = cols c d.
Proof.
  intros L V S B N. apply sorted_ext; [exact S|apply sorted_filter_seq|]. intros j. unfold cols. rewrite filter_In, in_seq, nz_true.
  rewrite Forall_forall in B, N. split.
  - intros I. pose proof I as I2. apply in_map_iff in I2. destruct I2 as [[j' w] [E I2]]. cbn in E. subst j'.
    assert (J : j < c) by exact (B _ I2). split; [lia|]. destruct (V j (nth j d 0%Z)) as [K|[_ K]].
    + apply nth_error_nth'. lia.
    + exact (N _ K).
    + tauto.
  - intros [J H]. destruct (V j (nth j d 0%Z)) as [K|[K _]]; [apply nth_error_nth'; lia| |congruence].
    apply in_map_iff. now exists (j, nth j d 0%Z).
Qed.

Lemma map_nth_seq (d : list Z) : map (fun j => nth j d 0%Z) (seq 0 (List.length d)) = d.
Proof. induction d as [|x d IH]; [reflexivity|]. cbn. f_equal. rewrite <- seq_shift, map_map. exact IH. Qed.

Lemma filter_map_length {A B} (f : A -> B) p l : List.length (filter p (map f l)) = List.length (filter (fun x => p (f x)) l).
Proof. induction l as [|x l IH]; cbn; [reflexivity|]. destruct (p (f x)); cbn; congruence. Qed.

Lemma cols_length c d : List.length d = c -> List.length (cols c d) = countNonzero d.
Proof.
  intros <-. transitivity (countNonzero (map (fun j => nth j d 0%Z) (seq 0 (List.length d)))); [|now rewrite map_nth_seq].
  unfold countNonzero. rewrite filter_map_length. reflexivity.
Qed.

Lemma filter_eq_seq p n j : forall i, i <= j < i + n ->
  List.length (filter (fun x => x =? j) (filter p (seq i n))) = if p j then 1 else 0.
Proof.
  assert (Z0 : forall n i, j < i -> filter (fun x => x =? j) (filter p (seq i n)) = []).
  { induction n0 as [|n0 IH]; intros i H; cbn; [reflexivity|]. destruct (p i); cbn; [|apply IH; lia].
    destruct (Nat.eqb_spec i j); [lia|apply IH; lia]. }
  induction n as [|n IH]; intros i H; [lia|]. cbn. destruct (Nat.eq_dec i j) as [->|N].
  - destruct (p j); cbn; [rewrite Nat.eqb_refl; cbn|]; now rewrite Z0 by lia.
  - destruct (p i); cbn; [destruct (Nat.eqb_spec i j); [lia|]|]; apply IH; lia.
Qed.

Lemma filter_fst_length (s : list (nat * Z)) j :
  List.length (filter (fun e => fst e =? j) s) = List.length (filter (fun x => x =? j) (map fst s)).
Proof. now rewrite filter_map_length. Qed.

Lemma rows_stored c dense sparse : validOutputs c sparse -> noZeros sparse -> sameOutputs c dense sparse ->
  Forall2 (fun d s => List.length d = c /\ map fst s = cols c d) dense sparse.
Proof.
  intros V N S. induction S as [|d s dense sparse [L H] S IH]; [constructor|]. inversion V as [|? ? [V1 V2] V3]; subst.
  inversion N as [|? ? N1 N2]; subst. constructor; [|auto]. split; [reflexivity|]. now apply cols_stored.
Qed.

Lemma per_row c dense sparse : Forall2 (fun d s => List.length d = c /\ map fst s = cols c d) dense sparse ->
  map countNonzero dense = map (@List.length (nat * Z)) sparse /\ List.length dense = List.length sparse /\
  map (map fst) sparse = map (cols c) dense.
Proof.
  induction 1 as [|d s dense sparse [L H] S [I1 [I2 I3]]]; [auto|]. cbn. rewrite I1, I2, I3, H. split; [|auto]. f_equal.
  rewrite <- (cols_length c d L), <- H. apply map_length.
Qed.

Lemma per_col c dense sparse j : Forall2 (fun d s => List.length d = c /\ map fst s = cols c d) dense sparse -> j < c ->
  countNonzero (map (fun row => nth j row 0%Z) dense) = List.length (filter (fun e : nat * Z => fst e =? j) (List.concat sparse)).
Proof.
  intros F J. induction F as [|d s dense sparse [L H] S IH]; [reflexivity|]. cbn [List.concat map].
  rewrite filter_app, app_length, filter_fst_length, H. unfold cols. rewrite filter_eq_seq by lia. rewrite <- IH.
  unfold countNonzero. cbn [filter]. fold (nz (nth j d 0%Z)). destruct (nz (nth j d 0%Z)); reflexivity.
Qed.

Lemma nodup_map_length {A B} (da : forall x y : A, {x = y} + {x <> y}) (db : forall x y : B, {x = y} + {x <> y}) (f : A -> B) l :
  (forall x y, In x l -> In y l -> f x = f y -> x = y) -> List.length (nodup db (map f l)) = List.length (nodup da l).
Proof.
  induction l as [|x l IH]; intros H; [reflexivity|]. cbn.
  assert (I : List.length (nodup db (map f l)) = List.length (nodup da l)) by (apply IH; intros; apply H; cbn; auto).
  destruct (in_dec db (f x) (map f l)) as [K|K], (in_dec da x l) as [M|M]; cbn; try lia; exfalso.
  - apply in_map_iff in K. destruct K as [y [E Y]]. apply M. rewrite (H x y); cbn; auto.
  - apply K. now apply in_map.
Qed.

Lemma cols_inj c d e : List.length d = c -> List.length e = c -> Forall (fun v => v = 0%Z \/ v = 1%Z) d ->
  Forall (fun v => v = 0%Z \/ v = 1%Z) e -> cols c d = cols c e -> d = e.
Proof.
  intros L M D E H. apply (nth_ext d e 0%Z 0%Z); [congruence|]. intros j J. rewrite Forall_forall in D, E.
  assert (X : In j (cols c d) <-> In j (cols c e)) by now rewrite H. unfold cols in X. rewrite !filter_In, !nz_true, !in_seq in X.
  destruct (D (nth j d 0%Z)) as [A|A]; [apply nth_In; lia| |];
  (destruct (E (nth j e 0%Z)) as [B|B]; [apply nth_In; lia| |]); rewrite A, B in *; auto; exfalso.
  - destruct X as [_ X]. destruct X as [_ X]; [split; [lia|discriminate]|]. now apply X.
  - destruct X as [X _]. destruct X as [_ X]; [split; [lia|discriminate]|]. now apply X.
Qed.

Lemma same_characteristics :
  forall numCols dense sparse, validOutputs numCols sparse -> noZeros sparse -> sameOutputs numCols dense sparse ->
  let d := DenseOutputs numCols dense in
  let s := SparseOutputs numCols sparse in
  density s = density d /\ labelCardinality s = labelCardinality d /\ labelImbalanceRatio s = labelImbalanceRatio d /\
  (binary dense -> distinctLabelVectors s = distinctLabelVectors d).
Proof.
  intros c dense sparse V N S. cbv zeta. pose proof (rows_stored c dense sparse V N S) as R.
  destruct (per_row c dense sparse R) as [P1 [P2 P3]].
  assert (PC : densePerCol (SparseOutputs c sparse) = densePerCol (DenseOutputs c dense)).
  { cbn. apply map_ext_in. intros j J. apply in_seq in J. symmetry. apply (per_col c); [exact R|lia]. }
  split; [|split; [|split]].
  - unfold density. cbn [numRows numColsOf densePerRow]. now rewrite P1, P2.
  - unfold labelCardinality. cbn [numRows densePerRow]. now rewrite P1, P2.
  - unfold labelImbalanceRatio. now rewrite PC.
  - intros B. cbn. rewrite P3. apply nodup_map_length. intros x y X Y. unfold binary in B. rewrite Forall_forall in B.
    assert (LD : forall x, In x dense -> List.length x = c).
    { intros z Z. clear -S Z. induction S as [|d s dense sparse [L _] S IH]; [destruct Z|]. destruct Z as [<-|Z]; auto. }
    apply cols_inj; auto.
Qed.

Lemma stored_zeros_refuted :
  exists numCols dense sparse, validOutputs numCols sparse /\ sameOutputs numCols dense sparse /\ binary dense /\
  let d := DenseOutputs numCols dense in
  let s := SparseOutputs numCols sparse in
  ~ (density s == density d)%Q /\ labelCardinality s <> labelCardinality d /\
  ~ (labelImbalanceRatio s == labelImbalanceRatio d)%Q /\ distinctLabelVectors s <> distinctLabelVectors d.
Proof.
  exists 2, [[1%Z; 0%Z]; [1%Z; 0%Z]; [1%Z; 0%Z]], [[(0, 1%Z); (1, 0%Z)]; [(0, 1%Z)]; [(0, 1%Z)]].
  split; [repeat constructor; cbn; lia|]. split.
  - unfold sameOutputs.
    apply Forall2_cons; [|apply Forall2_cons; [|apply Forall2_cons; [|apply Forall2_nil]]]; (split; [reflexivity|]); intros [|[|[|j]]] v H; cbn in H; try discriminate; injection H as <-; unfold storedValue; cbn; intuition discriminate.
  - split; [unfold binary; repeat (apply Forall_cons || apply Forall_nil); auto|]. cbv zeta. split; [vm_compute; discriminate|]. split; [vm_compute; discriminate|].
    split; vm_compute; discriminate.
Qed.

Lemma numRelevant_count l : numRelevant l = countNonzero l.
Proof. unfold countNonzero. induction l as [|v l IH]; cbn; [reflexivity|]. destruct (Z.eq_dec v 0), (Z.eqb_spec v 0); cbn; congruence. Qed.

Lemma sum_count r : list_sum (map countNonzero r) = numRelevant (List.concat r).
Proof.
  induction r as [|x r IH]; [reflexivity|]. change (countNonzero x + list_sum (map countNonzero r) = numRelevant (x ++ List.concat r)).
  rewrite IH, !numRelevant_count. unfold countNonzero. now rewrite filter_app, app_length.
Qed.

Lemma count_le l : countNonzero l <= List.length l.
Proof. unfold countNonzero. induction l as [|v l IH]; cbn; [lia|]. destruct (negb (v =? 0)%Z); cbn; lia. Qed.

Lemma concat_len c (r : list (list Z)) : Forall (fun row => List.length row = c) r -> List.length (List.concat r) = List.length r * c.
Proof. induction 1 as [|x r L F IH]; cbn; [reflexivity|]. rewrite app_length, IH, L. lia. Qed.

Lemma ratio_pos b : 0 < b -> (0 < inject_Z (Z.of_nat b))%Q.
Proof. intros H. unfold Qlt, inject_Z. cbn. lia. Qed.

Lemma ratio_le1 a b : 0 < b -> a <= b -> (0 <= ratio a b <= 1)%Q.
Proof.
  intros B H. pose proof (ratio_pos b B) as P. unfold ratio. split.
  - apply Qle_shift_div_l; [exact P|]. rewrite Qmult_0_l. unfold Qle, inject_Z. cbn. lia.
  - apply Qle_shift_div_r; [exact P|]. rewrite Qmult_1_l. rewrite <- Zle_Qle. lia.
Qed.

Lemma ratio_ge1 a b : 0 < b -> b <= a -> (1 <= ratio a b)%Q.
Proof.
  intros B H. unfold ratio. apply Qle_shift_div_l; [now apply ratio_pos|]. rewrite Qmult_1_l. rewrite <- Zle_Qle. lia.
Qed.

Lemma average_ge1 (l : list Q) : l <> [] -> Forall (fun q => 1 <= q)%Q l -> (1 <= fold_right Qplus 0 l / inject_Z (Z.of_nat (List.length l)))%Q.
Proof.
  intros N F. apply Qle_shift_div_l; [apply ratio_pos; destruct l; [congruence|cbn; lia]|]. rewrite Qmult_1_l. clear N.
  induction F as [|q l Q F IH]; [vm_compute; discriminate|]. cbn [fold_right List.length]. rewrite Nat2Z.inj_succ. unfold Z.succ. rewrite inject_Z_plus.
  change (inject_Z 1) with 1%Q. lra.
Qed.

Lemma list_max_ge l n : In n l -> n <= list_max l.
Proof. intros H. pose proof (proj1 (list_max_le l (list_max l)) (Nat.le_refl _)) as F. rewrite Forall_forall in F. auto. Qed.

Lemma characteristics_of_labels :
  forall numCols r, Forall (fun row => List.length row = numCols) r ->
  let m := DenseOutputs numCols r in
  (0 < numCols -> r <> [] ->
   (density m == inject_Z (Z.of_nat (numRelevant (List.concat r))) / inject_Z (Z.of_nat (List.length r * numCols)))%Q /\
   exists q, labelCardinality m = Some q /\ (q == density m * inject_Z (Z.of_nat numCols))%Q) /\
  ((numCols = 0 \/ r = []) -> density m = 0%Q) /\ (labelCardinality m = None <-> r = []) /\
  (0 <= density m <= 1)%Q /\
  ((exists row v, In row r /\ In v row /\ v <> 0%Z) -> (1 <= labelImbalanceRatio m)%Q) /\
  ((forall row v, In row r -> In v row -> v = 0%Z) -> labelImbalanceRatio m = 0%Q) /\
  exists l, distinctLabelVectors m = List.length l /\ NoDup l /\ forall row, In row l <-> In row r.
Proof.
  intros c r R m. assert (S : list_sum (densePerRow m) = numRelevant (List.concat r)) by apply sum_count.
  assert (LE : numRelevant (List.concat r) <= List.length r * c) by (rewrite numRelevant_count, <- (concat_len c r R); apply count_le).
  split; [|split; [|split; [|split; [|split; [|split]]]]].
  - intros C N. assert (LR : 0 < List.length r) by (destruct r; [congruence|cbn; lia]).
    assert (LC : 0 < List.length r * c) by nia.
    assert (D : density m = ratio (numRelevant (List.concat r)) (List.length r * c)).
    { unfold density. rewrite S. cbn [numRows numColsOf m]. now rewrite (proj2 (Nat.ltb_lt _ _) LC). }
    split; [rewrite D; reflexivity|]. eexists. split.
    + unfold labelCardinality. cbn [numRows m]. destruct (Nat.eqb_spec (List.length r) 0); [lia|]. reflexivity.
    + rewrite D. fold m. rewrite S. unfold ratio. rewrite Nat2Z.inj_mul, inject_Z_mult.
      pose proof (ratio_pos _ LR). pose proof (ratio_pos _ C). field. split; lra.
  - intros H. unfold density. cbn [numRows numColsOf m]. assert (E0 : List.length r * c = 0) by (destruct H as [->| ->]; cbn; lia).
    now rewrite E0.
  - unfold labelCardinality. cbn [numRows m]. destruct r; cbn; split; congruence.
  - unfold density. rewrite S. cbn [numRows numColsOf m]. destruct (Nat.ltb_spec 0 (List.length r * c)); [now apply ratio_le1|]. lra.
  - intros [row [v [I [J K]]]]. unfold labelImbalanceRatio. set (l := filter _ _).
    assert (X : exists n, In n l).
    { destruct (In_nth row v 0%Z J) as [j [L E]]. rewrite Forall_forall in R. pose proof (R row I) as RL.
      exists (countNonzero (map (fun row => nth j row 0%Z) r)). unfold l. apply filter_In. split.
      - cbn. apply in_map_iff. exists j. split; [reflexivity|]. apply in_seq. lia.
      - apply negb_true_iff, Nat.eqb_neq. unfold countNonzero. intros Z0. apply length_zero_iff_nil in Z0.
        assert (Y : In v (filter (fun v => negb (v =? 0)%Z) (map (fun row => nth j row 0%Z) r))).
        { apply filter_In. split; [apply in_map_iff; exists row; auto|]. apply negb_true_iff, Z.eqb_neq, K. }
        rewrite Z0 in Y. destruct Y. }
    destruct X as [n X]. assert (LL : 0 < List.length l) by (destruct l; [destruct X|cbn; lia]).
    rewrite (proj2 (Nat.ltb_lt _ _) LL). rewrite <- (map_length (fun n => ratio (list_max l) n) l). apply average_ge1.
    + destruct l; [destruct X|discriminate].
    + apply Forall_forall. intros q Q. apply in_map_iff in Q. destruct Q as [k [<- Q]]. pose proof (list_max_ge l k Q).
      unfold l in Q. apply filter_In in Q. destruct Q as [_ Q]. apply negb_true_iff, Nat.eqb_neq in Q. apply ratio_ge1; lia.
  - intros Z0. unfold labelImbalanceRatio.
    assert (E : filter (fun n => negb (n =? 0)) (densePerCol m) = []).
    { cbn. assert (G : forall js, filter (fun n => negb (n =? 0)) (map (fun j => countNonzero (map (fun row => nth j row 0%Z) r)) js) = []).
      { induction js as [|j js IH]; [reflexivity|]. cbn. rewrite IH.
        assert (C0 : countNonzero (map (fun row => nth j row 0%Z) r) = 0).
        { unfold countNonzero. clear -Z0. induction r as [|row r IH]; [reflexivity|]. cbn.
          assert (nth j row 0%Z = 0%Z) as ->.
          { destruct (Nat.lt_ge_cases j (List.length row)); [apply (Z0 row); [now left|now apply nth_In]|now apply nth_overflow]. }
          cbn. apply IH. intros row' v I J. apply (Z0 row'); cbn; auto. }
        now rewrite C0. }
      apply G. }
    now rewrite E.
  - exists (nodup (list_eq_dec Z.eq_dec) r). split; [reflexivity|]. split; [apply NoDup_nodup|]. intros row. apply nodup_In.
Qed.

Lemma list_max_used l : (exists n, In n l /\ n <> 0) -> In (list_max (filter (fun n => negb (n =? 0)) l)) l /\
  forall n, In n l -> n <= list_max (filter (fun n => negb (n =? 0)) l).
Proof.
  intros [k [K1 K2]]. set (f := filter _ l).
  assert (KF : In k f) by (apply filter_In; split; [exact K1|]; apply negb_true_iff, Nat.eqb_neq; exact K2).
  assert (IM : forall g : list nat, g <> [] -> In (list_max g) g).
  { induction g as [|x g IH]; [congruence|]. intros _. change (list_max (x :: g)) with (Nat.max x (list_max g)).
    destruct g as [|y g]; [left; cbn; lia|]. destruct (Nat.max_spec x (list_max (y :: g))) as [[_ ->]|[_ ->]]; [right; apply IH; discriminate|now left]. }
  split.
  - assert (I : In (list_max f) f) by (apply IM; destruct f; [destruct KF|discriminate]). apply filter_In in I. tauto.
  - intros n N. destruct (Nat.eq_dec n 0) as [->|Z0]; [lia|]. apply list_max_ge. apply filter_In. split; [exact N|].
    apply negb_true_iff, Nat.eqb_neq. exact Z0.
Qed.

Lemma imbalance_ratio_defined :
  forall numCols r, Forall (fun row => List.length row = numCols) r ->
  (exists row v, In row r /\ In v row /\ v <> 0%Z) ->
  isImbalanceRatio (map (fun j => numRelevant (map (fun row => nth j row 0%Z) r)) (seq 0 numCols))
    (labelImbalanceRatio (DenseOutputs numCols r)).
Proof.
  intros c r R [row [v [I [J K]]]]. set (counts := map _ _).
  assert (E : densePerCol (DenseOutputs c r) = counts).
  { unfold counts. cbn. apply map_ext. intros j. now rewrite numRelevant_count. }
  assert (X : exists n, In n counts /\ n <> 0).
  { destruct (In_nth row v 0%Z J) as [j [L EV]]. rewrite Forall_forall in R. pose proof (R row I) as RL.
    exists (numRelevant (map (fun row => nth j row 0%Z) r)). split; [apply in_map_iff; exists j; split; [reflexivity|apply in_seq; lia]|].
    rewrite numRelevant_count. unfold countNonzero. intros Z0. apply length_zero_iff_nil in Z0.
    assert (Y : In v (filter (fun v => negb (v =? 0)%Z) (map (fun row => nth j row 0%Z) r))).
    { apply filter_In. split; [apply in_map_iff; exists row; auto|]. apply negb_true_iff, Z.eqb_neq, K. }
    rewrite Z0 in Y. destruct Y. }
  destruct (list_max_used counts X) as [M1 M2]. exists (list_max (filter (fun n => negb (n =? 0)) counts)). split; [exact M1|]. split; [exact M2|].
  cbv zeta. unfold labelImbalanceRatio. rewrite E. set (l := filter _ counts) in *.
  assert (LL : 0 < List.length l).
  { destruct X as [n [N1 N2]]. assert (NL : In n l) by (apply filter_In; split; [exact N1|]; apply negb_true_iff, Nat.eqb_neq; exact N2).
    destruct l as [|x l']; [destruct NL|cbn; lia]. }
  rewrite (proj2 (Nat.ltb_lt _ _) LL). pose proof (ratio_pos _ LL) as P.
  assert (S : forall g M, fold_right Qplus 0%Q (map (fun n => ratio M n) g)
    = fold_right (fun n sum => inject_Z (Z.of_nat M) / inject_Z (Z.of_nat n) + sum)%Q 0%Q g).
  { induction g as [|x g IH]; intros M; [reflexivity|]. cbn [map fold_right]. rewrite IH. reflexivity. }
  rewrite S. field. lra.
Qed.
