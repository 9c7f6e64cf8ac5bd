(** * Proofs on the parameters of rule learners *)

From Coq Require Import List Bool Ascii String PeanoNat QArith Lia Permutation.
From Verif Require Import Model.Options Model.PyConfig Spec.Options Spec.PyConfig Proofs.Options.
Import ListNotations.
Open Scope nat_scope.

(** ** Boolean checks of tables *)

Definition kindEq (a b : kind) : bool :=
  match a, b with
  | GetInt, GetInt | GetFloat, GetFloat | GetBool, GetBool | GetAggregation, GetAggregation => true
  | _, _ => false
  end.

Definition statementEq (a b : statement) : bool :=
  match a, b with
  | UseMethod m, UseMethod m' => pyEq m m'
  | SetOption s k x g, SetOption s' k' x' g' => pyEq s s' && kindEq k k' && pyEq x x' && pyEq g g'
  | _, _ => false
  end.

Lemma statementEq_eq : forall a b, statementEq a b = true -> a = b.
Proof.
  intros [m|s k x g] [m'|s' k' x' g']; simpl; intro H; try discriminate.
  - apply pyEq_eq in H. congruence.
  - apply andb_prop in H. destruct H as [H Hg]. apply andb_prop in H. destruct H as [H Hx].
    apply andb_prop in H. destruct H as [Hs Hk]. apply pyEq_eq in Hg. apply pyEq_eq in Hx. apply pyEq_eq in Hs.
    assert (k = k') by (destruct k, k'; try discriminate; reflexivity). congruence.
Qed.

Fixpoint removeFirst (x : statement) (l : list statement) : option (list statement) :=
  match l with
  | [] => None
  | y :: l' => if statementEq x y then Some l'
               else match removeFirst x l' with Some r => Some (y :: r) | None => None end
  end.

Fixpoint permb (a b : list statement) : bool :=
  match a with
  | [] => match b with [] => true | _ => false end
  | x :: a' => match removeFirst x b with Some b' => permb a' b' | None => false end
  end.

Lemma removeFirst_perm : forall x l r, removeFirst x l = Some r -> Permutation (x :: r) l.
Proof.
  intros x l. induction l as [|y l IH]; intros r H; simpl in H; [discriminate|].
  destruct (statementEq x y) eqn:E.
  - apply statementEq_eq in E. injection H as H. subst. apply Permutation_refl.
  - destruct (removeFirst x l) as [r'|]; [|discriminate]. injection H as H. subst.
    apply perm_trans with (y :: x :: r'); [apply perm_swap|]. apply perm_skip. apply IH. reflexivity.
Qed.

Lemma permb_perm : forall a b, permb a b = true -> Permutation a b.
Proof.
  induction a as [|x a IH]; intros b H; simpl in H.
  - destruct b; [apply Permutation_refl|discriminate].
  - destruct (removeFirst x b) as [r|] eqn:E; [|discriminate].
    apply perm_trans with (x :: r); [apply perm_skip; apply IH; exact H|]. apply removeFirst_perm. exact E.
Qed.

Fixpoint nodupb (l : list pystr) : bool :=
  match l with
  | [] => true
  | x :: l' => negb (pyIn x l') && nodupb l'
  end.

Lemma nodupb_NoDup : forall l, nodupb l = true -> NoDup l.
Proof.
  induction l as [|x l IH]; intro H; simpl in H; constructor; apply andb_prop in H; destruct H as [H1 H2]; auto.
  intro K. apply pyIn_In in K. rewrite K in H1. discriminate.
Qed.

Definition unambiguousb {V : Type} (allowed : pydict V) : bool :=
  nodupb (map fst allowed) &&
  forallb (fun v => forallb (fun w => negb (startsWith w v) || pyEq v w) (map fst allowed)) (map fst allowed).

Lemma unambiguousb_spec : forall {V} (allowed : pydict V), unambiguousb allowed = true -> unambiguous allowed.
Proof.
  intros V allowed H. apply andb_prop in H. destruct H as [H1 H2]. split; [apply nodupb_NoDup; exact H1|].
  intros v w Hv Hw [s Hs]. rewrite forallb_forall in H2. specialize (H2 v Hv). rewrite forallb_forall in H2.
  specialize (H2 w Hw). assert (K : startsWith w v = true) by (apply startsWith_spec; exists s; exact Hs).
  rewrite K in H2. simpl in H2. apply pyEq_eq. exact H2.
Qed.

Definition inclb (a b : list pystr) : bool := forallb (fun x => pyIn x b) a.

Lemma inclb_incl : forall a b, inclb a b = true -> incl a b.
Proof. intros a b H x Hx. unfold inclb in H. rewrite forallb_forall in H. apply pyIn_In. apply H. exact Hx. Qed.

Definition asStatement (o : documentedOption) : statement :=
  SetOption (optionSetter o) (optionKind o) (optionKey o) (optionGetter o).

(** A strategy is supported by a parameter and implemented as documented. *)
Definition checkStrategy (cls : configClass) (values : list value) (conf : pystr -> list statement) (s : strategy)
  : bool :=
  match dictGet (strategyValue s) (supportedValues cls values) with
  | Some keys =>
      inclb keys (map optionKey (strategyOptions s)) && inclb (map optionKey (strategyOptions s)) keys &&
      match conf (strategyValue s) with
      | UseMethod m :: sets =>
          match dictGet m (methods cls) with
          | Some cpp => pyEq cpp (strategyCpp s) && permb sets (map asStatement (strategyOptions s))
          | None => false
          end
      | _ => false
      end
  | None => false
  end.

(** The values of a parameter are documented. *)
Definition checkValues (cls : configClass) (values : list value) (l : list strategy) : bool :=
  unambiguousb (supportedValues cls values) && (0 <? List.length (supportedValues cls values)) &&
  forallb (fun s => existsb (fun d => pyEq (fst d) (fst s) && inclb (snd s) (snd d)) (documentedValues l))
    (supportedValues cls values).

Lemma dictGet_In : forall {V} k (d : pydict V) v, dictGet k d = Some v -> In (k, v) d.
Proof.
  intros V k d v. induction d as [|[k' v'] d IH]; simpl; intro H; [discriminate|].
  destruct (pyEq k' k) eqn:E; [|right; apply IH; exact H].
  apply pyEq_eq in E. injection H as H. subst. left. reflexivity.
Qed.

(** ** The execution of statements *)

(** The call that results from a setter. *)
Definition callOf (cpp : pystr) (ps : pairs) (o : documentedOption) : call :=
  CallSet cpp (optionSetter o)
    (match lastValue (optionKey o) ps with
     | Some text => Given (optionKind o) text
     | None => Current (optionGetter o)
     end).

Lemma execute_sets : forall {A} (env : environment A) cls (o : options) ps cpp l before,
  (forall k, dictGet k o = lastValue k ps) ->
  (forall d text, In d l -> lastValue (optionKey d) ps = Some text -> convertible env (optionKind d) text = true) ->
  (forall b d, In d l -> accepts env b (callOf cpp ps d) = true) ->
  execute env cls (Some o) cpp before (map asStatement l) = Ok (before ++ map (callOf cpp ps) l).
Proof.
  intros A env cls o ps cpp l. induction l as [|d l IH]; intros before Ho Hc Ha; simpl.
  - rewrite app_nil_r. reflexivity.
  - rewrite Ho. pose proof (Ha before d (or_introl eq_refl)) as Had. unfold callOf in Had.
    destruct (lastValue (optionKey d) ps) as [text|] eqn:E.
    + rewrite (Hc d text (or_introl eq_refl) E). simpl. rewrite Had.
      rewrite IH; auto.
      * f_equal. rewrite <- app_assoc. simpl. unfold callOf at 2. rewrite E. reflexivity.
      * intros d' t Hd'. apply Hc. right. exact Hd'.
      * intros b d' Hd'. apply Ha. right. exact Hd'.
    + simpl. rewrite Had. rewrite IH; auto.
      * f_equal. rewrite <- app_assoc. simpl. unfold callOf at 2. rewrite E. reflexivity.
      * intros d' t Hd'. apply Hc. right. exact Hd'.
      * intros b d' Hd'. apply Ha. right. exact Hd'.
Qed.

Lemma execute_bad : forall {A} (env : environment A) cls (o : options) ps cpp l before,
  (forall k, dictGet k o = lastValue k ps) ->
  (exists d text, In d l /\ lastValue (optionKey d) ps = Some text /\ convertible env (optionKind d) text = false) ->
  execute env cls (Some o) cpp before (map asStatement l) = ValueError.
Proof.
  intros A env cls o ps cpp l. induction l as [|d l IH]; intros before Ho [b [text [Hin [Hb Hc]]]]; simpl.
  - contradiction.
  - rewrite Ho. destruct Hin as [Hin|Hin].
    + subst b. rewrite Hb, Hc. reflexivity.
    + assert (K : exists d0 text0, In d0 l /\ lastValue (optionKey d0) ps = Some text0 /\
                  convertible env (optionKind d0) text0 = false) by (exists b, text; auto).
      destruct (lastValue (optionKey d) ps) as [t|].
      * destruct (convertible env (optionKind d) t); simpl; auto.
        destruct (accepts env before _); auto.
      * simpl. destruct (accepts env before _); auto.
Qed.

Lemma execute_no_attribute_error : forall {A} (env : environment A) cls (o : options) cpp l before,
  execute env cls (Some o) cpp before (map asStatement l) <> AttributeError.
Proof.
  intros A env cls o cpp l. induction l as [|d l IH]; intros before; simpl; [discriminate|].
  destruct (dictGet (optionKey d) o) as [t|].
  - destruct (convertible env (optionKind d) t); simpl; try discriminate.
    destruct (accepts env before _); auto. discriminate.
  - simpl. destruct (accepts env before _); auto. discriminate.
Qed.

Lemma map_perm_statements : forall sets l, Permutation sets (map asStatement l) ->
  exists l', sets = map asStatement l' /\ Permutation l' l.
Proof.
  intros sets l H. apply Permutation_map_inv in H. destruct H as [l' [H1 H2]].
  exists l'. split; auto. apply Permutation_sym. exact H2.
Qed.

Lemma numOptions_acc : forall d n, fold_left (fun n (s : pystr * list pystr) => n + List.length (snd s)) d n =
  n + numOptions d.
Proof.
  unfold numOptions. induction d as [|x d IH]; intro n; simpl; [lia|]. rewrite IH. rewrite (IH (List.length (snd x))). lia.
Qed.

Lemma numOptions_zero : forall d k keys, numOptions d = 0 -> In (k, keys) d -> keys = [].
Proof.
  induction d as [|x d IH]; intros k keys H Hin; [contradiction|].
  unfold numOptions in H. simpl in H. rewrite numOptions_acc in H.
  destruct Hin as [Hin|Hin].
  - subst x. simpl in H. destruct keys; auto. simpl in H. lia.
  - apply (IH k keys); auto. lia.
Qed.

Lemma incl_nil : forall (l : list pystr), incl l [] -> l = [].
Proof. intros [|x l] H; auto. exfalso. apply (H x). left. reflexivity. Qed.

Lemma map_nil : forall {A B} (f : A -> B) l, map f l = [] -> l = [].
Proof. intros A B f [|x l] H; auto. discriminate. Qed.

(** A strategy that passes the check is configured as documented. *)
Lemma strategy_configured :
  forall A (env : environment A) cls name values conf s v ps before,
    unambiguousb (supportedValues cls values) = true -> checkStrategy cls values conf s = true ->
    written s (toStr env v) ps ->
    (wellTyped env s ps -> allAccepted env s ps ->
       exists calls, configure env cls before (Nominal name values conf) v = Ok calls /\ applied s ps before calls) /\
    ((exists o text, In o (strategyOptions s) /\ lastValue (optionKey o) ps = Some text /\
        convertible env (optionKind o) text = false) ->
     configure env cls before (Nominal name values conf) v = ValueError) /\
    configure env cls before (Nominal name values conf) v <> AttributeError.
Proof.
  intros A env cls name values conf s v ps before Hu Hs Hw. apply unambiguousb_spec in Hu.
  unfold checkStrategy in Hs.
  destruct (dictGet (strategyValue s) (supportedValues cls values)) as [keys|] eqn:Ek; [|discriminate].
  apply andb_prop in Hs. destruct Hs as [Hs Hs3]. apply andb_prop in Hs. destruct Hs as [Hs1 Hs2].
  apply inclb_incl in Hs1. apply inclb_incl in Hs2. apply dictGet_In in Ek.
  destruct (conf (strategyValue s)) as [|[m|? ? ? ?] sets] eqn:Ec; try discriminate.
  destruct (dictGet m (methods cls)) as [cpp|] eqn:Em; [|discriminate].
  apply andb_prop in Hs3. destruct Hs3 as [Hcpp Hp]. apply pyEq_eq in Hcpp. subst cpp.
  apply permb_perm in Hp. apply map_perm_statements in Hp. destruct Hp as [l' [El Hp]]. subst sets.
  unfold configure.
  assert (Hlen : (0 <? List.length (supportedValues cls values)) = true).
  { apply Nat.ltb_lt. destruct (supportedValues cls values); [contradiction|]. simpl. lia. }
  rewrite Hlen.
  destruct (numOptions (supportedValues cls values) =? 0) eqn:En.
  - apply Nat.eqb_eq in En. pose proof (numOptions_zero _ _ _ En Ek) as Hk. subst keys.
    apply incl_nil in Hs2. apply map_nil in Hs2.
    destruct Hw as [[Ht Hps]|[Hne _]]; [|contradiction]. subst ps.
    unfold parseParam. assert (Hi : pyIn (toStr env v) (map fst (supportedValues cls values)) = true).
    { apply pyIn_In. rewrite Ht. apply (in_map fst) in Ek. exact Ek. }
    rewrite Hi. cbn [rbind]. rewrite Ht, Ec. cbn [execute]. rewrite Em.
    rewrite Hs2 in Hp. apply Permutation_sym in Hp. apply Permutation_nil in Hp. subst l'. cbn [map execute].
    split; [|split].
    + intros _ _. exists (before ++ [CallUse (strategyCpp s)]). split; auto. exists []. split; auto.
      rewrite Hs2. constructor.
    + intros [o [text [Hin _]]]. rewrite Hs2 in Hin. contradiction.
    + discriminate.
  - assert (Hsp : specifies (supportedValues cls values) (toStr env v) (strategyValue s) ps).
    { exists keys. split; auto. destruct Hw as [[Ht Hps]|[Hne [Hf [body [He Ht]]]]].
      - subst ps. split; [constructor|]. exists [], []. split; [constructor|]. split; [constructor|].
        left. split; auto. rewrite app_nil_r. exact Ht.
      - split.
        + eapply Forall_impl; [|exact Hf]. intros p Hpk. apply Hs2. exact Hpk.
        + exists [], []. split; [constructor|]. split; [constructor|]. right. exists body. split; auto. }
    destruct (parse_complete _ _ _ _ Hu Hsp) as [o [Hpo Ho]]. rewrite Hpo. cbn [rbind fst snd]. rewrite Ec.
    cbn [execute]. rewrite Em.
    split; [|split].
    + intros Hwt Hac. rewrite (execute_sets env cls o ps (strategyCpp s) l'); auto.
      * exists ((before ++ [CallUse (strategyCpp s)]) ++ map (callOf (strategyCpp s) ps) l'). split; auto.
        exists (map (callOf (strategyCpp s) ps) l'). split; [rewrite <- app_assoc; reflexivity|].
        apply (Permutation_map (intended s ps)). exact Hp.
      * intros d text Hd. apply Hwt. apply (Permutation_in d Hp). exact Hd.
      * intros b d Hd. apply Hac. apply (Permutation_in d Hp). exact Hd.
    + intros [d [text [Hin Hd]]]. apply (execute_bad env cls o ps); auto. exists d, text. split; auto.
      apply (Permutation_in d (Permutation_sym Hp)). exact Hin.
    + apply execute_no_attribute_error.
Qed.

(** Texts that are not documented are rejected. *)
Lemma undocumented_rejected :
  forall A (env : environment A) cls name values conf l v before,
    checkValues cls values l = true ->
    (forall x ps, ~ specifies (documentedValues l) (toStr env v) x ps) ->
    configure env cls before (Nominal name values conf) v = ValueError.
Proof.
  intros A env cls name values conf l v before Hc Hn. unfold checkValues in Hc.
  apply andb_prop in Hc. destruct Hc as [Hc Hc3]. apply andb_prop in Hc. destruct Hc as [Hu Hlen].
  unfold configure. rewrite Hlen. rewrite forallb_forall in Hc3.
  assert (Hsup : forall x keys, In (x, keys) (supportedValues cls values) ->
            exists keys', In (x, keys') (documentedValues l) /\ incl keys keys').
  { intros x keys Hin. specialize (Hc3 _ Hin). apply existsb_exists in Hc3. destruct Hc3 as [[x' keys'] [H1 H2]].
    apply andb_prop in H2. destruct H2 as [H2 H3]. apply pyEq_eq in H2. simpl in H2. subst x'.
    exists keys'. split; auto. apply inclb_incl. exact H3. }
  destruct (numOptions (supportedValues cls values) =? 0).
  - unfold parseParam. destruct (pyIn (toStr env v) (map fst (supportedValues cls values))) eqn:E; auto.
    exfalso. apply pyIn_In in E. apply in_map_iff in E. destruct E as [[x keys] [E1 E2]]. simpl in E1. subst x.
    destruct (Hsup _ _ E2) as [keys' [H1 _]]. apply (Hn (toStr env v) []). exists keys'. split; auto. split; [constructor|].
    exists [], []. split; [constructor|]. split; [constructor|]. left. rewrite app_nil_r. auto.
  - destruct (parseParamAndOptions (toStr env v) (supportedValues cls values)) as [[x o]| |] eqn:E; auto.
    + exfalso. destruct (parse_sound _ _ _ _ E) as [ps [[keys [H1 [H2 H3]]] _]].
      destruct (Hsup _ _ H1) as [keys' [H4 H5]]. apply (Hn x ps). exists keys'. split; auto. split; auto.
      eapply Forall_impl; [|exact H2]. intros p Hp. apply H5. exact Hp.
    + exfalso. apply (parse_no_attribute_error _ _ E).
Qed.

(** ** Whole rule learners *)

Fixpoint findParameter (name : pystr) (l : list parameter) : option parameter :=
  match l with
  | [] => None
  | p :: l' => if pyEq (nameOf p) name then Some p else findParameter name l'
  end.

Lemma findParameter_In : forall name l p, findParameter name l = Some p -> In p l /\ nameOf p = name.
Proof.
  intros name l p. induction l as [|x l IH]; simpl; intro H; [discriminate|].
  destruct (pyEq (nameOf x) name) eqn:E.
  - injection H as H. subst. apply pyEq_eq in E. auto.
  - destruct (IH H) as [H1 H2]. auto.
Qed.

Definition isException (exceptions : list (pystr * pystr)) (name v : pystr) : bool :=
  existsb (fun e => pyEq (fst e) name && pyEq (snd e) v) exceptions.

Lemma isException_In : forall exceptions name v,
  isException exceptions name v = true -> In (name, v) exceptions.
Proof.
  intros exceptions name v H. apply existsb_exists in H. destruct H as [[a b] [H1 H2]]. apply andb_prop in H2.
  destruct H2 as [H2 H3]. apply pyEq_eq in H2. apply pyEq_eq in H3. simpl in *. subst. exact H1.
Qed.

Definition checkParameter (cls : learnerClass) (exceptions : list (pystr * pystr)) (d : pystr * list strategy) : bool :=
  forallb (fun s => isException exceptions (fst d) (strategyValue s)) (snd d) ||
  (pyIn (fst d) (attributes cls) &&
   match findParameter (fst d) (parametersOf cls) with
   | Some (Nominal _ values conf) =>
       checkValues (configOf cls) values (snd d) &&
       forallb (fun s => isException exceptions (fst d) (strategyValue s) ||
                         checkStrategy (configOf cls) values conf s) (snd d)
   | _ => false
   end).

Definition checkLearner (cls : learnerClass) (exceptions : list (pystr * pystr)) (d : documentation) : bool :=
  nodupb (map nameOf (parametersOf cls)) && nodupb (attributes cls) && forallb (checkParameter cls exceptions) d.

Lemma learner_works : forall cls exceptions d, checkLearner cls exceptions d = true ->
  nominalParametersWork cls exceptions d.
Proof.
  intros cls exceptions d Hc A env name strategies s v ps before Hin Hs He Hw.
  unfold checkLearner in Hc. apply andb_prop in Hc. destruct Hc as [_ Hc]. rewrite forallb_forall in Hc.
  specialize (Hc _ Hin). unfold checkParameter in Hc. cbn [fst snd] in Hc. apply orb_prop in Hc.
  destruct Hc as [Hc|Hc].
  - exfalso. rewrite forallb_forall in Hc. specialize (Hc _ Hs). apply He. apply isException_In. exact Hc.
  - apply andb_prop in Hc. destruct Hc as [Ha Hc]. split; [apply pyIn_In; exact Ha|].
    destruct (findParameter name (parametersOf cls)) as [[n values conf|n k m ne u se]|] eqn:Ef; try discriminate.
    apply findParameter_In in Ef. destruct Ef as [Ef1 Ef2].
    apply andb_prop in Hc. destruct Hc as [Hv Hc]. rewrite forallb_forall in Hc. specialize (Hc _ Hs).
    apply orb_prop in Hc. destruct Hc as [Hc|Hc]; [exfalso; apply He; apply isException_In; exact Hc|].
    unfold checkValues in Hv. apply andb_prop in Hv. destruct Hv as [Hv _]. apply andb_prop in Hv. destruct Hv as [Hv _].
    exists (Nominal n values conf). split; auto. split; auto.
    destruct (strategy_configured A env (configOf cls) n values conf s v ps before Hv Hc Hw) as [H1 [H3 H4]].
    auto.
Qed.

Lemma nodup_name : forall (l : list parameter) p q, NoDup (map nameOf l) -> In p l -> In q l ->
  nameOf p = nameOf q -> p = q.
Proof.
  induction l as [|x l IH]; intros p q Hnd Hp Hq E; [contradiction|].
  simpl in Hnd. inversion Hnd as [|y m Hni Hnd2]; subst. destruct Hp as [Hp|Hp]; destruct Hq as [Hq|Hq]; subst; auto.
  - exfalso. apply Hni. rewrite E. apply in_map. exact Hq.
  - exfalso. apply Hni. rewrite <- E. apply in_map. exact Hp.
Qed.

Lemma learner_rejects : forall cls exceptions d, checkLearner cls exceptions d = true ->
  (forall name strategies, In (name, strategies) d -> findParameter name (parametersOf cls) <> None ->
     pyIn name (attributes cls) = true /\
     exists n values conf, findParameter name (parametersOf cls) = Some (Nominal n values conf) /\
       checkValues (configOf cls) values strategies = true) ->
  undocumentedRejected cls d.
Proof.
  intros cls exceptions d Hc Hd A env name strategies v before p Hin Hp Hn Hs.
  unfold checkLearner in Hc. apply andb_prop in Hc. destruct Hc as [Hc _]. apply andb_prop in Hc. destruct Hc as [Hc _].
  apply nodupb_NoDup in Hc.
  destruct (findParameter name (parametersOf cls)) as [q|] eqn:Ef.
  - destruct (Hd _ _ Hin) as [_ [n [values [conf [E1 E2]]]]]; [congruence|].
    assert (q = Nominal n values conf) by congruence. subst q.
    apply findParameter_In in Ef. destruct Ef as [F1 F2].
    assert (p = Nominal n values conf) by (apply (nodup_name (parametersOf cls)); auto; congruence). subst p.
    apply (undocumented_rejected A env (configOf cls) n values conf strategies); auto.
  - exfalso. clear Hd. induction (parametersOf cls) as [|x l IH]; [contradiction|].
    simpl in Ef. destruct (pyEq (nameOf x) name) eqn:E; [discriminate|]. destruct Hp as [Hp|Hp].
    + subst x. rewrite Hn, pyEq_refl in E. discriminate.
    + apply IH; auto. simpl in Hc. inversion Hc; auto.
Qed.

Lemma classifier_check : checkLearner boomerClassifier defectsOfClassifier documentedForClassifier = true.
Proof. vm_compute. reflexivity. Qed.

Lemma regressor_check : checkLearner boomerRegressor defectsOfRegressor documentedForRegressor = true.
Proof. vm_compute. reflexivity. Qed.

Lemma seco_check : checkLearner secoClassifier defectsOfSeCo documentedForSeCo = true.
Proof. vm_compute. reflexivity. Qed.

Lemma nominal_parameters_work :
  nominalParametersWork boomerClassifier defectsOfClassifier documentedForClassifier /\
  nominalParametersWork boomerRegressor defectsOfRegressor documentedForRegressor /\
  nominalParametersWork secoClassifier defectsOfSeCo documentedForSeCo.
Proof.
  split; [|split]; apply learner_works; [exact classifier_check|exact regressor_check|exact seco_check].
Qed.

(** Like [checkParameter], but without exceptions. *)
Definition checkRejects (cls : learnerClass) (d : pystr * list strategy) : bool :=
  match findParameter (fst d) (parametersOf cls) with
  | None => true
  | Some (Nominal _ values _) => pyIn (fst d) (attributes cls) && checkValues (configOf cls) values (snd d)
  | Some _ => false
  end.

Lemma checkRejects_spec : forall cls d, forallb (checkRejects cls) d = true ->
  forall name strategies, In (name, strategies) d -> findParameter name (parametersOf cls) <> None ->
     pyIn name (attributes cls) = true /\
     exists n values conf, findParameter name (parametersOf cls) = Some (Nominal n values conf) /\
       checkValues (configOf cls) values strategies = true.
Proof.
  intros cls d H name strategies Hin Hf. rewrite forallb_forall in H. specialize (H _ Hin).
  unfold checkRejects in H. cbn [fst snd] in H.
  destruct (findParameter name (parametersOf cls)) as [[n values conf|n k m ne u se]|]; [|discriminate|contradiction].
  apply andb_prop in H. destruct H as [H1 H2]. split; auto. exists n, values, conf. auto.
Qed.

Lemma undocumented_texts_rejected :
  undocumentedRejected boomerClassifier documentedForClassifier /\
  undocumentedRejected boomerRegressor documentedForRegressor /\
  undocumentedRejected secoClassifier documentedForSeCo.
Proof.
  split; [|split].
  - apply (learner_rejects _ _ _ classifier_check). apply checkRejects_spec. vm_compute. reflexivity.
  - apply (learner_rejects _ _ _ regressor_check). apply checkRejects_spec. vm_compute. reflexivity.
  - apply (learner_rejects _ _ _ seco_check). apply checkRejects_spec. vm_compute. reflexivity.
Qed.

(** The values of all parameters can be distinguished. *)
Lemma parameters_unambiguous :
  forall cls p, In cls [boomerClassifier; boomerRegressor; secoClassifier] -> In p (parametersOf cls) ->
    unambiguous (supportedValues (configOf cls) (valuesOf p)).
Proof.
  intros cls p Hc Hp. apply unambiguousb_spec. revert p Hp. apply forallb_forall.
  simpl in Hc. destruct Hc as [Hc|[Hc|[Hc|[]]]]; subst cls; vm_compute; reflexivity.
Qed.

(** ** The configuration of a whole rule learner *)

Lemma execute_extends : forall {A} (env : environment A) cls opts l conf before calls,
  execute env cls opts conf before l = Ok calls -> exists new, calls = before ++ new.
Proof.
  intros A env cls opts l. induction l as [|[m|s k x g] l IH]; intros conf before calls H; simpl in H.
  - injection H as H. exists []. rewrite app_nil_r. auto.
  - destruct (dictGet m (methods cls)) as [cpp|]; [|discriminate]. destruct (IH _ _ _ H) as [new E].
    exists (CallUse cpp :: new). rewrite E, <- app_assoc. reflexivity.
  - destruct opts as [o|]; [|discriminate].
    destruct (dictGet x o) as [t|].
    + destruct (convertible env k t); simpl in H; [|discriminate].
      destruct (accepts env before _); [|discriminate]. destruct (IH _ _ _ H) as [new E].
      eexists. rewrite E, <- app_assoc. reflexivity.
    + simpl in H. destruct (accepts env before _); [|discriminate]. destruct (IH _ _ _ H) as [new E].
      eexists. rewrite E, <- app_assoc. reflexivity.
Qed.

Lemma configure_extends : forall {A} (env : environment A) cls before p v calls,
  configure env cls before p v = Ok calls -> exists new, calls = before ++ new.
Proof.
  intros A env cls before p v calls H. destruct p as [n values conf|n k m ne u se]; unfold configure in H.
  - destruct (0 <? List.length _).
    + destruct (numOptions _ =? 0).
      * destruct (parseParam _ _) as [x| |]; simpl in H; try discriminate. apply (execute_extends _ _ _ _ _ _ _ H).
      * destruct (parseParamAndOptions _ _) as [[x o]| |]; simpl in H; try discriminate.
        apply (execute_extends _ _ _ _ _ _ _ H).
    + injection H as H. exists []. rewrite app_nil_r. auto.
  - destruct (pyIn m (mixins cls)).
    + destruct (match k with GetInt => toInt env v | _ => toFloat env v end) as [q|]; [|discriminate].
      destruct (match ne with Some (n0, noMixin, noUse) => _ | None => None end) as [noUse|].
      * apply (execute_extends _ _ _ _ _ _ _ H).
      * destruct (dictGet u (methods cls)) as [cpp|]; [|discriminate].
        destruct (accepts env _ _); [|discriminate]. injection H as H. subst. eexists. rewrite <- app_assoc. reflexivity.
    + injection H as H. exists []. rewrite app_nil_r. auto.
Qed.

Lemma rule_learner_blocks :
  forall A (env : environment A) cls learner parameters before calls,
    configureRuleLearner env cls learner before parameters = Ok calls ->
    exists blocks, calls = before ++ List.concat (map snd blocks) /\ map fst blocks = parameters /\
      forall i p block, nth_error blocks i = Some (p, block) ->
        let earlier := before ++ List.concat (map snd (firstn i blocks)) in
        match dictGet (nameOf p) learner with
        | Some (Some v) => configure env cls earlier p v = Ok (earlier ++ block)
        | _ => block = []
        end.
Proof.
  intros A env cls learner parameters. induction parameters as [|p l IH]; intros before calls H; simpl in H.
  - injection H as H. exists []. simpl. rewrite app_nil_r. split; auto. split; auto.
    intros [|i] q block Hi; discriminate.
  - assert (K : exists block, (match dictGet (nameOf p) learner with
               | Some (Some v) => configure env cls before p v = Ok (before ++ block)
               | _ => block = []
               end) /\ configureRuleLearner env cls learner (before ++ block) l = Ok calls).
    { destruct (dictGet (nameOf p) learner) as [[v|]|].
      - destruct (configure env cls before p v) as [c| |] eqn:E; simpl in H; try discriminate.
        destruct (configure_extends env cls before p v c E) as [new En]. subst c. exists new. auto.
      - exists []. rewrite app_nil_r. auto.
      - exists []. rewrite app_nil_r. auto. }
    destruct K as [block [K1 K2]]. destruct (IH _ _ K2) as [blocks [H1 [H2 H3]]].
    exists ((p, block) :: blocks). simpl. split; [rewrite H1, <- app_assoc; reflexivity|]. split; [congruence|].
    intros [|i] q b Hi.
    + simpl in Hi. injection Hi as Hq Hb. subst q b. simpl. rewrite app_nil_r. exact K1.
    + simpl in Hi. specialize (H3 i q b Hi). simpl. rewrite app_assoc. exact H3.
Qed.

Lemma rule_learner_fails :
  forall A (env : environment A) cls learner parameters before p v,
    In p parameters -> dictGet (nameOf p) learner = Some (Some v) ->
    (forall b, configure env cls b p v = ValueError) ->
    forall calls, configureRuleLearner env cls learner before parameters <> Ok calls.
Proof.
  intros A env cls learner parameters before p v Hin Hv He calls H.
  destruct (rule_learner_blocks A env cls learner parameters before calls H) as [blocks [_ [H2 H3]]].
  rewrite <- H2 in Hin. apply in_map_iff in Hin. destruct Hin as [[p' block] [E Hin]]. simpl in E. subst p'.
  apply In_nth_error in Hin. destruct Hin as [i Hi]. specialize (H3 i p block Hi). simpl in H3.
  rewrite Hv, He in H3. discriminate.
Qed.

Lemma dictGet_createLearner : forall {A} (f : pystr -> option A) l name, In name l ->
  dictGet name (map (fun a => (a, f a)) l) = Some (f name).
Proof.
  intros A f l name. induction l as [|a l IH]; simpl; intro H; [contradiction|].
  destruct (pyEq a name) eqn:E.
  - apply pyEq_eq in E. subst. reflexivity.
  - apply IH. destruct H as [H|H]; auto. subst. rewrite pyEq_refl in E. discriminate.
Qed.

Lemma learner_configured : forall cls exceptions d, NoDup (map nameOf (parametersOf cls)) ->
  nominalParametersWork cls exceptions d -> learnerConfigured cls exceptions d.
Proof.
  intros cls exceptions d Hnd Hw A env defaults arguments learner order calls Hl Ho Hc
    name strategies s v ps Hin Hs He Hv Hwr Ha.
  unfold configureLearner in Hc. unfold createLearner in Hl.
  destruct (forallb _ arguments); [|discriminate]. injection Hl as Hl.
  destruct (Hw A env name strategies s v ps [] Hin Hs He Hwr) as [Hat [p [Hp [Hn _]]]].
  assert (Hg : dictGet (nameOf p) learner = Some (Some v)).
  { subst learner. rewrite Hn.
    rewrite (dictGet_createLearner (fun a => match dictGet a arguments with Some w => Some w | None => defaults a end));
      auto. rewrite Hv. reflexivity. }
  destruct (rule_learner_blocks A env (configOf cls) learner order [] calls Hc) as [blocks [H1 [H2 H3]]].
  assert (Hpo : In p order) by (apply (Permutation_in p (Permutation_sym Ho)); exact Hp).
  rewrite <- H2 in Hpo. apply in_map_iff in Hpo. destruct Hpo as [[p' block] [E Hb]]. simpl in E. subst p'.
  apply In_nth_error in Hb. destruct Hb as [i Hi]. pose proof (H3 i p block Hi) as Hconf. simpl in Hconf.
  rewrite Hg in Hconf. set (earlier := List.concat (map snd (firstn i blocks))) in *.
  destruct (Hw A env name strategies s v ps earlier Hin Hs He Hwr) as [_ [p2 [Hp2 [Hn2 [W1 [W2 _]]]]]].
  assert (p2 = p) by (apply (nodup_name (parametersOf cls)); auto; congruence). subst p2.
  assert (Hwt : wellTyped env s ps).
  { intros o text Hoin Hot. destruct (convertible env (optionKind o) text) eqn:Ec; auto. exfalso.
    assert (K : configure env (configOf cls) earlier p v = ValueError) by (apply W2; exists o, text; auto).
    rewrite K in Hconf. discriminate. }
  split; auto. destruct (W1 Hwt Ha) as [cs [K1 K2]]. rewrite K1 in Hconf. injection Hconf as Hconf. subst cs.
  destruct (nth_error_split blocks i Hi) as [b1 [b2 [Eb El]]].
  exists earlier, block, (List.concat (map snd b2)). split; auto.
  rewrite H1. simpl. subst earlier. rewrite Eb at 1. rewrite Eb. rewrite map_app, concat_app. simpl.
  rewrite firstn_app. replace (i - List.length b1) with 0 by lia. simpl. rewrite app_nil_r.
  rewrite <- El, firstn_all. reflexivity.
Qed.

Lemma learners_configured :
  learnerConfigured boomerClassifier defectsOfClassifier documentedForClassifier /\
  learnerConfigured boomerRegressor defectsOfRegressor documentedForRegressor /\
  learnerConfigured secoClassifier defectsOfSeCo documentedForSeCo.
Proof.
  destruct nominal_parameters_work as [H1 [H2 H3]].
  split; [|split]; apply learner_configured; auto; apply nodupb_NoDup; vm_compute; reflexivity.
Qed.

(** ** Refutations *)

Lemma automatic_values_rejected :
  forall A (env : environment A) v before cls name,
    In cls [boomerClassifier; boomerRegressor] ->
    In name [str "holdout"; str "head_type"; str "parallel_rule_refinement"; str "parallel_statistic_update"] ->
    toStr env v = str "auto" ->
    exists p, In p (parametersOf cls) /\ nameOf p = name /\ configure env (configOf cls) before p v = ValueError.
Proof.
  intros A env v before cls name Hc Hn Hv.
  assert (K : exists p, findParameter name (parametersOf cls) = Some p /\ exists n values conf, p = Nominal n values conf /\
     (0 <? List.length (supportedValues (configOf cls) values)) = true /\
     (numOptions (supportedValues (configOf cls) values) =? 0) = false /\
     parseParamAndOptions (str "auto") (supportedValues (configOf cls) values) = ValueError).
  { simpl in Hc, Hn. destruct Hc as [Hc|[Hc|[]]]; subst cls;
      destruct Hn as [Hn|[Hn|[Hn|[Hn|[]]]]]; subst name; eexists; (split; [vm_compute; reflexivity|]);
      eexists; eexists; eexists; (split; [reflexivity|]); vm_compute; auto. }
  destruct K as [p [Hf [n [values [conf [E [K1 [K2 K3]]]]]]]]. apply findParameter_In in Hf. destruct Hf as [F1 F2].
  exists p. split; auto. split; auto. subst p. unfold configure. rewrite K1, K2, Hv, K3. reflexivity.
Qed.

Lemma binary_predictor_ignored :
  forall A (env : environment A) v before, toStr env v = str "auto" ->
    exists p, In p (parametersOf boomerClassifier) /\ nameOf p = str "binary_predictor" /\
      configure env (configOf boomerClassifier) before p v =
        Ok (before ++ [CallUse (str "useOutputWiseBinaryPredictor")]).
Proof.
  intros A env v before Hv.
  assert (K : exists p, findParameter (str "binary_predictor") (parametersOf boomerClassifier) = Some p /\
     exists n values conf, p = Nominal n values conf /\
     (0 <? List.length (supportedValues (configOf boomerClassifier) values)) = true /\
     (numOptions (supportedValues (configOf boomerClassifier) values) =? 0) = false /\
     parseParamAndOptions (str "auto") (supportedValues (configOf boomerClassifier) values) = Ok (str "auto", []) /\
     conf (str "auto") = [UseMethod (str "use_automatic_binary_predictor")]).
  { eexists. split; [vm_compute; reflexivity|]. eexists. eexists. eexists. split; [reflexivity|]. vm_compute. auto. }
  destruct K as [p [Hf [n [values [conf [E [K1 [K2 [K3 K4]]]]]]]]]. apply findParameter_In in Hf.
  destruct Hf as [F1 F2]. exists p. split; auto. split; auto. subst p. unfold configure. rewrite K1, K2, Hv, K3.
  cbn [rbind fst snd]. rewrite K4. reflexivity.
Qed.

Lemma seco_holdout_rejected :
  forall A (env : environment A) v before, toStr env v = str "auto" ->
    exists p, In p (parametersOf secoClassifier) /\ nameOf p = str "holdout" /\
      configure env (configOf secoClassifier) before p v = ValueError.
Proof.
  intros A env v before Hv.
  assert (K : exists p, findParameter (str "holdout") (parametersOf secoClassifier) = Some p /\
     exists n values conf, p = Nominal n values conf /\
     (0 <? List.length (supportedValues (configOf secoClassifier) values)) = true /\
     (numOptions (supportedValues (configOf secoClassifier) values) =? 0) = false /\
     parseParamAndOptions (str "auto") (supportedValues (configOf secoClassifier) values) = ValueError).
  { eexists. split; [vm_compute; reflexivity|]. eexists. eexists. eexists. split; [reflexivity|]. vm_compute. auto. }
  destruct K as [p [Hf [n [values [conf [E [K1 [K2 K3]]]]]]]]. apply findParameter_In in Hf.
  destruct Hf as [F1 F2]. exists p. split; auto. split; auto. subst p. unfold configure. rewrite K1, K2, Hv, K3.
  reflexivity.
Qed.

Lemma seco_default_rule_missing :
  forall A (v : A) defaults arguments, createLearner secoClassifier defaults ((str "default_rule", v) :: arguments) = None.
Proof.
  intros A v defaults arguments. unfold createLearner. cbn [forallb fst]. reflexivity. Qed.

(** A simple environment. *)
Definition textEnvironment : environment pystr :=
  mkEnvironment pystr (fun _ => true) (fun _ => true) (fun t => t) (fun _ => None) (fun _ => None) (fun _ _ => true).

Lemma auto_refutes : forall cls d exceptions strategies s,
  checkLearner cls exceptions d = true ->
  In (str "holdout", strategies) d -> In s strategies -> strategyValue s = str "auto" -> strategyOptions s = [] ->
  (exists p, In p (parametersOf cls) /\ nameOf p = str "holdout" /\
     configure textEnvironment (configOf cls) [] p (str "auto") = ValueError) ->
  ~ nominalParametersWork cls [] d.
Proof.
  intros cls d exceptions strategies s Hc Hd Hs Hv Ho [p [Hp [Hn He]]] H.
  destruct (H pystr textEnvironment (str "holdout") strategies s (str "auto") [] [] Hd Hs) as [_ [q [Hq [Hqn [Hok _]]]]].
  - intros [].
  - left. split; auto.
  - unfold checkLearner in Hc. apply andb_prop in Hc. destruct Hc as [Hc _]. apply andb_prop in Hc. destruct Hc as [Hc _].
    apply nodupb_NoDup in Hc.
    assert (q = p) by (apply (nodup_name (parametersOf cls)); auto; congruence). subst q.
    destruct Hok as [calls [K _]].
    + intros o text Hin. rewrite Ho in Hin. contradiction.
    + intros b o Hin. rewrite Ho in Hin. contradiction.
    + rewrite He in K. discriminate.
Qed.

(** The strategies that are documented for a parameter. *)
Definition lookupDoc (name : pystr) (d : documentation) : list strategy :=
  match dictGet name d with Some l => l | None => [] end.

Lemma documented_values_refuted :
  ~ nominalParametersWork boomerClassifier [] documentedForClassifier /\
  ~ nominalParametersWork boomerRegressor [] documentedForRegressor /\
  ~ nominalParametersWork secoClassifier [] documentedForSeCo.
Proof.
  split; [|split].
  - apply (auto_refutes _ _ _ (lookupDoc (str "holdout") documentedForClassifier)
      (nth 1 (lookupDoc (str "holdout") documentedForClassifier) (mkStrategy [] [] [])) classifier_check);
      try reflexivity.
    + apply dictGet_In. vm_compute. reflexivity.
    + right. left. reflexivity.
    + apply automatic_values_rejected; simpl; auto.
  - apply (auto_refutes _ _ _ (lookupDoc (str "holdout") documentedForRegressor)
      (nth 1 (lookupDoc (str "holdout") documentedForRegressor) (mkStrategy [] [] [])) regressor_check);
      try reflexivity.
    + apply dictGet_In. vm_compute. reflexivity.
    + right. left. reflexivity.
    + apply automatic_values_rejected; simpl; auto.
  - apply (auto_refutes _ _ _ (lookupDoc (str "holdout") documentedForSeCo)
      (nth 1 (lookupDoc (str "holdout") documentedForSeCo) (mkStrategy [] [] [])) seco_check);
      try reflexivity.
    + apply dictGet_In. vm_compute. reflexivity.
    + right. left. reflexivity.
    + apply seco_holdout_rejected. reflexivity.
Qed.

(** ** Numerical parameters *)

Definition checkNumber (cls : learnerClass) (d : documentedNumber) : bool :=
  pyIn (numberName d) (attributes cls) &&
  match findParameter (numberName d) (parametersOf cls) with
  | Some (Numerical _ k mixin neutral use setter) =>
      kindEq k (numberKind d) && pyIn mixin (mixins (configOf cls)) && pyEq setter (numberSetter d) &&
      match dictGet use (methods (configOf cls)) with Some cpp => pyEq cpp (numberCpp d) | None => false end &&
      match numberOff d, neutral with
      | Some (q, cpp), Some (q', noMixin, noUse) =>
          Qeq_bool q q' && pyIn noMixin (mixins (configOf cls)) &&
          match dictGet noUse (methods (configOf cls)) with Some cpp' => pyEq cpp' cpp | None => false end
      | None, None => true
      | _, _ => false
      end
  | _ => false
  end.

Lemma number_works : forall cls d, checkNumber cls d = true -> numberWorks cls d.
Proof.
  intros cls d H. unfold checkNumber in H. apply andb_prop in H. destruct H as [Ha H]. apply pyIn_In in Ha.
  destruct (findParameter (numberName d) (parametersOf cls)) as [[n values conf|n k mixin neutral use setter]|] eqn:Ef;
    try discriminate.
  apply andb_prop in H. destruct H as [H H5]. apply andb_prop in H. destruct H as [H H4].
  apply andb_prop in H. destruct H as [H H3]. apply andb_prop in H. destruct H as [H1 H2].
  apply findParameter_In in Ef. destruct Ef as [F1 F2].
  assert (Hk : k = numberKind d) by (destruct k, (numberKind d); try discriminate; reflexivity).
  apply pyEq_eq in H3. subst setter.
  destruct (dictGet use (methods (configOf cls))) as [cpp|] eqn:Eu; [|discriminate]. apply pyEq_eq in H4. subst cpp.
  intros A env v before. split; auto. exists (Numerical n k mixin neutral use (numberSetter d)).
  split; auto. split; auto. unfold configure. rewrite H2. rewrite <- Hk. unfold convertNumber.
  split; [|split].
  - intros q Hq Hacc. rewrite Hq. unfold appliedNumber.
    destruct (numberOff d) as [[n0 cpp]|]; destruct neutral as [[[n1 noMixin] noUse]|]; try discriminate.
    + apply andb_prop in H5. destruct H5 as [H5 H7]. apply andb_prop in H5. destruct H5 as [H5 H6].
      apply Qeq_bool_iff in H5.
      destruct (dictGet noUse (methods (configOf cls))) as [cpp'|] eqn:En; [|discriminate].
      apply pyEq_eq in H7. subst cpp'. rewrite H6.
      destruct (Qeq_bool q n1) eqn:Eq; cbn [andb].
      * apply Qeq_bool_iff in Eq. cbn [execute]. rewrite En. eexists. split; [reflexivity|].
        left. split; auto. rewrite Eq, H5. reflexivity.
      * rewrite Eu. rewrite Hacc. eexists. split; [reflexivity|]. right. split.
        -- intro K. rewrite K, H5 in Eq. rewrite Qeq_bool_refl in Eq. discriminate.
        -- rewrite <- app_assoc. reflexivity.
    + rewrite Eu. rewrite Hacc. eexists. split; [reflexivity|]. rewrite <- app_assoc. reflexivity.
  - intro Hq. rewrite Hq. reflexivity.
  - destruct (match k with GetInt => toInt env v | _ => toFloat env v end) as [q|]; [|discriminate].
    destruct (match neutral with Some (n0, noMixin, noUse) => _ | None => None end) as [noUse|] eqn:Et.
    + destruct neutral as [[[n1 noMixin] noUse']|]; [|discriminate].
      destruct (Qeq_bool q n1 && pyIn noMixin (mixins (configOf cls))); [|discriminate]. injection Et as Et. subst noUse'.
      destruct (numberOff d) as [[n0 cpp]|]; [|discriminate]. apply andb_prop in H5. destruct H5 as [_ H5].
      cbn [execute]. destruct (dictGet noUse (methods (configOf cls))); [discriminate|discriminate].
    + rewrite Eu. destruct (accepts env _ _); discriminate.
Qed.

Lemma numbers_work :
  (forall d, In d documentedNumbersOfBoomer -> numberWorks boomerClassifier d) /\
  (forall d, In d documentedNumbersOfBoomer -> numberName d <> str "random_state" -> numberWorks boomerRegressor d) /\
  (forall d, In d documentedNumbers -> numberWorks secoClassifier d).
Proof.
  split; [|split].
  - intros d Hd. apply number_works. revert d Hd. apply forallb_forall. vm_compute. reflexivity.
  - intros d Hd Hn. apply number_works.
    assert (K : forall x, In x documentedNumbersOfBoomer ->
              (pyEq (numberName x) (str "random_state") || checkNumber boomerRegressor x) = true)
      by (apply forallb_forall; vm_compute; reflexivity).
    specialize (K d Hd). rewrite pyEq_neq in K by exact Hn. exact K.
  - intros d Hd. apply number_works. revert d Hd. apply forallb_forall. vm_compute. reflexivity.
Qed.

Lemma execute_uses : forall {A} (env : environment A) cls opts l conf before calls c,
  execute env cls opts conf before l = Ok calls -> In (CallUse c) calls ->
  In (CallUse c) before \/ In c (map snd (methods cls)).
Proof.
  intros A env cls opts l. induction l as [|[m|s k x g] l IH]; intros conf before calls c H Hin; simpl in H.
  - injection H as H. subst. auto.
  - destruct (dictGet m (methods cls)) as [cpp|] eqn:E; [|discriminate].
    destruct (IH _ _ _ _ H Hin) as [K|K]; auto. apply in_app_or in K. destruct K as [K|[K|[]]]; auto.
    injection K as K. subst. right. apply dictGet_In in E. apply (in_map snd) in E. exact E.
  - destruct opts as [o|]; [|discriminate].
    destruct (dictGet x o) as [t|].
    + destruct (convertible env k t); simpl in H; [|discriminate].
      destruct (accepts env before _); [|discriminate].
      destruct (IH _ _ _ _ H Hin) as [K|K]; auto. apply in_app_or in K. destruct K as [K|[K|[]]]; auto. discriminate.
    + simpl in H. destruct (accepts env before _); [|discriminate].
      destruct (IH _ _ _ _ H Hin) as [K|K]; auto. apply in_app_or in K. destruct K as [K|[K|[]]]; auto. discriminate.
Qed.

Lemma configure_uses : forall {A} (env : environment A) cls before p v calls c,
  configure env cls before p v = Ok calls -> In (CallUse c) calls ->
  In (CallUse c) before \/ In c (map snd (methods cls)).
Proof.
  intros A env cls before p v calls c H Hin. destruct p as [n values conf|n k m ne u se]; unfold configure in H.
  - destruct (0 <? List.length _).
    + destruct (numOptions _ =? 0).
      * destruct (parseParam _ _) as [x| |]; simpl in H; try discriminate.
        apply (execute_uses _ _ _ _ _ _ _ _ H Hin).
      * destruct (parseParamAndOptions _ _) as [[x o]| |]; simpl in H; try discriminate.
        apply (execute_uses _ _ _ _ _ _ _ _ H Hin).
    + injection H as H. subst. auto.
  - destruct (pyIn m (mixins cls)).
    + destruct (match k with GetInt => toInt env v | _ => toFloat env v end) as [q|]; [|discriminate].
      destruct (match ne with Some (n0, noMixin, noUse) => _ | None => None end) as [noUse|].
      * apply (execute_uses _ _ _ _ _ _ _ _ H Hin).
      * destruct (dictGet u (methods cls)) as [cpp|] eqn:E; [|discriminate].
        destruct (accepts env _ _); [|discriminate]. injection H as H. subst.
        apply in_app_or in Hin. destruct Hin as [Hin|[Hin|[]]]; [|discriminate].
        apply in_app_or in Hin. destruct Hin as [Hin|[Hin|[]]]; auto. injection Hin as Hin. subst.
        right. apply dictGet_In in E. apply (in_map snd) in E. exact E.
    + injection H as H. subst. auto.
Qed.

Lemma rule_learner_uses : forall {A} (env : environment A) cls learner l before calls c,
  configureRuleLearner env cls learner before l = Ok calls -> In (CallUse c) calls ->
  In (CallUse c) before \/ In c (map snd (methods cls)).
Proof.
  intros A env cls learner l. induction l as [|p l IH]; intros before calls c H Hin; simpl in H.
  - injection H as H. subst. auto.
  - destruct (dictGet (nameOf p) learner) as [[v|]|]; simpl in H; try (apply (IH _ _ _ H Hin)).
    destruct (configure env cls before p v) as [cs| |] eqn:E; simpl in H; try discriminate.
    destruct (IH _ _ _ H Hin) as [K|K]; auto. apply (configure_uses _ _ _ _ _ _ _ E K).
Qed.

Lemma rule_learner_ext : forall {A} (env : environment A) cls learner1 learner2 skip l before,
  (forall name, name <> skip -> dictGet name learner1 = dictGet name learner2) ->
  (forall p v b, In p l -> nameOf p = skip -> configure env cls b p v = Ok b) ->
  configureRuleLearner env cls learner1 before l = configureRuleLearner env cls learner2 before l.
Proof.
  intros A env cls learner1 learner2 skip l. induction l as [|p l IH]; intros before Hd Hs; simpl; auto.
  assert (Hs' : forall q v b, In q l -> nameOf q = skip -> configure env cls b q v = Ok b)
    by (intros q v b Hq; apply Hs; right; exact Hq).
  destruct (pyEq (nameOf p) skip) eqn:E.
  - apply pyEq_eq in E. assert (K : forall d : pydict (option A),
      (match dictGet (nameOf p) d with Some (Some v) => configure env cls before p v | _ => Ok before end) = Ok before).
    { intro d. destruct (dictGet (nameOf p) d) as [[v|]|]; auto. apply Hs; auto. left. reflexivity. }
    rewrite !K. simpl. apply IH; auto.
  - assert (Hn : nameOf p <> skip) by (intro K; rewrite K, pyEq_refl in E; discriminate).
    rewrite (Hd (nameOf p) Hn).
    destruct (match dictGet (nameOf p) learner2 with Some (Some v) => configure env cls before p v | _ => Ok before end);
      simpl; auto.
Qed.

Lemma dictGet_map_ext : forall {A} (f g : pystr -> option A) l name, (In name l -> f name = g name) ->
  dictGet name (map (fun a => (a, f a)) l) = dictGet name (map (fun a => (a, g a)) l).
Proof.
  intros A f g l name. induction l as [|a l IH]; simpl; intro H; auto.
  destruct (pyEq a name) eqn:E; auto. apply pyEq_eq in E. subst. rewrite H; auto.
Qed.

Lemma regressor_ignores_seed :
  forall A (env : environment A) defaults arguments learner order seed1 seed2,
    createLearner boomerRegressor defaults ((str "random_state", seed1) :: arguments) = Some learner ->
    Permutation order (parametersOf boomerRegressor) ->
    exists learner2,
      createLearner boomerRegressor defaults ((str "random_state", seed2) :: arguments) = Some learner2 /\
      configureLearner env boomerRegressor order learner2 = configureLearner env boomerRegressor order learner /\
      forall calls, configureLearner env boomerRegressor order learner = Ok calls -> ~ In (CallUse (str "useRNG")) calls.
Proof.
  intros A env defaults arguments learner order seed1 seed2 Hl Ho. unfold createLearner in *.
  cbn [forallb fst] in *.
  destruct (pyIn (str "random_state") (attributes boomerRegressor) &&
            forallb (fun a => pyIn (fst a) (attributes boomerRegressor)) arguments); [|discriminate].
  match type of Hl with Some ?x = Some ?y => assert (El : y = x) by congruence end. clear Hl.
  eexists. split; [reflexivity|].
  assert (Hskip : forall p, In p order -> nameOf p = str "random_state" -> p = randomStateParameter).
  { intros p Hp Hn. apply (Permutation_in p Ho) in Hp.
    apply (nodup_name (parametersOf boomerRegressor)); auto.
    - apply nodupb_NoDup. vm_compute. reflexivity.
    - left. reflexivity. }
  split.
  - unfold configureLearner. apply rule_learner_ext with (skip := str "random_state").
    + intros name Hn. rewrite El. clear El.
      refine (dictGet_map_ext
        (fun a => match dictGet a ((str "random_state", seed2) :: arguments) with
                  | Some v => Some v | None => defaults a end)
        (fun a => match dictGet a ((str "random_state", seed1) :: arguments) with
                  | Some v => Some v | None => defaults a end) _ name _).
      intros _. cbn [dictGet]. rewrite pyEq_neq by (intro K; apply Hn; symmetry; exact K). reflexivity.
    + intros p v b Hp Hn. rewrite (Hskip p Hp Hn). reflexivity.
  - intros calls Hc Hin. unfold configureLearner in Hc.
    destruct (rule_learner_uses _ _ _ _ _ _ _ Hc Hin) as [K|K]; [contradiction|].
    apply pyIn_In in K. vm_compute in K. discriminate.
Qed.

Lemma random_state_refuted :
  exists d, In d documentedNumbersOfBoomer /\ ~ numberWorks boomerRegressor d.
Proof.
  exists (mkNumber (str "random_state") GetInt None (str "useRNG") (str "set_random_state")).
  split; [left; reflexivity|]. intro H.
  destruct (H Q (mkEnvironment Q (fun _ => true) (fun _ => true) (fun _ => []) (fun q => Some q) (fun q => Some q)
    (fun _ _ => true)) 1%Q []) as [_ [p [Hp [Hn [Hok _]]]]].
  assert (p = randomStateParameter).
  { apply (nodup_name (parametersOf boomerRegressor)); auto.
    - apply nodupb_NoDup. vm_compute. reflexivity.
    - left. reflexivity. }
  subst p. destruct (Hok 1%Q eq_refl eq_refl) as [calls [K1 K2]]. vm_compute in K1. injection K1 as K1. subst calls.
  vm_compute in K2. discriminate.
Qed.
