(** * Proofs on the bracket notation *)

From Coq Require Import List Bool Ascii String PeanoNat Lia.
From Verif Require Import Model.Options Spec.Options.
Import ListNotations.

Lemma pyEq_eq : forall a b, pyEq a b = true <-> a = b.
Proof.
  induction a as [|c a IH]; intros [|d b]; simpl; split; intro H; try discriminate; auto.
  - apply andb_prop in H. destruct H as [H1 H2]. apply Ascii.eqb_eq in H1. apply IH in H2. congruence.
  - inversion H; subst. rewrite Ascii.eqb_refl. simpl. apply IH. reflexivity.
Qed.

Lemma pyEq_refl : forall a, pyEq a a = true.
Proof. intro. apply pyEq_eq. reflexivity. Qed.

Lemma pyEq_neq : forall a b, a <> b -> pyEq a b = false.
Proof. intros a b H. destruct (pyEq a b) eqn:E; auto. apply pyEq_eq in E. contradiction. Qed.

Lemma pyIn_In : forall x l, pyIn x l = true <-> In x l.
Proof.
  intros x l. unfold pyIn. rewrite existsb_exists. split.
  - intros [y [H1 H2]]. apply pyEq_eq in H2. congruence.
  - intro H. exists x. split; auto. apply pyEq_refl.
Qed.

Lemma dictGet_set : forall {V} k v (d : pydict V) x,
  dictGet x (dictSet k v d) = if pyEq k x then Some v else dictGet x d.
Proof.
  intros V k v d x. induction d as [|[k' v'] d IH]; simpl; auto.
  destruct (pyEq k' k) eqn:E; simpl.
  - apply pyEq_eq in E. subst k'. destruct (pyEq k x); reflexivity.
  - rewrite IH. destruct (pyEq k' x) eqn:E2; auto.
    destruct (pyEq k x) eqn:E3; auto.
    apply pyEq_eq in E2. apply pyEq_eq in E3. subst. rewrite pyEq_refl in E. discriminate.
Qed.

Lemma startsWith_spec : forall s p, startsWith s p = true <-> exists r, s = p ++ r.
Proof.
  intros s p. revert s. induction p as [|c p IH]; intros s; simpl.
  - split; intros _; [exists s; reflexivity|]. destruct s; reflexivity.
  - destruct s as [|d s].
    + split; [discriminate | intros [r H]; discriminate].
    + split; cbn [startsWith app].
      * intro H. apply andb_prop in H. destruct H as [H1 H2]. apply Ascii.eqb_eq in H1. apply IH in H2.
        destruct H2 as [r H2]. exists r. simpl. congruence.
      * intros [r H]. injection H as H1 H2. subst. rewrite Ascii.eqb_refl. apply IH. exists r. reflexivity.
Qed.

Lemma split_nosep : forall sep w, ~ In sep w -> split sep w = [w].
Proof.
  intros sep w. induction w as [|c w IH]; intro H; simpl; auto.
  destruct (Ascii.eqb c sep) eqn:E.
  - apply Ascii.eqb_eq in E. subst. exfalso. apply H. left. reflexivity.
  - rewrite IH; auto. intro K. apply H. right. exact K.
Qed.

Lemma split_cons : forall sep w r, ~ In sep w -> split sep (w ++ sep :: r) = w :: split sep r.
Proof.
  intros sep w r. induction w as [|c w IH]; intro H; simpl.
  - rewrite Ascii.eqb_refl. reflexivity.
  - destruct (Ascii.eqb c sep) eqn:E.
    + apply Ascii.eqb_eq in E. subst. exfalso. apply H. left. reflexivity.
    + rewrite IH; auto. intro K. apply H. right. exact K.
Qed.

(** The inverse of [split]. *)
Fixpoint join (sep : ascii) (l : list pystr) : pystr :=
  match l with
  | [] => []
  | [w] => w
  | w :: l' => w ++ sep :: join sep l'
  end.

Lemma split_not_nil : forall sep s, split sep s <> [].
Proof.
  intros sep s. destruct s as [|c s]; simpl; try discriminate.
  destruct (Ascii.eqb c sep); try discriminate. destruct (split sep s); discriminate.
Qed.

Lemma join_split : forall sep s, join sep (split sep s) = s /\ Forall (fun w => ~ In sep w) (split sep s).
Proof.
  intros sep s. induction s as [|c s [IH1 IH2]]; simpl.
  - split; auto.
  - destruct (Ascii.eqb c sep) eqn:E.
    + apply Ascii.eqb_eq in E. subst c. destruct (split sep s) as [|w ws] eqn:Es.
      * exfalso. apply (split_not_nil sep s). exact Es.
      * split; [|constructor; auto]. change (sep :: join sep (w :: ws) = sep :: s). rewrite IH1. reflexivity.
    + destruct (split sep s) as [|w ws] eqn:Es.
      * exfalso. apply (split_not_nil sep s). exact Es.
      * inversion IH2; subst. split.
        -- destruct ws; simpl in *; congruence.
        -- constructor; auto. intros [K|K].
           ++ subst. rewrite Ascii.eqb_refl in E. discriminate.
           ++ contradiction.
Qed.

Lemma split_pair : forall sep s a b,
  split sep s = [a; b] <-> s = a ++ sep :: b /\ ~ In sep a /\ ~ In sep b.
Proof.
  intros sep s a b. split.
  - intro H. destruct (join_split sep s) as [H1 H2]. rewrite H in H1, H2. simpl in H1.
    inversion H2 as [|x l Ha Hb]; subst. inversion Hb; subst. auto.
  - intros [H [Ha Hb]]. subst. rewrite split_cons; auto. rewrite split_nosep; auto.
Qed.

Lemma lastValue_app : forall k ps qs,
  lastValue k (ps ++ qs) = match lastValue k qs with Some v => Some v | None => lastValue k ps end.
Proof.
  intros k ps qs. induction ps as [|[k' v] ps IH]; simpl.
  - destruct (lastValue k qs); reflexivity.
  - rewrite IH. destruct (lastValue k qs); reflexivity.
Qed.

(** The dictionary [d'] results from the dictionary [d] by adding the key-value pairs [ps]. *)
Definition extends (ps : pairs) (d d' : options) : Prop :=
  forall k, dictGet k d' = match lastValue k ps with Some v => Some v | None => dictGet k d end.

Lemma extends_app : forall ps qs d d1 d2, extends ps d d1 -> extends qs d1 d2 -> extends (ps ++ qs) d d2.
Proof.
  intros ps qs d d1 d2 H1 H2 k. rewrite H2, lastValue_app. destruct (lastValue k qs); auto.
Qed.

Lemma length_pos : forall {A} (l : list A), (0 <? List.length l) = true <-> l <> [].
Proof. intros A [|a l]; simpl; split; intro H; try discriminate; auto. Qed.

Lemma length_zero : forall {A} (l : list A), (List.length l =? 0) = true <-> l = [].
Proof. intros A [|a l]; simpl; split; intro H; try discriminate; auto. Qed.

(** One iteration of the loop. *)
Definition step (allowed : list pystr) (e : pystr) (d : options) : result options :=
  createLoop allowed [e] d.

Lemma loop_step : forall allowed e es d,
  createLoop allowed (e :: es) d = (let? d' := step allowed e d in createLoop allowed es d').
Proof.
  intros allowed e es d. unfold step. simpl. destruct (0 <? List.length e); auto.
  destruct (split "=" e) as [|k [|v [|x l]]]; auto.
  destruct (List.length k =? 0); auto. destruct (negb (pyIn k allowed)); auto. destruct (List.length v =? 0); auto.
Qed.

Lemma element_nocomma : forall e ps, element e ps -> ~ In ","%char e.
Proof.
  intros e ps H. destruct H as [|k v [H1 [H2 H3]] [H4 [H5 H6]]]; intro K; auto.
  apply in_app_or in K. destruct K as [K|[K|K]]; try contradiction. discriminate.
Qed.

Lemma step_complete : forall allowed e ps d, element e ps -> Forall (fun p => In (fst p) allowed) ps ->
  exists d', step allowed e d = Ok d' /\ extends ps d d'.
Proof.
  intros allowed e ps d H Hk. destruct H as [|k v [Hk0 [Hk1 Hk2]] [Hv0 [Hv1 Hv2]]].
  - exists d. split; auto. intro k. reflexivity.
  - exists (dictSet k v d). split.
    + unfold step, createLoop.
      assert (E : (0 <? List.length (k ++ "="%char :: v)) = true).
      { apply length_pos. destruct k; discriminate. }
      rewrite E. assert (E2 : split "=" (k ++ "="%char :: v) = [k; v]) by (apply split_pair; auto).
      rewrite E2. destruct (List.length k =? 0) eqn:E3.
      { apply length_zero in E3. contradiction. }
      inversion Hk as [|p l Hin _]; subst. simpl in Hin. apply pyIn_In in Hin. rewrite Hin. simpl.
      destruct (List.length v =? 0) eqn:E4; auto. apply length_zero in E4. contradiction.
    + intro x. rewrite dictGet_set. simpl. destruct (pyEq k x); reflexivity.
Qed.

Lemma step_sound : forall allowed e d d', ~ In ","%char e -> step allowed e d = Ok d' ->
  exists ps, element e ps /\ Forall (fun p => In (fst p) allowed) ps /\ extends ps d d'.
Proof.
  intros allowed e d d' Hc H. unfold step, createLoop in H.
  destruct (0 <? List.length e) eqn:E.
  - destruct (split "=" e) as [|k [|v [|x l]]] eqn:Es; try discriminate.
    apply split_pair in Es. destruct Es as [Es [Hk Hv]].
    destruct (List.length k =? 0) eqn:E1; try discriminate.
    destruct (pyIn k allowed) eqn:E2; simpl in H; try discriminate.
    destruct (List.length v =? 0) eqn:E3; try discriminate.
    injection H as H. subst d' e. exists [(k, v)]. split; [|split].
    + constructor; split; try split; auto.
      * intro K. subst. discriminate.
      * intro K. apply Hc. apply in_or_app. left. exact K.
      * intro K. subst. discriminate.
      * intro K. apply Hc. apply in_or_app. right. right. exact K.
    + constructor; auto. simpl. apply pyIn_In. exact E2.
    + intro y. rewrite dictGet_set. simpl. destruct (pyEq k y); reflexivity.
  - injection H as H. subst. destruct e as [|c e]; try discriminate. exists []. split; [constructor|]. split; auto.
    intro k. reflexivity.
Qed.

Lemma loop_complete : forall allowed body ps, elements body ps -> forall d,
  Forall (fun p => In (fst p) allowed) ps ->
  exists d', createLoop allowed (split "," body) d = Ok d' /\ extends ps d d'.
Proof.
  intros allowed body ps H. induction H as [e ps He|e ps r qs He Hr IH]; intros d Hk.
  - rewrite split_nosep by (apply (element_nocomma e ps); exact He).
    apply step_complete; auto.
  - rewrite split_cons by (apply (element_nocomma e ps); exact He).
    apply Forall_app in Hk. destruct Hk as [Hk1 Hk2].
    destruct (step_complete allowed e ps d He Hk1) as [d1 [H1 H2]].
    destruct (IH d1 Hk2) as [d2 [H3 H4]].
    exists d2. rewrite loop_step, H1. simpl. split; auto. apply (extends_app ps qs d d1 d2); auto.
Qed.

Lemma loop_sound : forall allowed es d d', es <> [] -> Forall (fun w => ~ In ","%char w) es ->
  createLoop allowed es d = Ok d' ->
  exists ps, elements (join "," es) ps /\ Forall (fun p => In (fst p) allowed) ps /\ extends ps d d'.
Proof.
  intros allowed es. induction es as [|e es IH]; intros d d' Hn Hc H; [contradiction|].
  inversion Hc as [|x l Hc1 Hc2]; subst. rewrite loop_step in H.
  destruct (step allowed e d) as [d1| |] eqn:E; simpl in H; try discriminate.
  destruct (step_sound allowed e d d1 Hc1 E) as [ps [H1 [H2 H3]]].
  destruct es as [|e' es].
  - simpl in H. injection H as H. subst. exists ps. split; [constructor; exact H1|]. auto.
  - destruct (IH d1 d') as [qs [H4 [H5 H6]]]; auto; try discriminate.
    exists (ps ++ qs). split; [|split].
    + change (join "," (e :: e' :: es)) with (e ++ ","%char :: join "," (e' :: es)). apply more_elements; auto.
    + apply Forall_app. auto.
    + apply (extends_app ps qs d d1 d'); auto.
Qed.

Lemma endsWith_spec : forall s c, endsWith s [c] = true <-> exists r, s = r ++ [c].
Proof.
  intros s c. unfold endsWith. rewrite startsWith_spec. simpl. split; intros [r H].
  - exists (rev r). apply (f_equal (@rev ascii)) in H. rewrite rev_involutive in H. rewrite H. simpl. reflexivity.
  - exists (rev r). subst. rewrite rev_app_distr. reflexivity.
Qed.

Lemma create_complete : forall allowed body ps, elements body ps -> Forall (fun p => In (fst p) allowed) ps ->
  exists o, createOptions ("{"%char :: body ++ ["}"%char]) allowed = Ok o /\ forall k, dictGet k o = lastValue k ps.
Proof.
  intros allowed body ps H Hk. unfold createOptions.
  assert (E1 : (0 <? List.length ("{"%char :: body ++ ["}"%char])) = true) by reflexivity.
  rewrite E1.
  assert (E2 : startsWith ("{"%char :: body ++ ["}"%char]) (str "{") = true).
  { apply startsWith_spec. exists (body ++ ["}"%char]). reflexivity. }
  assert (E3 : endsWith ("{"%char :: body ++ ["}"%char]) (str "}") = true).
  { apply endsWith_spec. exists ("{"%char :: body). reflexivity. }
  rewrite E2, E3. cbn [negb tl]. rewrite removelast_last.
  destruct (0 <? List.length body) eqn:E4.
  - destruct (loop_complete allowed body ps H [] Hk) as [d [H1 H2]]. exists d. split; auto.
    intro k. rewrite H2. destruct (lastValue k ps); reflexivity.
  - destruct body as [|c body]; try discriminate. exists []. split; auto.
    intro k. inversion H as [e qs He|e qs r rs He Hr Heq]; subst.
    + inversion He as [|k' v' Hw1 Hw2 Heq]; subst; auto. destruct k'; discriminate.
    + destruct e; discriminate.
Qed.

Lemma create_sound : forall allowed s o, s <> [] -> createOptions s allowed = Ok o ->
  exists body ps, s = "{"%char :: body ++ ["}"%char] /\ elements body ps /\
    Forall (fun p => In (fst p) allowed) ps /\ forall k, dictGet k o = lastValue k ps.
Proof.
  intros allowed s o Hn H. unfold createOptions in H.
  apply length_pos in Hn. rewrite Hn in H.
  destruct (startsWith s (str "{")) eqn:E1; cbn [negb] in H; try discriminate.
  destruct (endsWith s (str "}")) eqn:E2; cbn [negb] in H; try discriminate.
  apply startsWith_spec in E1. destruct E1 as [r E1]. apply endsWith_spec in E2. destruct E2 as [q E2].
  simpl in E1. subst s.
  destruct q as [|c q]; simpl in E2; [discriminate|].
  injection E2 as Ec Er. subst c r. cbn [tl] in H. rewrite removelast_last in H.
  exists q. destruct (0 <? List.length q) eqn:E4.
  - destruct (join_split "," q) as [J1 J2].
    destruct (loop_sound allowed (split "," q) [] o (split_not_nil "," q) J2 H) as [ps [H1 [H2 H3]]].
    rewrite J1 in H1. exists ps. split; auto. split; auto. split; auto.
    intro k. rewrite H3. destruct (lastValue k ps); reflexivity.
  - destruct q as [|c q]; try discriminate. injection H as H. subst o.
    exists []. split; auto. split; [apply last_element; constructor|]. split; auto.
Qed.

Lemma lstrip_spec : forall s, exists a, s = a ++ lstrip s /\ spaces a.
Proof.
  induction s as [|c s [a [IH1 IH2]]]; simpl.
  - exists []. split; auto. constructor.
  - destruct (isSpace c) eqn:E.
    + exists (c :: a). split; [simpl; congruence|]. constructor; auto.
    + exists []. split; auto. constructor.
Qed.

Lemma lstrip_app : forall a s, spaces a -> lstrip (a ++ s) = lstrip s.
Proof. intros a s H. induction H as [|c a Hc Ha IH]; simpl; auto. rewrite Hc. exact IH. Qed.

Lemma lstrip_spaces : forall a, spaces a -> lstrip a = [].
Proof. intros a H. rewrite <- (app_nil_r a). rewrite lstrip_app; auto. Qed.

Lemma spaces_rev : forall a, spaces a -> spaces (rev a).
Proof. intros a H. apply Forall_rev. exact H. Qed.

Lemma strip_spec : forall s, exists a b, s = a ++ strip s ++ b /\ spaces a /\ spaces b.
Proof.
  intro s. destruct (lstrip_spec s) as [a [H1 H2]]. destruct (lstrip_spec (rev (lstrip s))) as [b [H3 H4]].
  exists a, (rev b). split; [|split; auto; apply spaces_rev; auto].
  rewrite H1 at 1. f_equal. unfold strip.
  apply (f_equal (@rev ascii)) in H3. rewrite rev_involutive in H3. rewrite H3 at 1. apply rev_app_distr.
Qed.

Lemma strip_spaces : forall a, spaces a -> strip a = [].
Proof. intros a H. unfold strip. rewrite (lstrip_spaces a H). reflexivity. Qed.

Lemma strip_inner : forall a b c m d, spaces a -> spaces b -> isSpace c = false -> isSpace d = false ->
  strip (a ++ c :: m ++ d :: b) = c :: m ++ [d].
Proof.
  intros a b c m d Ha Hb Hc Hd. unfold strip. rewrite lstrip_app by exact Ha.
  cbn [lstrip]. rewrite Hc.
  replace (rev (c :: m ++ d :: b)) with (rev b ++ d :: rev m ++ [c]).
  2:{ simpl. rewrite rev_app_distr. simpl. rewrite <- !app_assoc. simpl. reflexivity. }
  rewrite lstrip_app by (apply spaces_rev; exact Hb). cbn [lstrip]. rewrite Hd.
  simpl. rewrite rev_app_distr. simpl. rewrite rev_involutive. reflexivity.
Qed.

Lemma skipn_prefix : forall {A} (a b : list A), skipn (List.length a) (a ++ b) = b.
Proof. induction a; simpl; auto. Qed.

Lemma prefix_comparable : forall {A} (a b c d : list A), a ++ b = c ++ d ->
  (exists s, a = c ++ s) \/ (exists s, c = a ++ s).
Proof.
  induction a as [|x a IH]; intros b c d H; simpl in *.
  - right. exists c. reflexivity.
  - destruct c as [|y c]; simpl in *.
    + left. exists (x :: a). reflexivity.
    + injection H as H1 H2. subst. destruct (IH b c d H2) as [[s K]|[s K]]; [left|right]; exists s; congruence.
Qed.

(** The result for the allowed value that is a prefix of the text. *)
Lemma parse_first : forall allowed text v keys s, unambiguous allowed -> In (v, keys) allowed -> text = v ++ s ->
  parseParamAndOptions text allowed =
    (if 0 <? List.length (strip s) then let? o := createOptions (strip s) keys in Ok (v, o) else Ok (v, [])).
Proof.
  intros allowed text v keys s [Hnd Hp] Hin Ht.
  induction allowed as [|[w ks] allowed IH]; [contradiction|]. simpl.
  destruct (startsWith text w) eqn:E.
  - apply startsWith_spec in E. destruct E as [r E].
    assert (Hw : v = w).
    { rewrite Ht in E. assert (Hvi : In v (map fst ((w, ks) :: allowed))) by (apply (in_map fst) in Hin; exact Hin).
      assert (Hwi : In w (map fst ((w, ks) :: allowed))) by (left; reflexivity).
      destruct (prefix_comparable v s w r E) as [K|K].
      - symmetry. apply Hp; auto.
      - apply Hp; auto. }
    subst w. assert (ks = keys).
    { destruct Hin as [Hin|Hin]; [congruence|]. simpl in Hnd. inversion Hnd as [|x l Hni Hnd2]; subst.
      exfalso. apply Hni. apply (in_map fst) in Hin. exact Hin. }
    subst ks. rewrite Ht, skipn_prefix. reflexivity.
  - apply IH.
    + simpl in Hnd. inversion Hnd; auto.
    + intros a b Ha Hb. apply Hp; right; auto.
    + destruct Hin as [Hin|Hin]; auto. injection Hin as H1 H2. subst.
      assert (K : startsWith (v ++ s) v = true) by (apply startsWith_spec; exists s; reflexivity).
      rewrite K in E. discriminate.
Qed.

Lemma parse_complete :
  forall allowed text v ps, unambiguous allowed -> specifies allowed text v ps ->
    exists o, parseParamAndOptions text allowed = Ok (v, o) /\ forall k, dictGet k o = lastValue k ps.
Proof.
  intros allowed text v ps Hu [keys [Hin [Hk [s1 [s2 [Hs1 [Hs2 H]]]]]]].
  destruct H as [[Ht Hps]|[body [He Ht]]].
  - rewrite (parse_first allowed text v keys s1 Hu Hin Ht). rewrite (strip_spaces s1 Hs1). simpl.
    exists []. subst ps. auto.
  - rewrite (parse_first allowed text v keys _ Hu Hin Ht).
    rewrite (strip_inner s1 s2 "{" body "}" Hs1 Hs2 eq_refl eq_refl).
    destruct (create_complete keys body ps He Hk) as [o [H1 H2]].
    assert (E : (0 <? List.length ("{"%char :: body ++ ["}"%char])) = true) by reflexivity.
    rewrite E, H1. simpl. exists o. auto.
Qed.

Lemma parse_sound :
  forall allowed text v o, parseParamAndOptions text allowed = Ok (v, o) ->
    exists ps, specifies allowed text v ps /\ forall k, dictGet k o = lastValue k ps.
Proof.
  intros allowed text v o. induction allowed as [|[w keys] allowed IH]; simpl; intro H; [discriminate|].
  destruct (startsWith text w) eqn:E.
  - apply startsWith_spec in E. destruct E as [s E]. subst text. rewrite skipn_prefix in H.
    destruct (strip_spec s) as [a [b [Hs [Ha Hb]]]].
    destruct (0 <? List.length (strip s)) eqn:El.
    + destruct (createOptions (strip s) keys) as [o'| |] eqn:Ec; simpl in H; try discriminate.
      injection H as H1 H2. subst w o'. apply length_pos in El.
      destruct (create_sound keys (strip s) o El Ec) as [body [ps [H3 [H4 [H5 H6]]]]].
      exists ps. split; auto. exists keys. split; [left; reflexivity|]. split; auto.
      exists a, b. split; auto. split; auto. right. exists body. split; auto.
      rewrite Hs at 1. rewrite H3. simpl. rewrite <- app_assoc. reflexivity.
    + injection H as H1 H2. subst w o. destruct (strip s) as [|c r] eqn:Er; try discriminate.
      exists []. split; auto. exists keys. split; [left; reflexivity|]. split; auto.
      exists s, []. split; [|split; [constructor|left; auto]].
      rewrite Hs. simpl. apply Forall_app. auto.
  - destruct (IH H) as [ps [[ks [H1 H2]] H3]]. exists ps. split; auto. exists ks. split; auto. right. exact H1.
Qed.

Lemma create_no_attribute_error : forall allowed es d, createLoop allowed es d <> AttributeError.
Proof.
  intros allowed es. induction es as [|e es IH]; intro d; simpl; try discriminate.
  destruct (0 <? List.length e); auto.
  destruct (split "=" e) as [|k [|v [|x l]]]; try discriminate.
  destruct (List.length k =? 0); try discriminate. destruct (negb (pyIn k allowed)); try discriminate.
  destruct (List.length v =? 0); try discriminate. apply IH.
Qed.

Lemma parse_no_attribute_error : forall text allowed, parseParamAndOptions text allowed <> AttributeError.
Proof.
  intros text allowed. induction allowed as [|[w keys] allowed IH]; simpl; try discriminate.
  destruct (startsWith text w); auto. destruct (0 <? _); try discriminate.
  unfold createOptions. destruct (0 <? _); simpl; try discriminate.
  destruct (negb _); simpl; try discriminate. destruct (negb _); simpl; try discriminate.
  destruct (0 <? _); simpl; try discriminate.
  match goal with |- rbind (createLoop ?a ?e ?d) _ <> _ => pose proof (create_no_attribute_error a e d) as K;
    destruct (createLoop a e d); simpl; try discriminate; contradiction end.
Qed.

Lemma bracket_notation :
  forall allowed text, unambiguous allowed ->
    (forall v ps, specifies allowed text v ps ->
       exists o, parseParamAndOptions text allowed = Ok (v, o) /\ forall k, dictGet k o = lastValue k ps) /\
    (forall v o, parseParamAndOptions text allowed = Ok (v, o) ->
       exists ps, specifies allowed text v ps /\ forall k, dictGet k o = lastValue k ps) /\
    ((forall v ps, ~ specifies allowed text v ps) <-> parseParamAndOptions text allowed = ValueError).
Proof.
  intros allowed text Hu. split; [|split].
  - intros v ps H. apply parse_complete; auto.
  - intros v o H. apply parse_sound. exact H.
  - split.
    + intro H. destruct (parseParamAndOptions text allowed) as [[v o]| |] eqn:E; auto.
      * exfalso. destruct (parse_sound allowed text v o E) as [ps [K _]]. apply (H v ps K).
      * exfalso. apply (parse_no_attribute_error text allowed E).
    + intros H v ps K. destruct (parse_complete allowed text v ps Hu K) as [o [K2 _]]. rewrite K2 in H. discriminate.
Qed.

Lemma writePairs_elements : forall ps, Forall (fun p => word (fst p) /\ word (snd p)) ps ->
  elements (writePairs ps) ps.
Proof.
  induction ps as [|[k v] ps IH]; intro H.
  - apply last_element. constructor.
  - inversion H as [|p l [H1 H2] H3]; subst. simpl in H1, H2. destruct ps as [|q ps].
    + simpl. apply last_element. constructor; auto.
    + change (writePairs ((k, v) :: q :: ps)) with (k ++ "="%char :: v ++ ","%char :: writePairs (q :: ps)).
      replace (k ++ "="%char :: v ++ ","%char :: writePairs (q :: ps))
        with ((k ++ "="%char :: v) ++ ","%char :: writePairs (q :: ps)).
      2:{ rewrite <- app_assoc. reflexivity. }
      change ((k, v) :: q :: ps) with ([(k, v)] ++ (q :: ps)). apply more_elements; auto. constructor; auto.
Qed.

Lemma written_options :
  forall allowed v keys ps, unambiguous allowed -> In (v, keys) allowed ->
    Forall (fun p => In (fst p) keys /\ word (fst p) /\ word (snd p)) ps ->
    exists o, parseParamAndOptions (v ++ "{"%char :: writePairs ps ++ ["}"%char]) allowed = Ok (v, o) /\
      forall k, dictGet k o = lastValue k ps.
Proof.
  intros allowed v keys ps Hu Hin H. apply parse_complete; auto.
  exists keys. split; auto. split.
  - eapply Forall_impl; [|exact H]. intros p [K _]. exact K.
  - exists [], []. split; [constructor|]. split; [constructor|]. right. exists (writePairs ps). split; auto.
    apply writePairs_elements. eapply Forall_impl; [|exact H]. intros p [_ K]. exact K.
Qed.

Lemma meaning_unique :
  forall allowed text v ps w qs, unambiguous allowed ->
    specifies allowed text v ps -> specifies allowed text w qs ->
    v = w /\ forall k, lastValue k ps = lastValue k qs.
Proof.
  intros allowed text v ps w qs Hu H1 H2.
  destruct (parse_complete allowed text v ps Hu H1) as [o [E1 K1]].
  destruct (parse_complete allowed text w qs Hu H2) as [o' [E2 K2]].
  rewrite E1 in E2. injection E2 as E2 E3. subst. split; auto. intro k. rewrite <- K1, <- K2. reflexivity.
Qed.

Lemma ambiguity_refuted :
  exists allowed text v ps, NoDup (map fst allowed) /\ specifies allowed text v ps /\
    parseParamAndOptions text allowed = ValueError.
Proof.
  exists [(str "partial", []); (str "partial-fixed", [])], (str "partial-fixed"), (str "partial-fixed"), [].
  split; [|split].
  - simpl. repeat constructor; simpl; intuition discriminate.
  - exists []. split; [right; left; reflexivity|]. split; auto. exists [], []. split; [constructor|].
    split; [constructor|]. left. split; reflexivity.
  - vm_compute. reflexivity.
Qed.
