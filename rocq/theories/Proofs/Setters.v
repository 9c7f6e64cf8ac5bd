From Coq Require Import List Bool Ascii String ZArith Lia.
From Verif Require Import Model.Options Model.PyConfig Model.Floats Model.Parameters Model.Setters.
From Verif Require Import Proofs.Options Proofs.Floats Proofs.FloatFractions.
From Verif Require Import Spec.Floats Spec.Setters.
Import ListNotations.
Open Scope Z_scope.

(** Rounded values are representable. *)
Lemma round32_float32 (x y : Z) : round32 x = Finite y -> isFloat32 y.
Proof.
  intros R. unfold round32, round in R. cbv zeta in R. destruct (Z.ltb_spec (Z.abs (nearest x (exponent 24 926 x) * 2 ^ exponent 24 926 x)) range32) as [L|]; [|discriminate].
  match type of R with Finite ?a = Finite ?b => assert (E : b = a) by congruence end. clear R.
  pose proof (exponent_bounds 24 926 x) as (B & _).
  assert (X : Z.abs x <= 2 ^ 24 * 2 ^ exponent 24 926 x).
  { rewrite <- Z.pow_add_r by lia. destruct (Z.eq_dec x 0) as [->|N]; [apply Z.pow_nonneg; lia|].
    pose proof (Z.log2_spec (Z.abs x) ltac:(lia)) as (_ & U). apply Z.lt_le_incl. eapply Z.lt_le_trans; [exact U|].
    apply Z.pow_le_mono_r; [lia|]. unfold exponent. lia. }
  set (e := exponent 24 926 x) in *. clearbody e. set (P := 2 ^ 24) in *.
  assert (HP : P = 2 ^ 24) by reflexivity. clearbody P.
  pose proof (nearest_le x e P ltac:(lia) ltac:(lia)) as U. pose proof (nearest_ge x e (- P) ltac:(lia) ltac:(lia)) as V.
  set (k := nearest x e) in *. clearbody k. subst y.
  destruct (Z.eq_dec (Z.abs k) P) as [K|K].
  - exists (Z.sgn k * 2 ^ 23), (e + 1). repeat split; try lia.
    assert (Ek : k = Z.sgn k * P) by lia. rewrite Z.pow_add_r by lia. rewrite Ek at 1. rewrite HP.
    change (2 ^ 24) with (2 ^ 23 * 2 ^ 1). ring.
  - exists k, e. repeat split; lia.
Qed.

Lemma toFloat32_idempotent (x : float) : toFloat32 (toFloat32 x) = toFloat32 x.
Proof.
  destruct x as [z|n|]; try reflexivity. cbn [toFloat32]. destruct (round32 z) as [y|n|] eqn:R; try reflexivity.
  cbn [toFloat32]. apply round32_exact. eapply round32_float32. exact R.
Qed.

Lemma round64_exact (z : Z) : isFloat32 z -> round64 z = Finite z.
Proof.
  intros H. destruct (round64_between z z z H H ltac:(lia)) as (y & -> & B). f_equal. lia.
Qed.

Definition check_dec (a b : check) : {a = b} + {a <> b}.
Proof. decide equality; try apply Z.eq_dec; apply list_eq_dec, ascii_dec. Defined.

Definition checks_dec : forall a b : list check, {a = b} + {a <> b} := list_eq_dec check_dec.

Definition ctype_dec (a b : ctype) : {a = b} + {a <> b}.
Proof. decide equality. Defined.

Definition isb {A : Prop} (d : {A} + {~ A}) : bool := if d then true else false.

Lemma isb_true {A : Prop} (d : {A} + {~ A}) : isb d = true -> A.
Proof. destruct d; [auto|discriminate]. Qed.

Definition samplingb (s : setter) : bool := existsb (pyEq (setterClass s)) samplingClasses.

(** A check that is performed in C++ is also performed in Python. *)
Definition impliedb (py : list check) (c : check) : bool :=
  existsb (fun c' => isb (check_dec c' c)) py ||
  match c with IsLessOrEqual n => existsb (fun c' => isb (check_dec c' (IsLess n))) py | _ => false end.

Definition fieldOf (c : check) : option pystr :=
  match c with IsGreaterOrEqualField f | IsMultipleOf f => Some f | _ => None end.

Definition positiveb (s : setter) : bool := negb (cppUnlessZero s) && existsb (fun c => isb (check_dec c (IsGreaterOrEqual 1))) (cppChecks s).

Definition refersTo (s : setter) (c : check) (s' : setter) : bool :=
  match fieldOf c with
  | Some f => pyEq (setterField s') f && pyEq (setterClass s') (setterClass s) && isb (ctype_dec (cppType s') Uint32) &&
      match c with IsMultipleOf _ => positiveb s' | _ => true end
  | None => true
  end.

Definition checkOkb (s : setter) (c : check) : bool :=
  match fieldOf c with
  | Some _ => isb (ctype_dec (cppType s) Uint32) && existsb (refersTo s c) setters
  | None => true
  end.

Definition shapeb (s : setter) : bool :=
  Bool.eqb (cppUnlessZero s) (pyUnlessZero s) && forallb (impliedb (pyChecks s)) (cppChecks s) &&
  (if samplingb s then isb (ctype_dec (pxdType s) Float32) && negb (isb (ctype_dec (cppType s) Float64))
   else isb (ctype_dec (pxdType s) (cppType s)) && translated s) &&
  forallb (checkOkb s) (pyChecks s) && forallb (checkOkb s) (cppChecks s).

Lemma shapes : forallb shapeb setters = true.
Proof. vm_compute. reflexivity. Qed.

Lemma shape (s : setter) : In s setters -> shapeb s = true.
Proof. apply (proj1 (forallb_forall _ _) shapes). Qed.

(** The variables of a class have distinct names. *)
Lemma fields_distinct :
  forallb (fun s => forallb (fun s' =>
    negb (pyEq (setterClass s) (setterClass s') && pyEq (setterField s) (setterField s')) ||
    (pyEq (setterName s) (setterName s') && isb (ctype_dec (cppType s) (cppType s')) && Bool.eqb (positiveb s) (positiveb s'))) setters) setters = true.
Proof. vm_compute. reflexivity. Qed.

Lemma field_distinct (s s' : setter) :
  In s setters -> In s' setters -> setterClass s = setterClass s' -> setterField s = setterField s' ->
  setterName s = setterName s' /\ cppType s = cppType s' /\ positiveb s = positiveb s'.
Proof.
  intros H H' C F. pose proof (proj1 (forallb_forall _ _) fields_distinct s H) as A. cbv beta in A.
  apply (proj1 (forallb_forall _ _) A) in H'. rewrite C, F, !pyEq_refl in H'. cbn [negb andb orb] in H'.
  apply andb_true_iff in H'. destruct H' as (H' & P). apply andb_true_iff in H'. destruct H' as (N & T).
  apply pyEq_eq in N. apply isb_true in T. apply Bool.eqb_prop in P. auto.
Qed.

(** The variables with integer values. *)
Definition validInt (s : setter) (c : cvalue) : Prop :=
  match c with CInt n => 0 <= n < 2 ^ 32 /\ (positiveb s = true -> 1 <= n) | CFloat _ => False end.

Definition inv (cls : pystr) (st : fields) : Prop :=
  forall s, In s setters -> setterClass s = cls -> cppType s = Uint32 -> validInt s (st (setterField s)).

Definition validIntb (s : setter) (c : cvalue) : bool :=
  match c with CInt n => (0 <=? n) && (n <? 2 ^ 32) && (negb (positiveb s) || (1 <=? n)) | CFloat _ => false end.

Lemma validIntb_sound (s : setter) (c : cvalue) : validIntb s c = true -> validInt s c.
Proof.
  destruct c as [n|x]; [|discriminate]. cbn [validIntb validInt]. intros H.
  apply andb_true_iff in H. destruct H as (H & P). apply andb_true_iff in H. destruct H as (A & B).
  apply Z.leb_le in A. apply Z.ltb_lt in B. split; [lia|]. intros Q. rewrite Q in P. cbn [negb orb] in P. now apply Z.leb_le in P.
Qed.

Lemma initials : forallb (fun s => negb (isb (ctype_dec (cppType s) Uint32)) || validIntb s (newConfig (setterClass s) (setterField s))) setters = true.
Proof. vm_compute. reflexivity. Qed.

Lemma inv_new (cls : pystr) : inv cls (newConfig cls).
Proof.
  intros s H <- T. pose proof (proj1 (forallb_forall _ _) initials s H) as A. cbv beta in A. rewrite T in A.
  apply validIntb_sound. exact A.
Qed.

Lemma cppAsserts_all (st : fields) (c : cvalue) (cs : list check) :
  cppAsserts st c cs = Some true -> forall k, In k cs -> cppAssert st c k = Some true.
Proof.
  induction cs as [|k cs IH]; intros H; [intros ? []|]. cbn [cppAsserts] in H.
  destruct (cppAssert st c k) as [[|]|] eqn:E; try discriminate. intros k' [<-|I]; auto.
Qed.

Lemma all_cppAsserts (st : fields) (c : cvalue) (cs : list check) :
  (forall k, In k cs -> cppAssert st c k = Some true) -> cppAsserts st c cs = Some true.
Proof.
  induction cs as [|k cs IH]; intros H; [reflexivity|]. cbn [cppAsserts]. rewrite (H k) by (now left).
  apply IH. intros. apply H. now right.
Qed.

Lemma cppAsserts_none (st : fields) (c : cvalue) (cs : list check) :
  cppAsserts st c cs = None -> exists k, In k cs /\ cppAssert st c k = None.
Proof.
  induction cs as [|k cs IH]; intros H; [discriminate|]. cbn [cppAsserts] in H.
  destruct (cppAssert st c k) as [[|]|] eqn:E; [|discriminate|].
  - destruct (IH H) as (k' & I & N). exists k'. split; [now right|exact N].
  - exists k. split; [now left|exact E].
Qed.

Lemma toUint32_bounds (x : float) (n : Z) : toUint32 x = Some n -> 0 <= n < 2 ^ 32.
Proof.
  destruct x as [z| |]; try discriminate. unfold toUint32. cbv zeta.
  destruct (Z.leb_spec 0 (Z.quot z one)); [|discriminate].
  destruct (Z.ltb_spec (Z.quot z one) (2 ^ 32)); [|discriminate]. cbn [andb]. intros E.
  match type of E with Some ?a = Some ?b => assert (El : b = a) by congruence end. lia.
Qed.

(** The value that is stored by a call. *)
Lemma call_returned (s : setter) (st st' : fields) (v : pyvalue) :
  callSetter s st v = Returned st' ->
  pyAccepts s st v = true /\
  exists c c', convert (pxdType s) v = Some c /\ cast (cppType s) c = Some c' /\ cppAccepts s st c' = Some true /\
  st' = assign st (setterField s) c'.
Proof.
  unfold callSetter. destruct (pyAccepts s st v); [|discriminate]. destruct (convert (pxdType s) v) as [c|]; [|discriminate].
  destruct (cast (cppType s) c) as [c'|] eqn:C; [|discriminate].
  destruct (cppAccepts s st c') as [[|]|] eqn:A; [|destruct (translated s); discriminate|discriminate].
  intros E. match type of E with Returned ?a = Returned ?b => assert (El : b = a) by congruence end.
  split; [reflexivity|]. exists c, c'. auto.
Qed.

Lemma convert_int (s : setter) (v : pyvalue) (c c' : cvalue) :
  cppType s = Uint32 -> convert (pxdType s) v = Some c -> cast Uint32 c = Some c' -> exists n, c' = CInt n /\ 0 <= n < 2 ^ 32.
Proof.
  intros T Hc H. destruct c as [n|x]; cbn [cast] in H.
  - assert (E : c' = CInt n) by congruence. exists n. split; [exact E|]. clear H E.
    destruct (pxdType s), v as [m|y]; cbn [convert] in Hc; try discriminate.
    + destruct (Z.leb_spec 0 m); [|discriminate]. destruct (Z.ltb_spec m (2 ^ 32)); [|discriminate]. cbn [andb] in Hc.
      assert (m = n) by congruence. lia.
    + destruct (round64 (m * one)); discriminate.
    + destruct (round64 (m * one)); discriminate.
  - destruct (toUint32 x) as [n|] eqn:E; [|discriminate]. exists n. split; [congruence|]. eapply toUint32_bounds. exact E.
Qed.

Lemma inv_call (cls : pystr) (st st' : fields) (s : setter) (v : pyvalue) :
  In s setters -> setterClass s = cls -> inv cls st -> callSetter s st v = Returned st' -> inv cls st'.
Proof.
  intros I C H R. apply call_returned in R. destruct R as (_ & c & c' & E1 & E2 & E3 & ->).
  intros s' I' C' T'. unfold assign. destruct (pyEq (setterField s') (setterField s)) eqn:F; [|apply H; auto].
  apply pyEq_eq in F. destruct (field_distinct s' s I' I ltac:(congruence) F) as (_ & T & P).
  rewrite T' in T. symmetry in T. rewrite T in E2. destruct (convert_int s v c c' T E1 E2) as (n & -> & B).
  cbn [validInt]. split; [exact B|]. rewrite P. unfold positiveb. intros Q. apply andb_true_iff in Q. destruct Q as (Z0 & Q).
  unfold cppAccepts in E3. destruct (cppUnlessZero s); [discriminate|]. cbn [andb] in E3.
  apply existsb_exists in Q. destruct Q as (k & Ik & Ek). apply isb_true in Ek. subst k.
  pose proof (cppAsserts_all _ _ _ E3 _ Ik) as A. cbn [cppAssert] in A.
  destruct (Z.leb_spec 1 n); [lia|discriminate].
Qed.

Lemma reachable_inv (cls : pystr) (st : fields) : reachable cls st -> inv cls st.
Proof.
  induction 1 as [|st s v st' _ IH I C _ R]; [apply inv_new|]. eapply inv_call; eauto.
Qed.

(** Variables that are referred to by checks. *)
Lemma referred (cls : pystr) (st : fields) (s : setter) (c : check) (f : pystr) :
  inv cls st -> setterClass s = cls -> checkOkb s c = true -> fieldOf c = Some f ->
  cppType s = Uint32 /\
  exists n, st f = CInt n /\ 0 <= n < 2 ^ 32 /\ match c with IsMultipleOf _ => 1 <= n | _ => True end.
Proof.
  intros H C O F. unfold checkOkb in O. rewrite F in O. apply andb_true_iff in O. destruct O as (T & O).
  apply isb_true in T. split; [exact T|]. apply existsb_exists in O. destruct O as (s' & I & R). unfold refersTo in R. rewrite F in R.
  apply andb_true_iff in R. destruct R as (R & P). apply andb_true_iff in R. destruct R as (R & T').
  apply andb_true_iff in R. destruct R as (F' & C'). apply pyEq_eq in F'. apply pyEq_eq in C'. apply isb_true in T'.
  pose proof (H s' I ltac:(congruence) T') as V. rewrite F' in V. destruct (st f) as [n|]; [|destruct V].
  cbn [validInt] in V. destruct V as (B & Q). exists n. split; [reflexivity|]. split; [exact B|]. destruct c; try exact Logic.I. auto.
Qed.

(** The shape of a setter. *)
Lemma shape_inv (s : setter) :
  In s setters ->
  cppUnlessZero s = pyUnlessZero s /\ (forall c, In c (cppChecks s) -> impliedb (pyChecks s) c = true) /\
  (if samplingb s then pxdType s = Float32 /\ cppType s <> Float64 else pxdType s = cppType s /\ translated s = true) /\
  (forall c, In c (pyChecks s) -> checkOkb s c = true) /\ (forall c, In c (cppChecks s) -> checkOkb s c = true).
Proof.
  intros I. pose proof (shape s I) as H. unfold shapeb in H.
  apply andb_true_iff in H. destruct H as (H & O'). apply andb_true_iff in H. destruct H as (H & O).
  apply andb_true_iff in H. destruct H as (H & T). apply andb_true_iff in H. destruct H as (U & M).
  apply Bool.eqb_prop in U. rewrite forallb_forall in M, O, O'. repeat split; auto.
  destruct (samplingb s); apply andb_true_iff in T; destruct T as (T & T').
  - apply isb_true in T. split; [exact T|]. intros E. rewrite E in T'. discriminate.
  - apply isb_true in T. auto.
Qed.

Lemma assign_storedBy (s : setter) (st : fields) (v : pyvalue) : storedBy s st v (assign st (setterField s) (stored s v)).
Proof.
  unfold storedBy, assign. split; [now rewrite pyEq_refl|]. intros f N.
  destruct (pyEq f (setterField s)) eqn:E; [apply pyEq_eq in E; contradiction|reflexivity].
Qed.

Lemma leqb_ints (a b : Z) : leqb (Finite (a * one)) (Finite (b * one)) = (a <=? b).
Proof.
  cbn [leqb]. pose proof pow_1075 as P. destruct (Z.leb_spec a b) as [L|L].
  - apply Z.leb_le. apply Z.mul_le_mono_nonneg_r; lia.
  - apply Z.leb_gt. apply Z.mul_lt_mono_pos_r; lia.
Qed.

Lemma gtb_ints (a b : Z) : gtb (Finite (a * one)) (Finite (b * one)) = (b <? a).
Proof. unfold gtb. rewrite leqb_ints. rewrite Z.ltb_antisym. reflexivity. Qed.

Lemma py_assert_int (st : fields) (n : Z) (c : check) :
  pyAssert st (PyInt n) c =
  match c with
  | IsGreater m => m <? n
  | IsGreaterOrEqual m => m <=? n
  | IsLess m => n <? m
  | IsLessOrEqual m => n <=? m
  | IsGreaterOrEqualField f => match st f with CInt m => m <=? n | CFloat x => negb (gtb x (Finite (n * one))) end
  | IsMultipleOf f => match st f with CInt m => if m =? 0 then false else n mod m =? 0 | CFloat _ => false end
  end.
Proof.
  destruct c; cbn [pyAssert pyNumber]; rewrite ?leqb_ints, ?gtb_ints, <- ?Z.ltb_antisym, <- ?Z.leb_antisym; try reflexivity.
  destruct (st f) as [m|x]; cbn [toPython pyNumber]; [|reflexivity]. rewrite gtb_ints, <- Z.leb_antisym. reflexivity.
Qed.

Lemma implied_cpp (st : fields) (v : pyvalue) (s : setter) (cls : pystr) (c : check) :
  In s setters -> setterClass s = cls -> inv cls st -> hasType s v -> In c (cppChecks s) ->
  forallb (pyAssert st v) (pyChecks s) = true -> (pyNumber v <> NaN) ->
  cppAssert st (match v with PyInt n => CInt n | PyFloat x => CFloat x end) c = Some true.
Proof.
  intros I C H T Ic A N. destruct (shape_inv s I) as (_ & M & _ & _ & O). pose proof (M c Ic) as Mc. pose proof (O c Ic) as Oc.
  rewrite forallb_forall in A.
  assert (K : pyAssert st v c = true).
  { unfold impliedb in Mc. apply orb_true_iff in Mc. destruct Mc as [Mc|Mc].
    - apply existsb_exists in Mc. destruct Mc as (c' & I' & E). apply isb_true in E. subst c'. auto.
    - destruct c; try discriminate. apply existsb_exists in Mc. destruct Mc as (c' & I' & E). apply isb_true in E. subst c'.
      pose proof (A _ I') as K. cbn [pyAssert] in *. destruct v as [k|x].
      + cbn [pyNumber] in *. rewrite leqb_ints in K. rewrite gtb_ints. destruct (Z.leb_spec n k); [discriminate|].
        destruct (Z.ltb_spec n k); [lia|reflexivity].
      + cbn [pyNumber] in *. destruct x as [z|[]|]; cbn [gtb leqb negb] in *; try discriminate; try reflexivity.
        destruct (Z.leb_spec (n * one) z); [discriminate|]. destruct (Z.leb_spec z (n * one)); [reflexivity|lia]. }
  destruct v as [k|x].
  - rewrite py_assert_int in K. destruct c as [n|n|n|n|f|f]; cbn [cppAssert]; try (now rewrite K).
    + destruct (referred cls st s _ f H C Oc eq_refl) as (_ & m & E & _). rewrite E in *. now rewrite K.
    + destruct (st f) as [m|]; [|discriminate]. destruct (m =? 0); [discriminate|]. now rewrite K.
  - destruct c as [n|n|n|n|f|f]; cbn [cppAssert pyAssert pyNumber] in *.
    + f_equal. unfold assertGreater. destruct x as [z|[]|]; cbn [gtb leqb negb] in *; try discriminate; try reflexivity; [exact K|now destruct N].
    + f_equal. exact K.
    + f_equal. unfold assertLess. destruct x as [z|[]|]; cbn [gtb leqb negb] in *; try discriminate; try reflexivity; [exact K|now destruct N].
    + f_equal. exact K.
    + destruct (referred cls st s _ f H C Oc eq_refl) as (T' & _). unfold hasType in T. now rewrite T' in T.
    + destruct (referred cls st s _ f H C Oc eq_refl) as (T' & _). unfold hasType in T. now rewrite T' in T.
Qed.

Definition nonnegative (v : pyvalue) : Prop := match v with PyInt n => 0 <= n | PyFloat _ => True end.

Lemma representable_stored (s : setter) (v : pyvalue) :
  hasType s v -> representable s v -> stored s v = match v with PyInt n => CInt n | PyFloat x => CFloat x end.
Proof.
  intros T R. destruct v as [n|x]; [reflexivity|]. cbn [stored]. f_equal. unfold hasType in T. destruct (cppType s) eqn:E; try reflexivity.
  destruct x as [z|b|]; try reflexivity. cbn [representable] in R. destruct R as [R|R]; [congruence|]. cbn [toFloat32]. now apply round32_exact.
Qed.

Lemma toUint32_int (n : Z) : 0 <= n < 2 ^ 32 -> toUint32 (Finite (n * one)) = Some n.
Proof.
  intros H. unfold toUint32. cbv zeta. rewrite Z.quot_mul by discriminate.
  destruct (Z.leb_spec 0 n); [|lia]. destruct (Z.ltb_spec n (2 ^ 32)); [|lia]. reflexivity.
Qed.

Lemma converted (s : setter) (v : pyvalue) :
  In s setters -> hasType s v -> representable s v -> nonnegative v ->
  exists c, convert (pxdType s) v = Some c /\ cast (cppType s) c = Some (stored s v).
Proof.
  intros I T R Hn. rewrite (representable_stored s v T R). destruct (shape_inv s I) as (_ & _ & X & _).
  fold (samplingb s) in *. destruct v as [n|x].
  - cbn [representable nonnegative] in R, Hn. fold (samplingb s) in R. assert (E : cppType s = Uint32) by (unfold hasType in T; destruct (cppType s); tauto).
    rewrite E in *. destruct (samplingb s).
    + destruct X as (-> & _). cbn [convert]. pose proof (int_float32 n ltac:(lia)) as F. rewrite round64_exact by exact F.
      eexists. split; [reflexivity|]. cbn [toFloat32]. rewrite round32_exact by exact F. cbn [cast]. rewrite toUint32_int; [reflexivity|].
      assert (2 ^ 24 < 2 ^ 32) by reflexivity. lia.
    + destruct X as (-> & _). cbn [convert]. destruct (Z.leb_spec 0 n); [|lia]. destruct (Z.ltb_spec n (2 ^ 32)); [|lia].
      eexists. split; reflexivity.
  - assert (P : pxdType s = cppType s /\ (cppType s = Float32 \/ cppType s = Float64)).
    { unfold hasType in T. destruct (samplingb s); destruct X as (X & Y); destruct (cppType s); try tauto; now destruct Y. }
    destruct P as (-> & [E|E]); rewrite E in *; cbn [convert].
    + assert (F : toFloat32 x = x).
      { pose proof (representable_stored s (PyFloat x)) as S. cbn [stored] in S. unfold hasType in S. rewrite E in S.
        assert (Q : CFloat (toFloat32 x) = CFloat x) by (apply S; [exact Logic.I|exact R]). congruence. }
      eexists. split; [reflexivity|]. cbn [cast]. now rewrite !F.
    + eexists. split; reflexivity.
Qed.

Lemma zero_cpp (v : pyvalue) : pyIsZero v = true -> cppIsZero (match v with PyInt n => CInt n | PyFloat x => CFloat x end) = true.
Proof.
  unfold pyIsZero. destruct v as [n|x]; cbn [pyNumber cppIsZero].
  - intros H. apply Z.eqb_eq in H. apply Z.eqb_eq. pose proof pow_1075. apply Z.mul_eq_0 in H. destruct H; lia.
  - destruct x as [z| |]; try discriminate. intros H. apply Z.eqb_eq in H. subst z. vm_compute. reflexivity.
Qed.

(** Values that are accepted in Python are stored. *)
Lemma accepted (cls : pystr) (st : fields) (s : setter) (v : pyvalue) :
  In s setters -> setterClass s = cls -> inv cls st -> hasType s v -> representable s v -> nonnegative v ->
  pyAccepts s st v = true -> callSetter s st v = Returned (assign st (setterField s) (stored s v)).
Proof.
  intros I C H T R Hn A. destruct (converted s v I T R Hn) as (c & E1 & E2). unfold callSetter. rewrite A, E1, E2.
  assert (K : cppAccepts s st (stored s v) = Some true); [|now rewrite K].
  rewrite (representable_stored s v T R). destruct (shape_inv s I) as (U & _). unfold cppAccepts. rewrite U.
  unfold pyAccepts in A. apply orb_true_iff in A. destruct A as [A|A].
  - apply andb_true_iff in A. destruct A as (-> & A). rewrite zero_cpp by exact A. reflexivity.
  - match goal with |- (if ?b then _ else _) = _ => destruct b; [reflexivity|] end. apply all_cppAsserts.
    intros k Ik. eapply implied_cpp; eauto. destruct v as [n|x]; cbn [pyNumber]; [discriminate|]. intros ->. exact R.
Qed.

(** Negative integers are rejected. *)
Lemma sampling_ints :
  forallb (fun s => negb (samplingb s) || negb (isb (ctype_dec (cppType s) Uint32)) ||
    forallb (fun c => match c with IsGreaterOrEqual n => 0 <=? n | IsGreaterOrEqualField _ => true | _ => false end) (pyChecks s) &&
    negb (match pyChecks s with [] => true | _ => false end)) setters = true.
Proof. vm_compute. reflexivity. Qed.

Lemma negative_rejected (cls : pystr) (st : fields) (s : setter) (n : Z) :
  In s setters -> setterClass s = cls -> inv cls st -> hasType s (PyInt n) -> n < 0 -> callSetter s st (PyInt n) = Raised.
Proof.
  intros I C H T Hn. unfold callSetter. destruct (pyAccepts s st (PyInt n)) eqn:A; [|reflexivity].
  assert (E : cppType s = Uint32) by (unfold hasType in T; destruct (cppType s); tauto).
  destruct (shape_inv s I) as (_ & _ & X & O & _). pose proof (proj1 (forallb_forall _ _) sampling_ints s I) as B. cbv beta in B.
  destruct (samplingb s).
  - exfalso. rewrite E in B. cbn [negb orb isb ctype_dec] in B. apply andb_true_iff in B. destruct B as (B & D).
    unfold pyAccepts in A. apply orb_true_iff in A. destruct A as [A|A].
    + apply andb_true_iff in A. destruct A as (_ & A). unfold pyIsZero in A. cbn [pyNumber] in A. apply Z.eqb_eq in A.
      pose proof pow_1075. apply Z.mul_eq_0 in A. lia.
    + destruct (pyChecks s) as [|c cs] eqn:Ec; [discriminate|]. cbn [forallb] in A, B. apply andb_true_iff in A, B.
      destruct A as (A & _), B as (B & _). rewrite py_assert_int in A. destruct c as [| m | | | f |]; try discriminate.
      * apply Z.leb_le in A, B. lia.
      * destruct (referred cls st s _ f H C (O _ ltac:(now left)) eq_refl) as (_ & m & Em & Bm & _). rewrite Em in A. apply Z.leb_le in A. lia.
  - destruct X as (-> & _). rewrite E. cbn [convert]. destruct (Z.leb_spec 0 n); [lia|]. reflexivity.
Qed.

Lemma stored_small :
  forall cls st s v, reachable cls st -> In s setters -> setterClass s = cls -> hasType s v -> representable s v ->
  storedOrRejected s st v.
Proof.
  intros cls st s v Hr I C T R. apply reachable_inv in Hr. unfold storedOrRejected.
  destruct (pyAccepts s st v) eqn:A; [|unfold callSetter; rewrite A; exact Logic.I].
  destruct v as [n|x].
  - destruct (Z.ltb_spec n 0) as [L|L]; [now rewrite (negative_rejected cls st s n)|].
    rewrite (accepted cls); auto using assign_storedBy.
  - rewrite (accepted cls); auto using assign_storedBy. exact Logic.I.
Qed.

Lemma stored_regular :
  forall cls st s v, reachable cls st -> In s setters -> setterClass s = cls -> hasType s v -> ~ In cls samplingClasses ->
  storedOrRejected s st v.
Proof.
  intros cls st s v Hr I C T N. apply reachable_inv in Hr. destruct (shape_inv s I) as (U & M & X & O & O').
  assert (samplingb s = false) as Sb.
  { unfold samplingb. apply not_true_iff_false. intros Q. apply existsb_exists in Q. destruct Q as (c & Ic & E). apply pyEq_eq in E.
    apply N. congruence. }
  rewrite Sb in X. destruct X as (X & Y). unfold storedOrRejected, callSetter.
  destruct (pyAccepts s st v) eqn:A; [|exact Logic.I]. destruct (convert (pxdType s) v) as [c|] eqn:Ec; [|exact Logic.I].
  assert (E2 : cast (cppType s) c = Some (stored s v)).
  { rewrite X in Ec. unfold hasType in T. destruct v as [n|x].
    - destruct (cppType s); try (now destruct T). cbn [convert] in Ec. destruct (_ && _) in Ec; [|discriminate].
      assert (c = CInt n) by congruence. subst c. reflexivity.
    - cbn [stored]. destruct (cppType s); try (now destruct T); cbn [convert] in Ec.
      + assert (c = CFloat (toFloat32 x)) by congruence. subst c. cbn [cast]. now rewrite toFloat32_idempotent.
      + assert (c = CFloat x) by congruence. subst c. reflexivity. }
  rewrite E2, Y. destruct (cppAccepts s st (stored s v)) as [[|]|] eqn:B; [apply assign_storedBy|exact Logic.I|].
  exfalso. unfold cppAccepts in B. destruct (cppUnlessZero s && cppIsZero (stored s v)) eqn:Zb; [discriminate|].
  apply cppAsserts_none in B. destruct B as (k & Ik & B). pose proof (O' k Ik) as Ok. destruct v as [n|x]; cbn [stored] in B, Zb.
  - destruct k as [m|m|m|m|f|f]; cbn [cppAssert] in B; try discriminate.
    + destruct (referred cls st s _ f Hr C Ok eq_refl) as (_ & m & E & _). rewrite E in B. discriminate.
    + destruct (referred cls st s _ f Hr C Ok eq_refl) as (_ & m & E & _ & P). rewrite E in B.
      destruct (Z.eqb_spec m 0); [lia|discriminate].
  - destruct k as [m|m|m|m|f|f]; cbn [cppAssert] in B; try discriminate;
      destruct (referred cls st s _ f Hr C Ok eq_refl) as (T' & _); unfold hasType in T; now rewrite T' in T.
Qed.

(** The checks that correspond to a documented range. *)
Definition matchb (s : setter) (r : docRange) : bool :=
  let is u l := Bool.eqb (pyUnlessZero s) u && isb (checks_dec (pyChecks s) l) in
  let int := isb (ctype_dec (cppType s) Uint32) in
  match r with
  | InOpenInterval => is false [IsGreater 0; IsLess 1] && negb int
  | InOpenIntervalOrZero => (is true [IsGreater 0; IsLess 1] || is false [IsGreaterOrEqual 0; IsLess 1]) && negb int
  | InClosedInterval =>
      (is false [IsGreaterOrEqual 0; IsLessOrEqual 1] || (is true [IsGreater 0; IsLess 1] && pyEq (setterName s) (str "set_min_support"))) &&
      negb int
  | AtLeastNumber n => is false [IsGreaterOrEqual n] && (0 <=? n)
  | AtLeastNumberOrZero n => is true [IsGreaterOrEqual n] && (0 <=? n)
  | GreaterThanZero => is false [IsGreater 0]
  | AtLeastFieldOrZero f => is true [IsGreaterOrEqualField f]
  | MultipleOfField f => is false [IsMultipleOf f] && int
  end.

Lemma table_matches :
  forallb (fun s => forallb (fun e => match e with (c, n, r) =>
    negb (pyEq (setterClass s) (str c) && pyEq (setterName s) (str n)) || matchb s r end) docTable) setters = true.
Proof. vm_compute. reflexivity. Qed.

Lemma documented_matches (s : setter) (r : docRange) : In s setters -> documentedRange s r -> matchb s r = true.
Proof.
  intros I (c & n & Ie & C & N). pose proof (proj1 (forallb_forall _ _) table_matches s I) as A. cbv beta in A.
  pose proof (proj1 (forallb_forall _ _) A _ Ie) as B. cbv beta iota in B. rewrite C, N, !pyEq_refl in B. exact B.
Qed.

Lemma num_lt (x : float) (n : Z) : x <> NaN -> (leqb x (num n) = false <-> lt (num n) x).
Proof.
  intros N. unfold num. destruct x as [z|[]|]; cbn [leqb lt]; try (now destruct N); split; try (intros; reflexivity || discriminate).
  - apply Z.leb_gt.
  - apply Z.leb_gt.
Qed.

Lemma lt_num (x : float) (n : Z) : x <> NaN -> (leqb (num n) x = false <-> lt x (num n)).
Proof.
  intros N. unfold num. destruct x as [z|[]|]; cbn [leqb lt]; try (now destruct N); split; try (intros; reflexivity || discriminate).
  - apply Z.leb_gt.
  - apply Z.leb_gt.
Qed.

Lemma le_leqb (x y : float) : x <> NaN -> y <> NaN -> (le x y <-> leqb x y = true).
Proof.
  intros N N'. unfold le. destruct x as [a|[]|], y as [b|[]|]; cbn [leqb lt]; try contradiction; try (now destruct N); try (now destruct N'); split; intros H;
    try reflexivity; try discriminate; try (left; easy); try (right; reflexivity);
    try (destruct H as [H|H]; [discriminate H || (destruct H; discriminate)|discriminate H]).
  - apply Z.leb_le. destruct H as [H|H]; [lia|]. assert (a = b) by congruence. lia.
  - apply Z.leb_le in H. destruct (Z.eq_dec a b) as [->|D]; [now right|left; lia].
Qed.

Lemma gtb_le (x y : float) : x <> NaN -> y <> NaN -> (gtb x y = false <-> le x y).
Proof.
  intros N N'. rewrite le_leqb by assumption. unfold gtb. destruct x, y; try (now destruct N); try (now destruct N'); rewrite negb_false_iff; reflexivity.
Qed.

Lemma zero_num (v : pyvalue) : pyIsZero v = true <-> pyNumber v = num 0.
Proof.
  unfold pyIsZero, num. rewrite Z.mul_0_l. destruct (pyNumber v) as [z|b|]; split; intros H; try discriminate.
  - apply Z.eqb_eq in H. now subst.
  - apply Z.eqb_eq. congruence.
Qed.

Lemma negb_false (b : bool) : negb b = true <-> b = false.
Proof. destruct b; split; intros; try discriminate; reflexivity. Qed.

Lemma num_not_nan (n : Z) : num n <> NaN. Proof. discriminate. Qed.

(** The values that are accepted in Python are those that are documented to be valid. *)
Lemma accepts_documented (cls : pystr) (st : fields) (s : setter) (r : docRange) (v : pyvalue) :
  In s setters -> setterClass s = cls -> inv cls st -> hasType s v -> representable s v -> documentedRange s r ->
  ~ (isMinSupport s /\ pyNumber v = num 1) ->
  (pyAccepts s st v = true /\ nonnegative v <-> inDocRange r st v).
Proof.
  intros I C H T R D N1. apply documented_matches in D; [|exact I]. destruct (shape_inv s I) as (_ & _ & _ & O & _).
  assert (Nn : pyNumber v <> NaN) by (destruct v as [n|x]; cbn [pyNumber]; [discriminate|]; intros ->; exact R).
  assert (Hnn : nonnegative v <-> (cppType s <> Uint32 \/ le (num 0) (pyNumber v))).
  { destruct v as [n|x]; cbn [nonnegative pyNumber].
    - rewrite le_leqb by discriminate. unfold num. rewrite leqb_ints. rewrite Z.leb_le.
      assert (cppType s = Uint32) by (unfold hasType in T; destruct (cppType s); tauto). tauto.
    - assert (cppType s <> Uint32) by (unfold hasType in T; destruct (cppType s); [tauto|discriminate|discriminate]). tauto. }
  unfold matchb in D. cbv zeta in D. destruct r as [| | |n|n| |f|f]; cbn [inDocRange].
  - apply andb_true_iff in D. destruct D as (D & In'). apply andb_true_iff in D. destruct D as (U & L). apply Bool.eqb_prop in U. apply isb_true in L.
    unfold pyAccepts. rewrite U, L. cbn [andb orb forallb pyAssert]. rewrite andb_true_r, andb_true_iff, !negb_false.
    fold (num 0) (num 1). change (pyNumber (PyInt 0)) with (num 0). change (pyNumber (PyInt 1)) with (num 1).
    rewrite num_lt, lt_num by assumption. assert (cppType s <> Uint32) by (intros E; rewrite E in In'; discriminate). tauto.
  - apply andb_true_iff in D. destruct D as (D & In'). assert (cppType s <> Uint32) by (intros E; rewrite E in In'; discriminate).
    apply orb_true_iff in D. destruct D as [D|D]; apply andb_true_iff in D; destruct D as (U & L); apply Bool.eqb_prop in U; apply isb_true in L;
      unfold pyAccepts; rewrite U, L; cbn [andb orb forallb pyAssert]; change (pyNumber (PyInt 0)) with (num 0); change (pyNumber (PyInt 1)) with (num 1).
    + rewrite orb_true_iff, andb_true_r, andb_true_iff, !negb_false, zero_num, num_lt, lt_num by assumption. tauto.
    + rewrite andb_true_r, andb_true_iff, !negb_false, lt_num, gtb_le by (assumption || discriminate).
      split; [|intros [E|(A & B)]].
      * intros ((A & B) & _). destruct A as [A|A]; [right; tauto|left; congruence].
      * rewrite E. split; [|tauto]. split; [now right|]. unfold num. cbn [lt]. pose proof pow_1075. lia.
      * split; [|tauto]. split; [now left|exact B].
  - apply andb_true_iff in D. destruct D as (D & In'). assert (cppType s <> Uint32) by (intros E; rewrite E in In'; discriminate).
    apply orb_true_iff in D. destruct D as [D|D].
    + apply andb_true_iff in D; destruct D as (U & L); apply Bool.eqb_prop in U; apply isb_true in L.
      unfold pyAccepts; rewrite U, L; cbn [andb orb forallb pyAssert]; change (pyNumber (PyInt 0)) with (num 0); change (pyNumber (PyInt 1)) with (num 1).
      rewrite andb_true_r, andb_true_iff, !negb_false, !gtb_le by (assumption || discriminate). tauto.
    + apply andb_true_iff in D; destruct D as (D & Nm). apply andb_true_iff in D; destruct D as (U & L); apply Bool.eqb_prop in U; apply isb_true in L.
      apply pyEq_eq in Nm. unfold pyAccepts; rewrite U, L; cbn [andb orb forallb pyAssert]; change (pyNumber (PyInt 0)) with (num 0); change (pyNumber (PyInt 1)) with (num 1).
      rewrite orb_true_iff, andb_true_r, andb_true_iff, !negb_false, zero_num, num_lt, lt_num by assumption.
      assert (Z1 : pyNumber v <> num 1) by (intros E; apply N1; split; [exact Nm|exact E]). split.
      * intros ([E|(A & B)] & _); [|split; left; assumption]. rewrite E. split; [now right|left].
        unfold num; cbn [lt]; pose proof pow_1075; lia.
      * intros (A & B). split; [|tauto]. destruct B as [B|B]; [|contradiction]. destruct A as [A|A]; [right; tauto|left; congruence].
  - apply andb_true_iff in D. destruct D as (D & Pn). apply andb_true_iff in D; destruct D as (U & L); apply Bool.eqb_prop in U; apply isb_true in L. apply Z.leb_le in Pn.
    unfold pyAccepts; rewrite U, L; cbn [andb orb forallb pyAssert]. change (pyNumber (PyInt n)) with (num n).
    rewrite andb_true_r, negb_false, gtb_le by (assumption || discriminate). split; [tauto|]. intros A. split; [exact A|].
    destruct v as [k|x]; cbn [nonnegative]; [|exact Logic.I]. apply le_leqb in A; [|discriminate|discriminate]. unfold num in A. cbn [pyNumber] in A.
    rewrite leqb_ints in A. apply Z.leb_le in A. lia.
  - apply andb_true_iff in D. destruct D as (D & Pn). apply andb_true_iff in D; destruct D as (U & L); apply Bool.eqb_prop in U; apply isb_true in L. apply Z.leb_le in Pn.
    unfold pyAccepts; rewrite U, L; cbn [andb orb forallb pyAssert]. change (pyNumber (PyInt n)) with (num n).
    rewrite orb_true_iff, andb_true_r, negb_false, gtb_le, zero_num by (assumption || discriminate). split; [tauto|]. intros A. split; [exact A|].
    apply Hnn. right. destruct A as [->|A]; [now right|]. apply le_leqb in A; [|discriminate|exact Nn]. apply le_leqb; [discriminate|exact Nn|].
    unfold num in *. destruct (pyNumber v) as [z|[]|]; cbn [leqb] in *; try discriminate; try reflexivity. apply Z.leb_le in A. apply Z.leb_le.
    pose proof pow_1075. assert (0 <= n * one) by (apply Z.mul_nonneg_nonneg; lia). lia.
  - apply andb_true_iff in D; destruct D as (U & L); apply Bool.eqb_prop in U; apply isb_true in L.
    unfold pyAccepts; rewrite U, L; cbn [andb orb forallb pyAssert]. change (pyNumber (PyInt 0)) with (num 0).
    rewrite andb_true_r, negb_false, num_lt by assumption. rewrite Hnn. unfold le. tauto.
  - apply andb_true_iff in D; destruct D as (U & L); apply Bool.eqb_prop in U; apply isb_true in L.
    assert (Oc : checkOkb s (IsGreaterOrEqualField f) = true) by (apply O; rewrite L; now left).
    destruct (referred cls st s _ f H C Oc eq_refl) as (Ti & m & E & Bm & _).
    unfold pyAccepts; rewrite U, L; cbn [andb orb forallb pyAssert]. rewrite E. cbn [toPython]. change (pyNumber (PyInt m)) with (num m).
    rewrite orb_true_iff, andb_true_r, negb_false, gtb_le, zero_num by (assumption || discriminate). split; [tauto|]. intros A. split; [exact A|].
    unfold hasType in T. rewrite Ti in T. destruct v as [k|x]; [|destruct T]. cbn [nonnegative pyNumber] in *. destruct A as [A|A].
    + unfold num in A. assert (A' : k * one = 0 * one) by congruence. pose proof pow_1075. apply Z.mul_reg_r in A'; lia.
    + apply le_leqb in A; [|discriminate|discriminate]. unfold num in A. rewrite leqb_ints in A. apply Z.leb_le in A. lia.
  - apply andb_true_iff in D. destruct D as (D & _). apply andb_true_iff in D; destruct D as (U & L); apply Bool.eqb_prop in U; apply isb_true in L.
    assert (Oc : checkOkb s (IsMultipleOf f) = true) by (apply O; rewrite L; now left).
    destruct (referred cls st s _ f H C Oc eq_refl) as (Ti & m & E & Bm & Pm).
    unfold hasType in T. rewrite Ti in T. destruct v as [k|x]; [|destruct T].
    unfold pyAccepts; rewrite U, L; cbn [andb orb forallb]. rewrite py_assert_int, E. cbn [nonnegative pyNumber toPython].
    destruct (Z.eqb_spec m 0) as [|Nz]; [lia|]. rewrite andb_true_r, Z.eqb_eq. pose proof pow_1075 as P. split.
    + intros (A & B). exists (k / m). split; [apply Z.div_pos; lia|]. do 2 f_equal. pose proof (Z.div_mod k m Nz). lia.
    + intros (q & Q & A). assert (A' : k * one = q * m * one) by congruence. apply Z.mul_reg_r in A'; [|lia]. subst k.
      split; [apply Z.mod_mul; lia|]. apply Z.mul_nonneg_nonneg; lia.
Qed.

Lemma accepted_documented :
  forall cls st s r v, reachable cls st -> In s setters -> setterClass s = cls -> hasType s v -> representable s v -> documentedRange s r ->
  ~ (isMinSupport s /\ pyNumber v = num 1) ->
  ((exists st', callSetter s st v = Returned st') <-> inDocRange r st v).
Proof.
  intros cls st s r v Hr I C T R D N1. apply reachable_inv in Hr. rewrite <- (accepts_documented cls) by eassumption. split.
  - intros (st' & E). split; [apply call_returned in E; tauto|]. destruct v as [n|x]; cbn [nonnegative]; [|exact Logic.I].
    destruct (Z.ltb_spec n 0); [|assumption]. rewrite (negative_rejected cls) in E by auto. discriminate.
  - intros (A & B). eexists. eapply accepted; eauto.
Qed.

(** All methods are documented. *)
Lemma all_documented :
  forallb (fun s => existsb (fun e => match e with (c, n, _) => pyEq (setterClass s) (str c) && pyEq (setterName s) (str n) end) docTable) setters = true.
Proof. vm_compute. reflexivity. Qed.

Lemma documented :
  forall s, In s setters -> exists r, documentedRange s r.
Proof.
  intros s I. pose proof (proj1 (forallb_forall _ _) all_documented s I) as A. apply existsb_exists in A. destruct A as (((c & n) & r) & Ie & E).
  apply andb_true_iff in E. destruct E as (E1 & E2). apply pyEq_eq in E1. apply pyEq_eq in E2. exists r, c, n. auto.
Qed.

(** The methods of a class have distinct names. *)
Lemma found : forallb (fun s => match findSetter (setterClass s) (setterName s) with Some s' =>
    pyEq (setterField s) (setterField s') && isb (ctype_dec (cppType s) (cppType s')) && isb (ctype_dec (pxdType s) (pxdType s')) &&
    Bool.eqb (pyUnlessZero s) (pyUnlessZero s') && Bool.eqb (cppUnlessZero s) (cppUnlessZero s') && Bool.eqb (translated s) (translated s') &&
    isb (checks_dec (pyChecks s) (pyChecks s')) && isb (checks_dec (cppChecks s) (cppChecks s')) | None => false end) setters = true.
Proof. vm_compute. reflexivity. Qed.

Lemma findSetter_sound (cls name : pystr) (s : setter) :
  findSetter cls name = Some s -> In s setters /\ setterClass s = cls /\ setterName s = name.
Proof.
  unfold findSetter. intros H. apply find_some in H. destruct H as (I & E). apply andb_true_iff in E. destruct E as (A & B).
  apply pyEq_eq in A. apply pyEq_eq in B. auto.
Qed.

Lemma findSetter_complete (s : setter) : In s setters -> findSetter (setterClass s) (setterName s) = Some s.
Proof.
  intros I. pose proof (proj1 (forallb_forall _ _) found s I) as A. cbv beta in A.
  destruct (findSetter (setterClass s) (setterName s)) as [s'|] eqn:F; [|discriminate].
  destruct (findSetter_sound _ _ _ F) as (_ & C & N).
  repeat (apply andb_true_iff in A; let B := fresh "B" in destruct A as (A & B)).
  apply pyEq_eq in A. repeat match goal with H : isb _ = true |- _ => apply isb_true in H end.
  repeat match goal with H : Bool.eqb _ _ = true |- _ => apply Bool.eqb_prop in H end.
  f_equal. destruct s, s'. cbn in *. subst. reflexivity.
Qed.

Definition numeric (k : kind) : bool := match k with GetInt | GetFloat => true | _ => false end.

Definition defaultOkb (s : setter) (c : cvalue) : bool :=
  match c with
  | CInt n => isb (ctype_dec (cppType s) Uint32) && (0 <=? n) && (n <=? 2 ^ 24)
  | CFloat (Finite z) =>
      isb (ctype_dec (cppType s) Float64) || isb (ctype_dec (cppType s) Float32) && match round32 z with Finite z' => z' =? z | _ => false end
  | CFloat _ => false
  end.

Fixpoint strategyb (cls : pystr) (seen : list pystr) (l : list statement) : bool :=
  match l with
  | [] => true
  | SetOption name k key getter :: l' =>
      if numeric k then
        match findSetter cls name with
        | None => false
        | Some s =>
            pyEq (setterField s) getter && negb (pyIn getter seen) &&
            forallb (fun c => match fieldOf c with Some f => pyIn f seen | None => true end) (pyChecks s) &&
            defaultOkb s (newConfig cls getter) &&
            (let v := toPython (newConfig cls getter) in
             pyUnlessZero s && pyIsZero v ||
             forallb (fun c => match fieldOf c with Some _ => false | None => pyAssert (newConfig cls) v c end) (pyChecks s)) &&
            strategyb cls (getter :: seen) l'
        end
      else strategyb cls seen l'
  | _ :: l' => strategyb cls seen l'
  end.

Lemma strategies :
  forallb (fun e => pyEq (fst e) (str "OutputSamplingWithoutReplacementConfig") || pyEq (fst e) (str "PrePruningConfig") ||
    strategyb (fst e) [] (snd e)) strategiesWithOptions = true.
Proof. vm_compute. reflexivity. Qed.

Lemma pyIn_cons (f g : pystr) (l : list pystr) : pyIn f (g :: l) = pyEq f g || pyIn f l.
Proof. reflexivity. Qed.

Definition optionOf (g : pystr) (x : statement) : bool :=
  match x with SetOption _ k _ getter => numeric k && pyEq getter g | _ => false end.

Definition final (cls : pystr) (l : list statement) (given : pystr -> option pyvalue) : fields := fun g =>
  match find (optionOf g) l with
  | Some (SetOption name _ key _) =>
      match given key, findSetter cls name with Some v, Some s => stored s v | _, _ => newConfig cls g end
  | _ => newConfig cls g
  end.

Lemma strategy_seen (cls : pystr) (l : list statement) : forall seen g x,
  strategyb cls seen l = true -> pyIn g seen = true -> In x l -> optionOf g x = false.
Proof.
  induction l as [|y l IH]; intros seen g x S G I; [destruct I|].
  destruct y as [m|name k key getter]; cbn [strategyb] in S.
  - destruct I as [<-|I]; [reflexivity|]. eapply IH; eauto.
  - destruct (numeric k) eqn:K.
    + destruct (findSetter cls name) as [s|]; [|discriminate].
      apply andb_true_iff in S. destruct S as (S & S'). repeat (apply andb_true_iff in S; let B := fresh "B" in destruct S as (S & B)).
      destruct I as [<-|I].
      * cbn [optionOf]. rewrite K. cbn [andb]. apply not_true_iff_false. intros E. apply pyEq_eq in E. subst g. rewrite G in B2. discriminate.
      * eapply IH; [exact S'| |exact I]. rewrite pyIn_cons, G. apply orb_true_r.
    + destruct I as [<-|I]; [cbn [optionOf]; now rewrite K|]. eapply IH; eauto.
Qed.

Lemma strategy_find (cls : pystr) (l : list statement) : forall seen name k key getter,
  strategyb cls seen l = true -> In (SetOption name k key getter) l -> numeric k = true ->
  find (optionOf getter) l = Some (SetOption name k key getter) /\
  exists s, findSetter cls name = Some s /\ setterField s = getter.
Proof.
  induction l as [|y l IH]; intros seen name k key getter S I K; [destruct I|].
  destruct y as [m|name' k' key' getter']; cbn [strategyb] in S; cbn [find].
  - destruct I as [I|I]; [discriminate|]. cbn [optionOf]. eapply IH; eauto.
  - destruct (numeric k') eqn:K'.
    + destruct (findSetter cls name') as [s|] eqn:F; [|discriminate].
      apply andb_true_iff in S. destruct S as (S & S'). repeat (apply andb_true_iff in S; let B := fresh "B" in destruct S as (S & B)).
      destruct I as [I|I].
      * injection I as <- <- <- <-. cbn [optionOf]. rewrite K', pyEq_refl. cbn [andb]. split; [reflexivity|].
        exists s. split; [exact F|now apply pyEq_eq].
      * assert (E : optionOf getter (SetOption name' k' key' getter') = false).
        { cbn [optionOf]. rewrite K'. cbn [andb]. apply not_true_iff_false. intros E. apply pyEq_eq in E. subst getter'.
          assert (X : optionOf getter (SetOption name k key getter) = false).
          { eapply strategy_seen; [exact S'| |exact I]. now rewrite pyIn_cons, pyEq_refl. }
          cbn [optionOf] in X. rewrite K, pyEq_refl in X. discriminate. }
        rewrite E. eapply IH; eauto.
    + destruct I as [I|I]; [injection I as <- <- <- <-; congruence|]. cbn [optionOf]. rewrite K'. cbn [andb]. eapply IH; eauto.
Qed.

Lemma numeric_kind (k : kind) : k = GetInt \/ k = GetFloat <-> numeric k = true.
Proof. destruct k; cbn [numeric]; split; intros H; try discriminate; try reflexivity; try tauto; destruct H; discriminate. Qed.

Lemma final_fields (cls : pystr) (l : list statement) (given : pystr -> option pyvalue) (st : fields) :
  strategyb cls [] l = true -> (forall f, st f = final cls l given f) -> finalFields cls l given st.
Proof.
  intros S E name k key getter I K. apply numeric_kind in K. destruct (strategy_find cls l _ _ _ _ _ S I K) as (F & s & Fs & Fd).
  destruct (findSetter_sound _ _ _ Fs) as (Is & C & N). exists s. repeat split; auto. rewrite E. unfold final. rewrite F, Fs.
  destruct (given key); reflexivity.
Qed.

Definition rangeField (r : docRange) : option pystr :=
  match r with AtLeastFieldOrZero f | MultipleOfField f => Some f | _ => None end.

Lemma inDocRange_ext (r : docRange) (st st' : fields) (v : pyvalue) :
  (forall f, rangeField r = Some f -> st f = st' f) -> inDocRange r st v -> inDocRange r st' v.
Proof. intros E. destruct r; cbn [inDocRange rangeField] in *; try tauto; now rewrite (E f eq_refl). Qed.

Lemma range_check (s : setter) (r : docRange) (f : pystr) :
  matchb s r = true -> rangeField r = Some f -> exists c, In c (pyChecks s) /\ fieldOf c = Some f.
Proof.
  intros M R. destruct r; try discriminate; injection R as ->; cbn [matchb] in M.
  - apply andb_true_iff in M. destruct M as (_ & M). apply isb_true in M. rewrite M. eexists. split; [now left|reflexivity].
  - apply andb_true_iff in M. destruct M as (M & _). apply andb_true_iff in M. destruct M as (_ & M). apply isb_true in M. rewrite M.
    eexists. split; [now left|reflexivity].
Qed.

Lemma default_ok (s : setter) (c : cvalue) :
  defaultOkb s c = true ->
  hasType s (toPython c) /\ representable s (toPython c) /\ nonnegative (toPython c) /\ stored s (toPython c) = c.
Proof.
  intros D. assert (A : hasType s (toPython c) /\ representable s (toPython c) /\ nonnegative (toPython c)).
  { destruct c as [n|[z| |]]; try discriminate; cbn [defaultOkb toPython hasType representable nonnegative] in *.
    - apply andb_true_iff in D. destruct D as (D & B). apply andb_true_iff in D. destruct D as (T & A). apply isb_true in T.
      apply Z.leb_le in A, B. unfold hasType. rewrite T. repeat split; auto. destruct (existsb _ _); [exact B|].
      assert (2 ^ 24 < 2 ^ 32 - 1) by reflexivity. lia.
    - unfold hasType. apply orb_true_iff in D. destruct D as [D|D].
      + apply isb_true in D. rewrite D. auto.
      + apply andb_true_iff in D. destruct D as (T & D). apply isb_true in T. rewrite T. split; [exact Logic.I|]. split; [|exact Logic.I].
        right. destruct (round32 z) as [z'| |] eqn:R; try discriminate. apply Z.eqb_eq in D. subst z'. eapply round32_float32. exact R. }
  destruct A as (A & B & C). repeat split; auto. rewrite representable_stored by assumption. destruct c; reflexivity.
Qed.

Lemma pyAssert_ext (st st' : fields) (v : pyvalue) (c : check) : fieldOf c = None -> pyAssert st v c = pyAssert st' v c.
Proof. destruct c; cbn [fieldOf pyAssert]; try discriminate; reflexivity. Qed.

Lemma apply_suffix (cls : pystr) (full : list statement) (given : pystr -> option pyvalue) :
  strategyb cls [] full = true -> optionsValid cls full given ->
  forall l seen st, (forall x, In x l -> In x full) -> strategyb cls seen l = true -> inv cls st ->
  (forall f, pyIn f seen = true -> st f = final cls full given f) ->
  (forall f, pyIn f seen = false -> st f = newConfig cls f) ->
  (forall f, pyIn f seen = false -> (forall x, In x l -> optionOf f x = false) -> final cls full given f = newConfig cls f) ->
  exists st', applyOptions cls given st l = Returned st' /\ forall f, st' f = final cls full given f.
Proof.
  intros S0 V l. induction l as [|y l IH]; intros seen st Sub S H A B D.
  - exists st. split; [reflexivity|]. intros f. destruct (pyIn f seen) eqn:E; [auto|]. rewrite (B f E). symmetry. apply D; [exact E|intros ? []].
  - assert (Sub' : forall x, In x l -> In x full) by (intros; apply Sub; now right).
    destruct y as [m|name k key getter]; cbn [strategyb] in S.
    + cbn [applyOptions]. apply (IH seen st); auto. intros f E X. apply D; [exact E|]. intros x [<-|I]; auto.
    + destruct (numeric k) eqn:K.
      * destruct (findSetter cls name) as [s|] eqn:F; [|discriminate]. destruct (findSetter_sound _ _ _ F) as (Is & C & N).
        apply andb_true_iff in S. destruct S as (S & S'). apply andb_true_iff in S. destruct S as (S & Dv). cbv zeta in Dv.
        apply andb_true_iff in S. destruct S as (S & Dk). apply andb_true_iff in S. destruct S as (S & Dp). apply andb_true_iff in S. destruct S as (Fd & Ns).
        apply pyEq_eq in Fd. apply negb_false in Ns.
        assert (If : In (SetOption name k key getter) full) by (apply Sub; now left).
        destruct (strategy_find cls full _ _ _ _ _ S0 If K) as (Ff & _).
        assert (Efin : final cls full given getter = match given key with Some v => stored s v | None => newConfig cls getter end).
        { unfold final. rewrite Ff, F. destruct (given key); reflexivity. }
        set (v := match given key with Some v => v | None => toPython (st getter) end).
        assert (Ev : callSetter s st v = Returned (assign st (setterField s) (final cls full given getter))).
        { destruct (given key) as [w|] eqn:G; subst v; rewrite Efin.
          - destruct (V name k key getter w s If G Is C N) as (T & R & r & Dr & N1 & X).
            assert (Y : inDocRange r st w).
            { apply (inDocRange_ext r (final cls full given)); [|apply X; now apply final_fields].
              intros f Rf. symmetry. apply A. destruct (range_check s r f (documented_matches s r Is Dr) Rf) as (c & Ic & Fc).
              rewrite forallb_forall in Dp. specialize (Dp c Ic). now rewrite Fc in Dp. }
            apply (accepts_documented cls st s r w Is C H T R Dr N1) in Y. destruct Y. eapply accepted; eauto.
          - rewrite (B getter Ns). destruct (default_ok s _ Dk) as (T & R & P & E). rewrite <- E at 2. eapply accepted; eauto.
            unfold pyAccepts. apply orb_true_iff in Dv. apply orb_true_iff. destruct Dv as [Dv|Dv]; [now left|right].
            rewrite forallb_forall in *. intros c Ic. specialize (Dv c Ic). destruct (fieldOf c) eqn:Fc; [discriminate|].
            rewrite (pyAssert_ext st (newConfig cls)) by exact Fc. exact Dv. }
        assert (step : applyOptions cls given st (SetOption name k key getter :: l) =
          applyOptions cls given (assign st (setterField s) (final cls full given getter)) l).
        { cbn [applyOptions]. fold v. destruct k; try discriminate; rewrite F, Ev; reflexivity. }
        rewrite step. rewrite Fd in *. apply (IH (getter :: seen)); auto.
        -- eapply inv_call; [exact Is|exact C|exact H|]. exact Ev.
        -- intros f E. unfold assign. rewrite pyIn_cons in E. destruct (pyEq f getter) eqn:Q; [apply pyEq_eq in Q; now subst f|auto].
        -- intros f E. unfold assign. rewrite pyIn_cons in E. destruct (pyEq f getter) eqn:Q; [discriminate|auto].
        -- intros f E X. rewrite pyIn_cons in E. apply orb_false_iff in E. destruct E as (Q & E). apply D; [exact E|].
           intros x [<-|I]; [|auto]. cbn [optionOf]. rewrite K. cbn [andb]. apply not_true_iff_false. intros W. apply pyEq_eq in W. subst f.
           rewrite pyEq_refl in Q. discriminate.
      * assert (step : applyOptions cls given st (SetOption name k key getter :: l) = applyOptions cls given st l)
          by (destruct k; try discriminate; reflexivity).
        rewrite step. apply (IH seen st); auto. intros f E X. apply D; [exact E|]. intros x [<-|I]; [cbn [optionOf]; now rewrite K|auto].
Qed.

Lemma options_applied :
  forall cls l given, In (cls, l) strategiesWithOptions ->
  cls <> str "OutputSamplingWithoutReplacementConfig" -> cls <> str "PrePruningConfig" -> optionsValid cls l given ->
  exists st, applyOptions cls given (newConfig cls) l = Returned st /\ finalFields cls l given st.
Proof.
  intros cls l given I N1 N2 V. pose proof (proj1 (forallb_forall _ _) strategies _ I) as S. cbn [fst snd] in S.
  apply orb_true_iff in S. destruct S as [S|S].
  { apply orb_true_iff in S. destruct S as [S|S]; apply pyEq_eq in S; contradiction. }
  destruct (apply_suffix cls l given S V l [] (newConfig cls)) as (st & E & F); auto using inv_new.
  - discriminate.
  - intros f _ X. unfold final. destruct (find (optionOf f) l) as [x|] eqn:Q; [|reflexivity]. apply find_some in Q. destruct Q as (Ix & Q).
    rewrite (X x Ix) in Q. discriminate.
  - exists st. split; [exact E|]. now apply final_fields.
Qed.

(** A value that is changed. *)
Lemma changed_refuted :
  exists cls st st' s n m, reachable cls st /\ In s setters /\ setterClass s = cls /\ hasType s (PyInt n) /\ 0 <= n < 2 ^ 32 /\
  callSetter s st (PyInt n) = Returned st' /\ st' (setterField s) = CInt m /\ m <> n.
Proof.
  set (cls := str "InstanceSamplingWithoutReplacementConfig").
  destruct (findSetter cls (str "set_max_samples")) as [s|] eqn:F; [|vm_compute in F; discriminate].
  destruct (findSetter_sound _ _ _ F) as (I & C & _).
  exists cls, (newConfig cls), (assign (newConfig cls) (setterField s) (CInt 16777216)), s, 16777217, 16777216.
  vm_compute in F. injection F as <-. split; [constructor|]. split; [exact I|]. split; [exact C|]. split; [exact Logic.I|].
  split; [split; [discriminate|reflexivity]|]. split; [vm_compute; reflexivity|]. split; [vm_compute; reflexivity|discriminate].
Qed.

(** A conversion that is undefined. *)
Lemma undefined_refuted :
  exists cls st s n, reachable cls st /\ In s setters /\ setterClass s = cls /\ hasType s (PyInt n) /\ 0 <= n < 2 ^ 32 /\
  callSetter s st (PyInt n) = UndefinedBehavior.
Proof.
  set (cls := str "InstanceSamplingWithoutReplacementConfig").
  destruct (findSetter cls (str "set_max_samples")) as [s|] eqn:F; [|vm_compute in F; discriminate].
  destruct (findSetter_sound _ _ _ F) as (I & C & _).
  exists cls, (newConfig cls), s, 4294967295.
  vm_compute in F. injection F as <-. split; [constructor|]. split; [exact I|]. split; [exact C|]. split; [exact Logic.I|].
  split; [split; [discriminate|reflexivity]|]. vm_compute. reflexivity.
Qed.

(** A value in the documented range that terminates the process, the double-precision value that precedes one. *)
Lemma terminated_refuted :
  exists cls st s r z, reachable cls st /\ In s setters /\ setterClass s = cls /\ hasType s (PyFloat (Finite z)) /\ round64 z = Finite z /\
  documentedRange s r /\ inDocRange r st (PyFloat (Finite z)) /\ callSetter s st (PyFloat (Finite z)) = Terminated.
Proof.
  set (cls := str "OutputSamplingWithoutReplacementConfig").
  destruct (findSetter cls (str "set_sample_size")) as [s|] eqn:F; [|vm_compute in F; discriminate].
  destruct (findSetter_sound _ _ _ F) as (I & C & N).
  exists cls, (newConfig cls), s, InOpenInterval, (one - 2 ^ 1022).
  split; [constructor|]. split; [exact I|]. split; [exact C|].
  split; [vm_compute in F; injection F as <-; exact Logic.I|]. split; [vm_compute; reflexivity|]. split.
  { exists "OutputSamplingWithoutReplacementConfig"%string, "set_sample_size"%string. split; [|auto]. vm_compute. tauto. }
  split; [split; reflexivity|]. vm_compute in F. injection F as <-. vm_compute. reflexivity.
Qed.

(** A documented value that is rejected. *)
Lemma one_refuted :
  exists cls st s r v, reachable cls st /\ In s setters /\ setterClass s = cls /\ hasType s v /\ representable s v /\
  documentedRange s r /\ inDocRange r st v /\ callSetter s st v = Raised.
Proof.
  set (cls := str "GreedyTopDownRuleInductionConfig").
  destruct (findSetter cls (str "set_min_support")) as [s|] eqn:F; [|vm_compute in F; discriminate].
  destruct (findSetter_sound _ _ _ F) as (I & C & N).
  exists cls, (newConfig cls), s, InClosedInterval, (PyFloat (Finite one)).
  split; [constructor|]. split; [exact I|]. split; [exact C|].
  split; [vm_compute in F; injection F as <-; exact Logic.I|].
  split. { cbn [representable]. right. exists 1, 1075. repeat split; try lia; reflexivity. }
  split. { exists "GreedyTopDownRuleInductionConfig"%string, "set_min_support"%string. split; [|auto]. vm_compute. tauto. }
  split. { split; [left; reflexivity|right; reflexivity]. } vm_compute in F. injection F as <-. vm_compute. reflexivity.
Qed.

(** The user guide mentions the value one. *)
Lemma guide_refuted :
  Forall (fun cls => exists s, In s setters /\ setterClass s = cls /\ setterName s = str "set_sample_size" /\
    forall st, callSetter s st (PyFloat (num 1)) = Raised)
    [str "OutputSamplingWithoutReplacementConfig"; str "FeatureSamplingWithoutReplacementConfig"].
Proof.
  repeat constructor.
  - destruct (findSetter (str "OutputSamplingWithoutReplacementConfig") (str "set_sample_size")) as [s|] eqn:F; [|vm_compute in F; discriminate].
    exists s. destruct (findSetter_sound _ _ _ F) as (I & C & N). repeat split; auto. vm_compute in F. injection F as <-. intros st. vm_compute. reflexivity.
  - destruct (findSetter (str "FeatureSamplingWithoutReplacementConfig") (str "set_sample_size")) as [s|] eqn:F; [|vm_compute in F; discriminate].
    exists s. destruct (findSetter_sound _ _ _ F) as (I & C & N). repeat split; auto. vm_compute in F. injection F as <-. intros st. vm_compute. reflexivity.
Qed.

(** A value that is no number, but accepted. *)
Lemma nan_refuted :
  exists cls st st' s r, reachable cls st /\ In s setters /\ setterClass s = cls /\ hasType s (PyFloat NaN) /\
  documentedRange s r /\ ~ inDocRange r st (PyFloat NaN) /\ callSetter s st (PyFloat NaN) = Returned st'.
Proof.
  set (cls := str "FMeasureConfig").
  destruct (findSetter cls (str "set_beta")) as [s|] eqn:F; [|vm_compute in F; discriminate].
  destruct (findSetter_sound _ _ _ F) as (I & C & N).
  exists cls, (newConfig cls), (assign (newConfig cls) (setterField s) (CFloat NaN)), s, (AtLeastNumber 0).
  split; [constructor|]. split; [exact I|]. split; [exact C|].
  split; [vm_compute in F; injection F as <-; exact Logic.I|].
  split. { exists "FMeasureConfig"%string, "set_beta"%string. split; [|auto]. vm_compute. tauto. }
  split. { intros [H|H]; [exact H|discriminate H]. } vm_compute in F. injection F as <-. vm_compute. reflexivity.
Qed.

(** Options that make the default values of others invalid. *)
Lemma single_option (cls : pystr) (l : list statement) (key0 name0 : pystr) (v0 : pyvalue) (s0 : setter) (r0 : docRange) :
  forallb (fun x => match x with SetOption name _ key _ => negb (pyEq key key0) || pyEq name name0 | _ => true end) l = true ->
  findSetter cls name0 = Some s0 -> hasType s0 v0 -> representable s0 v0 -> documentedRange s0 r0 -> ~ isMinSupport s0 ->
  (forall st, inDocRange r0 st v0) ->
  optionsValid cls l (fun key => if pyEq key key0 then Some v0 else None).
Proof.
  intros L F T R D N X name k key getter v s I G Is C Nm. rewrite forallb_forall in L. specialize (L _ I). cbn in L.
  destruct (pyEq key key0); [|discriminate]. cbn [negb orb] in L. apply pyEq_eq in L. assert (v = v0) by congruence. subst v.
  pose proof (findSetter_complete s Is) as E. rewrite C, Nm, L, F in E. assert (s = s0) by congruence. subst s.
  split; [exact T|]. split; [exact R|]. exists r0. split; [exact D|]. split; [tauto|auto].
Qed.

Lemma max_samples_refuted :
  exists l n, In (str "OutputSamplingWithoutReplacementConfig", l) strategiesWithOptions /\
  let cls := str "OutputSamplingWithoutReplacementConfig" in
  let given := fun key => if pyEq key (str "min_samples") then Some (PyInt n) else None in
  optionsValid cls l given /\ applyOptions cls given (newConfig cls) l = Raised.
Proof.
  set (cls := str "OutputSamplingWithoutReplacementConfig"). exists (outputSamplingParameterConfigure (str "without-replacement")), 2.
  split; [unfold strategiesWithOptions; do 4 right; left; reflexivity|]. cbv zeta. split; [|vm_compute; reflexivity].
  destruct (findSetter cls (str "set_min_samples")) as [s|] eqn:F; [|vm_compute in F; discriminate].
  destruct (findSetter_sound _ _ _ F) as (I & C & N).
  apply (single_option cls _ _ (str "set_min_samples") _ s (AtLeastNumber 1)); [vm_compute; reflexivity|exact F| | | | |].
  - vm_compute in F. injection F as <-. exact Logic.I.
  - vm_compute in F. injection F as <-. vm_compute. discriminate.
  - exists "OutputSamplingWithoutReplacementConfig"%string, "set_min_samples"%string. split; [|auto]. vm_compute. tauto.
  - unfold isMinSupport. rewrite N. discriminate.
  - intros st. left. reflexivity.
Qed.

Lemma stop_interval_refuted :
  exists l n, In (str "PrePruningConfig", l) strategiesWithOptions /\
  let cls := str "PrePruningConfig" in
  let given := fun key => if pyEq key (str "update_interval") then Some (PyInt n) else None in
  optionsValid cls l given /\ applyOptions cls given (newConfig cls) l = Raised.
Proof.
  set (cls := str "PrePruningConfig"). exists (globalPruningParameterConfigure (str "pre-pruning")), 2.
  split; [unfold strategiesWithOptions; do 14 right; left; reflexivity|]. cbv zeta. split; [|vm_compute; reflexivity].
  destruct (findSetter cls (str "set_update_interval")) as [s|] eqn:F; [|vm_compute in F; discriminate].
  destruct (findSetter_sound _ _ _ F) as (I & C & N).
  apply (single_option cls _ _ (str "set_update_interval") _ s (AtLeastNumber 1)); [vm_compute; reflexivity|exact F| | | | |].
  - vm_compute in F. injection F as <-. exact Logic.I.
  - vm_compute in F. injection F as <-. vm_compute. discriminate.
  - exists "PrePruningConfig"%string, "set_update_interval"%string. split; [|auto]. vm_compute. tauto.
  - unfold isMinSupport. rewrite N. discriminate.
  - intros st. left. reflexivity.
Qed.
