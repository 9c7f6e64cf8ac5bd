(** Arrays as lists with checked accesses, and the option monad.
    An access outside of the array is undefined behaviour in C++ and is represented by [None]. *)
From Coq Require Import List Arith Lia Permutation Bool.
Import ListNotations.

Notation "'let*' x ':=' e1 'in' e2" :=
  (match e1 with Some x => e2 | None => None end)
  (at level 200, x pattern, e1 at level 100, e2 at level 200, right associativity).

(** [aget l i] reads the element at index [i]. *)
Definition aget {A} (l : list A) (i : nat) : option A := nth_error l i.

(** Replaces the element at index [i]; no effect if out of range (see [aset]). *)
Fixpoint upd {A} (l : list A) (i : nat) (v : A) : list A :=
  match l, i with
  | [], _ => []
  | _ :: t, O => v :: t
  | h :: t, S i' => h :: upd t i' v
  end.

(** [aset l i v] writes [v] at index [i]; [None] if out of range. *)
Definition aset {A} (l : list A) (i : nat) (v : A) : option (list A) :=
  if i <? length l then Some (upd l i v) else None.

Lemma upd_length {A} (l : list A) i v : length (upd l i v) = length l.
Proof. revert i; induction l; destruct i; simpl; auto. Qed.

Lemma nth_error_upd_eq {A} (l : list A) i v : i < length l -> nth_error (upd l i v) i = Some v.
Proof. revert i; induction l; destruct i; simpl; intros; auto; try lia. apply IHl; lia. Qed.

Lemma nth_error_upd_neq {A} (l : list A) i j v : i <> j -> nth_error (upd l i v) j = nth_error l j.
Proof. revert i j; induction l; destruct i, j; simpl; intros; auto; try lia. Qed.

Lemma nth_error_upd {A} (l : list A) i j v :
  nth_error (upd l i v) j = if (i =? j) && (i <? length l) then Some v else nth_error l j.
Proof.
  destruct (Nat.eqb_spec i j).
  - subst. simpl. destruct (Nat.ltb_spec j (length l)).
    + apply nth_error_upd_eq; auto.
    + transitivity (@None A); [|symmetry]; apply nth_error_None; rewrite ?upd_length; lia.
  - simpl. apply nth_error_upd_neq; auto.
Qed.

Lemma upd_split {A} (l : list A) i v x :
  nth_error l i = Some x -> exists l1 l2, l = l1 ++ x :: l2 /\ length l1 = i /\ upd l i v = l1 ++ v :: l2.
Proof.
  revert i; induction l; destruct i; simpl; intros H; try discriminate.
  - injection H as ->. exists [], l. auto.
  - destruct (IHl _ H) as (l1 & l2 & -> & <- & E). exists (a :: l1), l2. simpl. rewrite E. auto.
Qed.

Lemma aset_Some {A} (l : list A) i v : i < length l -> aset l i v = Some (upd l i v).
Proof. intros. unfold aset. destruct (Nat.ltb_spec i (length l)); auto; lia. Qed.

Lemma aset_inv {A} (l l' : list A) i v : aset l i v = Some l' -> i < length l /\ l' = upd l i v.
Proof. unfold aset. destruct (Nat.ltb_spec i (length l)); intros [=]; auto. Qed.

Lemma aget_Some {A} (l : list A) i : i < length l -> exists x, aget l i = Some x.
Proof.
  unfold aget. intros. destruct (nth_error l i) eqn:E; eauto.
  apply nth_error_None in E. lia.
Qed.

Lemma nth_error_ext {A} (l1 l2 : list A) :
  (forall i, nth_error l1 i = nth_error l2 i) -> l1 = l2.
Proof.
  revert l2; induction l1; destruct l2; intros H; auto.
  - specialize (H 0); discriminate.
  - specialize (H 0); discriminate.
  - f_equal.
    + specialize (H 0). injection H as ->. auto.
    + apply IHl1. intros i. apply (H (S i)).
Qed.

Lemma upd_upd {A} (l : list A) i v w : upd (upd l i v) i w = upd l i w.
Proof. revert i; induction l; destruct i; simpl; auto. f_equal; auto. Qed.

Lemma upd_comm {A} (l : list A) i j v w : i <> j -> upd (upd l i v) j w = upd (upd l j w) i v.
Proof. revert i j; induction l; destruct i, j; simpl; intros; auto; try lia. f_equal; auto. Qed.

Lemma upd_nth_same {A} (l : list A) i x : nth_error l i = Some x -> upd l i x = l.
Proof. revert i; induction l; destruct i; simpl; intros H; auto; try discriminate.
  - injection H as ->. auto.
  - f_equal; auto.
Qed.

Lemma upd_oob {A} (l : list A) i x : length l <= i -> upd l i x = l.
Proof. revert i; induction l; destruct i; simpl; intros; auto; try lia. f_equal. apply IHl; lia. Qed.

Lemma perm_swap_mid {A} (l1 l2 : list A) x y : Permutation (x :: l1 ++ y :: l2) (y :: l1 ++ x :: l2).
Proof.
  transitivity (x :: y :: l1 ++ l2).
  - apply perm_skip. symmetry. apply Permutation_middle.
  - rewrite perm_swap. apply perm_skip. apply Permutation_middle.
Qed.

(** Swapping two elements permutes the list. *)
Lemma swap_perm {A} (l : list A) i j x y :
  nth_error l i = Some x -> nth_error l j = Some y ->
  Permutation l (upd (upd l i y) j x).
Proof.
  revert i j; induction l; intros i j Hi Hj.
  - destruct i; discriminate.
  - destruct i, j; simpl in *.
    + injection Hi as ->. injection Hj as ->. auto.
    + injection Hi as ->.
      destruct (upd_split l j x y Hj) as (l1 & l2 & -> & _ & ->).
      apply perm_swap_mid.
    + injection Hj as ->.
      destruct (upd_split l i y x Hi) as (l1 & l2 & -> & _ & ->).
      apply perm_swap_mid.
    + apply perm_skip. auto.
Qed.

Lemma upd_In {A} (l : list A) i v x : In x (upd l i v) -> x = v \/ In x l.
Proof.
  revert i; induction l; destruct i; simpl; intros; auto.
  - destruct H; auto.
  - destruct H; auto. destruct (IHl _ H); auto.
Qed.

Lemma upd_app1 {A} (l1 l2 : list A) i v : i < length l1 -> upd (l1 ++ l2) i v = upd l1 i v ++ l2.
Proof. revert i; induction l1; destruct i; simpl; intros; auto; try lia. f_equal. apply IHl1. lia. Qed.

Lemma upd_app2 {A} (l1 l2 : list A) i v : length l1 <= i -> upd (l1 ++ l2) i v = l1 ++ upd l2 (i - length l1) v.
Proof. revert i; induction l1; intros; simpl in *.
  - rewrite Nat.sub_0_r. auto.
  - destruct i; [lia|]. simpl. f_equal. apply IHl1. lia.
Qed.

Lemma list_ext_len {A} (a b : list A) : length a = length b ->
  (forall i, i < length a -> nth_error a i = nth_error b i) -> a = b.
Proof.
  intros HL H. apply nth_error_ext. intros i. destruct (Nat.lt_ge_cases i (length a)); auto.
  rewrite (proj2 (nth_error_None a i)), (proj2 (nth_error_None b i)); auto. lia.
Qed.

(** A [for] loop over [i, i+1, ..., i+cnt-1] with a loop-carried state. *)
Fixpoint forN {S} (cnt i : nat) (body : nat -> S -> option S) (st : S) : option S :=
  match cnt with
  | O => Some st
  | Datatypes.S c => let* st' := body i st in forN c (Datatypes.S i) body st'
  end.

(** Invariant rule. *)
Lemma forN_inv {S} (Inv : nat -> S -> Prop) (body : nat -> S -> option S) cnt : forall i st,
  Inv i st ->
  (forall j st, i <= j < i + cnt -> Inv j st -> exists st', body j st = Some st' /\ Inv (Datatypes.S j) st') ->
  exists st', forN cnt i body st = Some st' /\ Inv (i + cnt) st'.
Proof.
  induction cnt; intros i st H0 Hs; simpl.
  - rewrite Nat.add_0_r. eauto.
  - destruct (Hs i st) as (st1 & -> & H1); auto; [lia|].
    destruct (IHcnt (Datatypes.S i) st1) as (st2 & -> & H2); auto.
    + intros j st' Hj. apply Hs. lia.
    + exists st2. split; auto. rewrite <- Nat.add_succ_comm. auto.
Qed.

Lemma forN_split {S} (body : nat -> S -> option S) a b : forall i st,
  forN (a + b) i body st = (let* st' := forN a i body st in forN b (i + a) body st').
Proof.
  induction a; intros; simpl.
  - rewrite Nat.add_0_r. auto.
  - destruct (body i st); auto. rewrite IHa. rewrite <- Nat.add_succ_comm. auto.
Qed.

Lemma forN_ext {S} (b1 b2 : nat -> S -> option S) cnt : forall i st,
  (forall j st, i <= j < i + cnt -> b1 j st = b2 j st) -> forN cnt i b1 st = forN cnt i b2 st.
Proof.
  induction cnt; intros; simpl; auto. rewrite H by lia. destruct (b2 i st); auto.
  apply IHcnt. intros. apply H. lia.
Qed.

(** A loop over the elements of a list with a loop-carried state. *)
Fixpoint forL {A S} (l : list A) (body : A -> S -> option S) (st : S) : option S :=
  match l with
  | [] => Some st
  | a :: l' => let* st' := body a st in forL l' body st'
  end.

(** Invariant rule: [Inv done st] after the elements [done] have been handled. *)
Lemma forL_inv {A S} (Inv : list A -> S -> Prop) (body : A -> S -> option S) (l : list A) : forall pre st,
  Inv pre st ->
  (forall p a r st, pre ++ l = p ++ a :: r -> Inv p st -> exists st', body a st = Some st' /\ Inv (p ++ [a]) st') ->
  exists st', forL l body st = Some st' /\ Inv (pre ++ l) st'.
Proof.
  induction l as [|a l IH]; intros pre st H0 Hs; simpl.
  - rewrite app_nil_r. eauto.
  - destruct (Hs pre a l st) as (st1 & -> & H1); auto.
    destruct (IH (pre ++ [a]) st1) as (st2 & -> & H2); auto.
    + intros p b r st' E. apply (Hs p b r). rewrite <- E, <- app_assoc. auto.
    + exists st2. split; auto. rewrite <- app_assoc in H2. auto.
Qed.

Lemma forL_app {A S} (body : A -> S -> option S) a b : forall st,
  forL (a ++ b) body st = (let* st' := forL a body st in forL b body st').
Proof. induction a as [|x a IH]; intros; simpl; auto. destruct (body x st); auto. Qed.

Lemma forL_ext {A S} (b1 b2 : A -> S -> option S) l : (forall a st, In a l -> b1 a st = b2 a st) ->
  forall st, forL l b1 st = forL l b2 st.
Proof.
  induction l as [|a l IH]; intros H st; simpl; auto. rewrite H by (left; auto). destruct (b2 a st); auto.
  apply IH. intros. apply H. right. auto.
Qed.

Lemma forL_map {A B S} (f : A -> B) (body : B -> S -> option S) l : forall st,
  forL (map f l) body st = forL l (fun a => body (f a)) st.
Proof. induction l as [|a l IH]; intros st; simpl; auto. destruct (body (f a) st); auto. Qed.

(** Nested loops. *)
Lemma forL_nested {A B S} (g : A -> list B) (body : A -> B -> S -> option S) l : forall st,
  forL l (fun a st => forL (g a) (body a) st) st
  = forL (flat_map (fun a => map (pair a) (g a)) l) (fun p => body (fst p) (snd p)) st.
Proof.
  induction l as [|a l IH]; intros st; simpl; auto. rewrite forL_app, forL_map. simpl.
  destruct (forL (g a) (body a) st); auto.
Qed.
