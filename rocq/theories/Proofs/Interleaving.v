(** If steps of different threads commute, all interleavings have the same effect. *)
From Coq Require Import List Arith Lia.
From Verif Require Import Lib.Arr Spec.Interleaving.
Import ListNotations.

Section Commute.
Context {A S : Type} (exec : A -> S -> option S).

Definition commute (a b : A) : Prop :=
  forall s, (let* s' := exec a s in exec b s') = (let* s' := exec b s in exec a s').

Lemma run_move a : forall xs ys s, (forall b, In b xs -> commute b a) ->
  forL (xs ++ a :: ys) exec s = forL (a :: xs ++ ys) exec s.
Proof.
  induction xs as [|x xs IH]; intros ys s H; auto.
  simpl app. cbn [forL]. destruct (exec x s) as [s1|] eqn:Ex.
  - rewrite IH by (intros b Hb; apply H; right; auto). cbn [forL].
    pose proof (H x (or_introl eq_refl) s) as C. rewrite Ex in C. rewrite C.
    destruct (exec a s) as [s2|]; auto.
  - pose proof (H x (or_introl eq_refl) s) as C. rewrite Ex in C.
    destruct (exec a s) as [s2|]; auto. rewrite <- C. auto.
Qed.

Lemma interleaving_run ps l : interleaving ps l ->
  (forall ps1 p ps2 a b, ps = ps1 ++ p :: ps2 -> In a p -> In b (concat ps1) -> commute b a) ->
  forall s, forL l exec s = forL (concat ps) exec s.
Proof.
  intros H. induction H as [ps Hall|ps1 a p ps2 l H IH]; intros C s.
  - assert (concat ps = []) as ->; auto. induction Hall as [|p ps -> _ IHall]; auto. apply IHall.
    intros ps1 p ps2 a b -> Ha Hb. apply (C ([] :: ps1) p ps2 a b); auto.
  - assert (C': forall ps1' p' ps2' a' b', ps1 ++ p :: ps2 = ps1' ++ p' :: ps2' -> In a' p' -> In b' (concat ps1') ->
      commute b' a').
    { intros q1 q q2 a' b' E Ha Hb.
      apply app_eq_app in E. destruct E as (d & [[E1 E2]|[E1 E2]]).
      - destruct d as [|d0 d]; simpl in E2; injection E2 as E3 E4.
        + rewrite app_nil_r in E1. subst q1 q q2.
          eapply (C ps1 (a :: p) ps2); eauto. right; auto.
        + subst q q2. eapply (C q1 d0 (d ++ (a :: p) :: ps2)); eauto.
          rewrite E1, <- app_assoc. reflexivity.
      - destruct d as [|d0 d]; simpl in E2; injection E2 as E3 E4.
        + rewrite app_nil_r in E1. subst q1 q q2.
          eapply (C ps1 (a :: p) ps2); eauto. right; auto.
        + subst d0 ps2.
          eapply (C (ps1 ++ (a :: p) :: d) q q2); eauto.
          * rewrite <- app_assoc. reflexivity.
          * subst q1. rewrite concat_app, in_app_iff in *. simpl in *. rewrite in_app_iff in *. tauto. }
    rewrite concat_app. cbn [concat]. rewrite <- app_comm_cons.
    rewrite run_move.
    + cbn [forL]. destruct (exec a s) as [s'|]; auto. rewrite IH by auto.
      rewrite concat_app. cbn [concat]. auto.
    + intros b Hb. apply (C ps1 (a :: p) ps2); auto. left; auto.
Qed.
End Commute.

(** The same for steps that commute in all states that satisfy an invariant. *)
Section CommuteInv.
Context {A S : Type} (exec : A -> S -> option S) (P : S -> Prop).
Hypothesis P_exec : forall a s s', P s -> exec a s = Some s' -> P s'.

Definition commute_on (a b : A) : Prop :=
  forall s, P s -> (let* s' := exec a s in exec b s') = (let* s' := exec b s in exec a s').

Lemma run_move_inv a : forall xs ys s, P s -> (forall b, In b xs -> commute_on b a) ->
  forL (xs ++ a :: ys) exec s = forL (a :: xs ++ ys) exec s.
Proof.
  induction xs as [|x xs IH]; intros ys s Ps H; auto.
  simpl app. cbn [forL]. destruct (exec x s) as [s1|] eqn:Ex.
  - rewrite IH; [|eapply P_exec; eauto|intros b Hb; apply H; right; auto]. cbn [forL].
    pose proof (H x (or_introl eq_refl) s Ps) as C. rewrite Ex in C. rewrite C.
    destruct (exec a s) as [s2|]; auto.
  - pose proof (H x (or_introl eq_refl) s Ps) as C. rewrite Ex in C.
    destruct (exec a s) as [s2|]; auto. rewrite <- C. auto.
Qed.

Lemma interleaving_run_inv ps l : interleaving ps l ->
  (forall ps1 p ps2 a b, ps = ps1 ++ p :: ps2 -> In a p -> In b (concat ps1) -> commute_on b a) ->
  forall s, P s -> forL l exec s = forL (concat ps) exec s.
Proof.
  intros H. induction H as [ps Hall|ps1 a p ps2 l H IH]; intros C s Ps.
  - assert (concat ps = []) as ->; auto. induction Hall as [|p ps -> _ IHall]; auto. apply IHall.
    intros ps1 p ps2 a b -> Ha Hb. apply (C ([] :: ps1) p ps2 a b); auto.
  - assert (C': forall ps1' p' ps2' a' b', ps1 ++ p :: ps2 = ps1' ++ p' :: ps2' -> In a' p' -> In b' (concat ps1') ->
      commute_on b' a').
    { intros q1 q q2 a' b' E Ha Hb.
      apply app_eq_app in E. destruct E as (d & [[E1 E2]|[E1 E2]]).
      - destruct d as [|d0 d]; simpl in E2; injection E2 as E3 E4.
        + rewrite app_nil_r in E1. subst q1 q q2.
          eapply (C ps1 (a :: p) ps2); eauto. right; auto.
        + subst q q2. eapply (C q1 d0 (d ++ (a :: p) :: ps2)); eauto.
          rewrite E1, <- app_assoc. reflexivity.
      - destruct d as [|d0 d]; simpl in E2; injection E2 as E3 E4.
        + rewrite app_nil_r in E1. subst q1 q q2.
          eapply (C ps1 (a :: p) ps2); eauto. right; auto.
        + subst d0 ps2.
          eapply (C (ps1 ++ (a :: p) :: d) q q2); eauto.
          * rewrite <- app_assoc. reflexivity.
          * subst q1. rewrite concat_app, in_app_iff in *. simpl in *. rewrite in_app_iff in *. tauto. }
    rewrite concat_app. cbn [concat]. rewrite <- app_comm_cons.
    rewrite run_move_inv; [| exact Ps |].
    + cbn [forL]. destruct (exec a s) as [s'|] eqn:E; auto. rewrite IH; [|exact C'|eapply P_exec; eauto].
      rewrite concat_app. cbn [concat]. auto.
    + intros b Hb. apply (C ps1 (a :: p) ps2); auto. left; auto.
Qed.
End CommuteInv.
