(** Counterexamples for the comparators and beam search. *)
From Coq Require Import ZArith Arith List Bool Permutation Sorted Lia.
From Verif Require Import Lib.Arr Model.Refinement Spec.Refinement Proofs.Refinement Proofs.Greedy.
Import ListNotations.
Open Scope nat_scope.

Lemma sorted_unique {A} (R : A -> A -> Prop) (W : A -> A -> Prop) : (forall a b, R a b -> W b a -> False) ->
  forall s t, StronglySorted R s -> StronglySorted W t -> Permutation s t -> t = s.
Proof.
  intros HRW. induction s as [|a s IH]; intros t Hs Ht P.
  - apply Permutation_nil in P. auto.
  - destruct t as [|b t]; [apply Permutation_sym, Permutation_nil in P; discriminate|].
    apply StronglySorted_inv in Hs, Ht. destruct Hs as [Hs Fs], Ht as [Ht Ft]. rewrite Forall_forall in Fs, Ft.
    assert (a = b \/ a <> b) as [->|Hab].
    { assert (Ha: In a (b :: t)) by (apply (Permutation_in _ P); left; auto).
      assert (Hb: In b (a :: s)) by (apply (Permutation_in _ (Permutation_sym P)); left; auto).
      destruct Ha as [->|Ha]; auto. destruct Hb as [->|Hb]; auto. exfalso. eapply HRW; eauto. }
    + f_equal. apply IH; auto. eapply Permutation_cons_inv; eauto.
    + assert (Ha: In a (b :: t)) by (apply (Permutation_in _ P); left; auto).
      assert (Hb: In b (a :: s)) by (apply (Permutation_in _ (Permutation_sym P)); left; auto).
      destruct Ha as [->|Ha]; [contradiction|]. destruct Hb as [->|Hb]; [contradiction|]. exfalso. eapply HRW; eauto.
Qed.

Lemma sort_unique k sort l s : sorting k sort -> Permutation l s ->
  StronglySorted (fun a b => better k (cQuality a) (cQuality b)) s -> sort l = s.
Proof.
  intros H P S. destruct (H l) as [P' S'].
  apply (sorted_unique (fun a b => better k (cQuality a) (cQuality b)) (fun a b => ~ better k (cQuality b) (cQuality a)));
    [intros a b Hab Hn; contradiction|exact S|exact S'|rewrite <- P, <- P'; reflexivity].
Qed.

Lemma sort_entries_unique k sort l s : sorting_entries k sort -> Permutation l s ->
  StronglySorted (fun a b => better k (beQuality a) (beQuality b)) s -> sort l = s.
Proof.
  intros H P S. destruct (H l) as [P' S'].
  apply (sorted_unique (fun a b => better k (beQuality a) (beQuality b)) (fun a b => ~ better k (beQuality b) (beQuality a)));
    [intros a b Hab Hn; contradiction|exact S|exact S'|rewrite <- P, <- P'; reflexivity].
Qed.

Lemma sort1 k sort a : sorting k sort -> sort [a] = [a].
Proof. intros H. eapply sort_unique; eauto. repeat constructor. Qed.

(** Evaluates sorting of single candidates. *)
Ltac run_sort H :=
  repeat (vm_compute; match goal with |- context [?sort [?a]] =>
    match type of H with sorting ?k sort => rewrite (sort1 k sort a H) end end); vm_compute.

(** A candidate of the given quality. *)
Definition cd (f : nat) (q : Z) : candidate := mkCand f 0 1 [0] q.

Lemma fixed_refuted :
  exists (features : list (list candidate)) (n : nat), forall sort, sorting SeCo sort ->
    exists c x y, findFixed SeCo sort features (fixedNew n minQuality) = Some (true, c) /\
      In x (fcOrder c) /\ In y (concat features) /\ ~ In y (fcOrder c) /\ better SeCo (cQuality y) (cQuality x).
Proof.
  exists [[cd 0 5; cd 1 3]; [cd 2 1]], 2. intros sort Hs.
  exists (mkFixed [cd 0 5; cd 2 1] 2 1%Z), (cd 2 1), (cd 1 3). split.
  - run_sort Hs. reflexivity.
  - split; [right; left; reflexivity|]. split; [right; left; reflexivity|]. split; [|simpl; lia].
    intros [H|[H|[]]]; discriminate.
Qed.

(** *** Beam search *)

(** The first search finds rules of qualities 10 and 1; the former can be refined to a rule of quality 5. *)
Definition searchLost (n : nat) (conds : list candidate) (outs : list nat) : list (list candidate) :=
  match conds with
  | [] => [[mkCand 0 0 5 [0] 10]; [mkCand 1 0 5 [0] 1]]
  | [c] => if cFeature c =? 0 then [[mkCand 1 0 3 [0] 5]] else []
  | _ => []
  end.

Lemma beam_lost :
  exists search outputs, forall sortC sortE, sorting SeCo sortC -> sorting_entries SeCo sortE ->
    exists e x, growBeam SeCo sortC sortE 2 1 search 5 0 1 outputs = Some (Some e) /\
      In x (concat (search 0 [] outputs)) /\ better SeCo (cQuality x) (beQuality e).
Proof.
  exists searchLost, [0]. intros sortC sortE Hc He. eexists _, (mkCand 0 0 5 [0] 10). split; [|split].
  - run_sort Hc. reflexivity.
  - left. reflexivity.
  - vm_compute. reflexivity.
Qed.

(** The first search finds rules of qualities 10 and 9, which can be refined to rules of qualities 11 and 20. *)
Definition searchUnsorted (n : nat) (conds : list candidate) (outs : list nat) : list (list candidate) :=
  match conds with
  | [] => [[mkCand 0 0 5 [0] 10]; [mkCand 1 0 5 [0] 9]]
  | [c] => if cFeature c =? 0 then [[mkCand 1 0 3 [0] 11]] else [[mkCand 0 0 3 [0] 20]]
  | _ => []
  end.

Lemma beam_unsorted :
  exists search outputs, forall sortC sortE, sorting SeCo sortC -> sorting_entries SeCo sortE ->
    exists e order, growBeam SeCo sortC sortE 2 1 search 5 0 1 outputs = Some (Some e) /\
      beamLoop SeCo sortC sortE 2 1 search 5 0 1 1 (map (initializeEntry outputs true) (concat (search 0 [] outputs))) 1
        = Some (e :: order) /\
      exists e', In e' order /\ better SeCo (beQuality e') (beQuality e).
Proof.
  exists searchUnsorted, [0]. intros sortC sortE Hc He. eexists _, _. split; [|split].
  - run_sort Hc. reflexivity.
  - run_sort Hc. reflexivity.
  - eexists. split; [left; reflexivity|]. vm_compute. reflexivity.
Qed.

(** The second rule can be refined to rules of qualities 20 and 19. *)
Definition searchOverwritten (n : nat) (conds : list candidate) (outs : list nat) : list (list candidate) :=
  match conds with
  | [] => [[mkCand 0 0 5 [0] 10]; [mkCand 1 0 5 [0] 9]]
  | [c] => if cFeature c =? 0 then [[mkCand 1 0 3 [0] 12]] else [[mkCand 0 0 3 [0] 20]; [mkCand 2 0 3 [0] 19]]
  | _ => []
  end.

Lemma beam_overwritten :
  exists search outputs, forall sortC sortE, sorting SeCo sortC -> sorting_entries SeCo sortE ->
    exists order n order' x, findFixed SeCo sortC (search 0 [] outputs) (fixedNew 2 minQuality)
        = Some (true, mkFixed order 2 9%Z) /\
      refineBeam SeCo sortC sortE 2 1 search true (map (initializeEntry outputs true) order) 1 = Some (true, order', n) /\
      (exists c, In c order /\ In x (concat (search 2 [c] (cOutputs c)))) /\
      forall e, In e order' -> better SeCo (cQuality x) (beQuality e).
Proof.
  exists searchOverwritten, [0]. intros sortC sortE Hc He. eexists _, _, _, (mkCand 0 0 3 [0] 20).
  split; [run_sort Hc; reflexivity|]. split; [|split].
  - run_sort Hc.
    rewrite (sort_entries_unique SeCo sortE _ [mkEntry [mkCand 1 0 5 [0] 9; mkCand 2 0 3 [0] 19] 19 (Some [0]);
       mkEntry [mkCand 0 0 5 [0] 10; mkCand 1 0 3 [0] 12] 12 (Some [0])] He).
    + vm_compute. reflexivity.
    + apply perm_swap.
    + repeat constructor.
  - exists (mkCand 1 0 5 [0] 9). split; [right; left; reflexivity|left; reflexivity].
  - intros e [<-|[<-|[]]]; vm_compute; reflexivity.
Qed.
