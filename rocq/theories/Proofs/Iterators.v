(** Proofs about iterators that are declared to provide random access. *)
From Coq Require Import NArith ZArith QArith Bool List Lia.
From Verif Require Import Model.Rng Model.Addressing Model.Iterators Proofs.Addressing Spec.Iterators.
Import ListNotations.
Open Scope N_scope.

Global Opaque u32 W.

Lemma at_succ {It V : Type} (ops : operators It V) (first : It) (k : N) :
  at_ ops first (k + 1) = fst (preIncrement ops (at_ ops first k)).
Proof. unfold at_. rewrite N.add_1_r, N.iter_succ. reflexivity. Qed.

Lemma decrement_increment (k : N) : k + 1 < W -> decrement32 (k + 1) = k.
Proof.
  intros H. unfold decrement32. pose proof W_value. change (2 ^ 32 - 1) with 4294967295.
  replace (k + 1 + 4294967295) with (W + k) by lia. rewrite u32_add. apply u32_small. lia.
Qed.

(** Iterators that are given by an unsigned 32-bit integer. *)
Lemma at_32 {V : Type} (ops : operators N V) (k : N) : preIncrement ops = (fun it => returnThis (increment32 it)) ->
  k < W -> at_ ops 0 k = k.
Proof.
  intros E. induction k using N.peano_ind; [reflexivity|]. intros H. rewrite <- N.add_1_r in *. rewrite at_succ, IHk by lia.
  rewrite E. cbn. apply u32_small. exact H.
Qed.

Lemma toInt_small (k : N) : k < 2 ^ 31 -> toInt k = Z.of_N k.
Proof. intros H. unfold toInt. apply N.ltb_lt in H. rewrite H. reflexivity. Qed.

Definition H31 : N := 2 ^ 31.

Lemma H31_W : H31 + H31 = W.
Proof. reflexivity. Qed.

Lemma subtract_small (j k : N) : j < 2 ^ 31 -> k < 2 ^ 31 -> subtractInt (toInt j) (toInt k) = Some (Z.of_N j - Z.of_N k)%Z.
Proof.
  intros Hj Hk. rewrite !toInt_small by assumption. unfold subtractInt.
  assert (E : ((- 2 ^ 31 <=? Z.of_N j - Z.of_N k) && (Z.of_N j - Z.of_N k <? 2 ^ 31))%Z = true).
  { apply andb_true_iff. rewrite Z.leb_le, Z.ltb_lt. change (2 ^ 31) with 2147483648 in *. change (2 ^ 31)%Z with 2147483648%Z. lia. }
  rewrite E. reflexivity.
Qed.

Lemma wrap_small (j k : N) : j < 2 ^ 31 -> k < 2 ^ 31 -> toInt (u32 (j + (2 ^ 32 - k))) = (Z.of_N j - Z.of_N k)%Z.
Proof.
  intros Hj Hk. pose proof W_value as HW. change (2 ^ 32) with 4294967296. unfold toInt. change (2 ^ 31) with 2147483648 in *.
  change (2 ^ 32)%Z with 4294967296%Z.
  destruct (N.lt_ge_cases j k) as [H|H].
  - rewrite u32_small by lia. destruct (N.ltb_spec (j + (4294967296 - k)) 2147483648); lia.
  - replace (j + (4294967296 - k)) with (W + (j - k)) by lia. rewrite u32_add, u32_small by lia.
    destruct (N.ltb_spec (j - k) 2147483648); lia.
Qed.

Section common.
  Context {V : Type} (ops : operators N V) (n : N).
  Hypothesis Hn : n < 2 ^ 31.
  Hypothesis Hpre : preIncrement ops = (fun it => returnThis (increment32 it)).

  Lemma at_n (k : N) : k <= n -> at_ ops 0 k = k.
  Proof. intros H. apply at_32; [exact Hpre|]. pose proof W_value. change (2 ^ 31) with 2147483648 in Hn. lia. Qed.

  Lemma below_W (k : N) : k <= n -> k + 1 < W.
  Proof. intros H. pose proof W_value. change (2 ^ 31) with 2147483648 in Hn. lia. Qed.

  Lemma prefix_32 : preDecrement ops = (fun it => returnThis (decrement32 it)) -> returnsPrefix ops 0 n.
  Proof.
    intros E k Hk. rewrite !at_n by lia. rewrite Hpre, E. cbn. unfold increment32.
    rewrite decrement_increment by (apply below_W; lia). rewrite u32_small by (apply below_W; lia). split; reflexivity.
  Qed.

  Lemma compares_32 : equal ops = (fun it rhs => it =? rhs) -> notEqual ops = (fun it rhs => negb (it =? rhs)) -> compares ops 0 n.
  Proof. intros E1 E2 j k Hj Hk. rewrite !at_n by assumption. rewrite E1, E2. split; reflexivity. Qed.

  Lemma measures_32 : difference ops = (fun it rhs => subtractInt (toInt it) (toInt rhs)) -> measures ops 0 n.
  Proof. intros E j k Hj Hk. rewrite !at_n by assumption. rewrite E. apply subtract_small; lia. Qed.

  Lemma moves_32 : postIncrement ops = preIncrement ops -> preDecrement ops = (fun it => returnThis (decrement32 it)) ->
    postDecrement ops = preDecrement ops -> moves ops 0 n.
  Proof.
    intros E1 E2 E3 k Hk. rewrite E1, E3, E2, Hpre. rewrite !at_n by lia. cbn. unfold increment32.
    rewrite decrement_increment by (apply below_W; lia). rewrite u32_small by (apply below_W; lia). repeat split; reflexivity.
  Qed.
End common.

(** Loops. *)
Lemma traverse_all {It V : Type} (ops : operators It V) (first : It) (n : N) (element : N -> V) :
  readsElements ops first n element ->
  (forall k, k < n -> fst (postIncrement ops (at_ ops first k)) = at_ ops first (k + 1)) -> compares ops first n ->
  visitsAll ops first (at_ ops first n) n element.
Proof.
  intros Hr Hm Hc prefix.
  enough (H : forall (d : nat) (k : N) fuel, N.to_nat n = (N.to_nat k + d)%nat -> (d <= fuel)%nat ->
    traverse ops prefix fuel (at_ ops first k) (at_ ops first n) =
    Some (map (fun k => element (N.of_nat k)) (seq (N.to_nat k) d))).
  { intros fuel Hf. apply (H (N.to_nat n) 0 fuel); [reflexivity|exact Hf]. }
  induction d as [|d IH]; intros k fuel Hd Hf.
  - assert (k = n) by lia. subst k. destruct fuel; cbn [traverse]; rewrite (proj2 (Hc n n ltac:(lia) ltac:(lia))), N.eqb_refl; reflexivity.
  - destruct fuel as [|fuel]; [lia|]. cbn [traverse]. rewrite (proj2 (Hc k n ltac:(lia) ltac:(lia))).
    destruct (N.eqb_spec k n) as [->|]; [lia|]. cbn [negb]. rewrite (Hr k ltac:(lia)).
    assert (E : fst (if prefix then preIncrement ops (at_ ops first k) else postIncrement ops (at_ ops first k)) = at_ ops first (k + 1)).
    { destruct prefix; [symmetry; apply at_succ|apply Hm; lia]. }
    rewrite E, (IH (k + 1) fuel) by lia. cbn [seq map]. rewrite N2Nat.id. do 3 f_equal. f_equal. lia.
Qed.

(** ** Index iterators *)

Lemma index_iterator :
  forall n, n < 2 ^ 31 ->
  readsElements indexOperators 0 n (fun k => k) /\ accessesElements indexOperators 0 n (fun k => k) 0 /\
  returnsPrefix indexOperators 0 n /\ compares indexOperators 0 n /\ measures indexOperators 0 n /\
  (forall k, k < n -> fst (postIncrement indexOperators (at_ indexOperators 0 k)) = at_ indexOperators 0 (k + 1)) /\
  visitsAll indexOperators 0 n n (fun k => k).
Proof.
  intros n Hn.
  assert (Hr : readsElements indexOperators 0 n (fun k => k)).
  { intros k Hk. rewrite (at_n _ n Hn) by (try reflexivity; lia). reflexivity. }
  assert (Hc : compares indexOperators 0 n) by (apply compares_32; auto).
  assert (Hm : forall k, k < n -> fst (postIncrement indexOperators (at_ indexOperators 0 k)) = at_ indexOperators 0 (k + 1)).
  { intros k Hk. rewrite at_succ. reflexivity. }
  split; [exact Hr|]. split; [intros k Hk; reflexivity|]. split; [apply prefix_32; auto|]. split; [exact Hc|].
  split; [apply measures_32; auto|]. split; [exact Hm|].
  pose proof (traverse_all indexOperators 0 n (fun k => k) Hr Hm Hc) as H.
  rewrite (at_n _ n Hn) in H by (try reflexivity; lia). exact H.
Qed.

(** ** Binned iterators *)

Lemma binned_iterator :
  forall (V : Type) (bins : memory N) (values : memory V) n, n < 2 ^ 31 -> n <= memSize bins ->
  (forall k, k < n -> memCells bins k < memSize values) ->
  accessesElements (binnedOperators bins values) 0 n (fun k => memCells values (memCells bins k)) 0 /\
  moves (binnedOperators bins values) 0 n /\ returnsPrefix (binnedOperators bins values) 0 n /\
  compares (binnedOperators bins values) 0 n /\ measures (binnedOperators bins values) 0 n.
Proof.
  intros V bins values n Hn Hb Hv. split; [|split; [|split; [|split]]].
  - intros k Hk. cbn. rewrite N.add_0_l in Hk. rewrite load_in by lia. apply load_in. auto.
  - apply moves_32; auto.
  - apply prefix_32; auto.
  - apply compares_32; auto.
  - intros j k Hj Hk. rewrite !(at_n _ n Hn) by (try reflexivity; lia). cbn [difference binnedOperators].
    rewrite wrap_small by lia. reflexivity.
Qed.

(** ** Diagonal iterators *)

Lemma diagonal_address (k : N) : k + 1 < 65536 -> u32 (triangularNumber32 (u32 (k + 1)) + (2 ^ 32 - 1)) = k * (k + 1) / 2 + k.
Proof.
  intros H. pose proof W_value. rewrite (u32_small (k + 1)) by lia. rewrite triangular_exact by exact H. rewrite triangular_step.
  change (2 ^ 32 - 1) with 4294967295. set (t := k * (k + 1) / 2).
  assert (t <= k * (k + 1)) by (apply N.div_le_upper_bound; lia).
  replace (t + (k + 1) + 4294967295) with (W + (t + k)) by lia. rewrite u32_add. apply u32_small. nia.
Qed.

Lemma diagonal_iterator :
  forall (V : Type) (view : memory V) n, n < 2 ^ 16 -> n * (n + 1) / 2 <= memSize view ->
  let ops := diagonalOperators view in let element k := memCells view (k * (k + 1) / 2 + k) in
  readsElements ops 0 n element /\ accessesElements ops 0 n element 0 /\ moves ops 0 n /\ returnsPrefix ops 0 n /\
  compares ops 0 n /\ measures ops 0 n /\
  visitsAll ops (fst (viewDiagonalRange n)) (snd (viewDiagonalRange n)) n element.
Proof.
  intros V view n Hn16 Hs ops element. assert (Hn : n < 2 ^ 31) by (change (2 ^ 16) with 65536 in Hn16; change (2 ^ 31) with 2147483648; lia).
  assert (Ha : forall k, k < n -> load view (u32 (triangularNumber32 (u32 (k + 1)) + (2 ^ 32 - 1))) = Some (element k)).
  { intros k Hk. change (2 ^ 16) with 65536 in Hn16. rewrite diagonal_address by lia. apply load_in.
    pose proof (triangular_below k n k Hk ltac:(lia)). lia. }
  assert (Hr : readsElements ops 0 n element).
  { intros k Hk. rewrite (at_n _ n Hn) by (try reflexivity; lia). apply Ha, Hk. }
  assert (Hc : compares ops 0 n) by (apply compares_32; auto).
  assert (Hm : moves ops 0 n) by (apply moves_32; auto).
  split; [exact Hr|]. split; [intros k Hk; apply Ha; lia|]. split; [exact Hm|]. split; [apply prefix_32; auto|]. split; [exact Hc|].
  split; [apply measures_32; auto|]. cbn [fst snd viewDiagonalRange].
  pose proof (traverse_all ops 0 n element Hr (fun k Hk => proj1 (proj2 (Hm k Hk))) Hc) as H.
  rewrite (at_n _ n Hn) in H by (try reflexivity; lia). exact H.
Qed.

(** ** Iterators over sparse statistics *)

Lemma at_sparse view w (k : N) : at_ (sparseOperators view w) 0 k = k.
Proof. induction k using N.peano_ind; [reflexivity|]. rewrite <- N.add_1_r, at_succ, IHk. reflexivity. Qed.

Lemma sparse_iterator :
  forall (view : memory (Q * Q * Q)) (sumOfWeights : Q),
  let ops := sparseOperators view sumOfWeights in let n := memSize view in
  let element k := let '(first, second, third) := memCells view k in (first, (second + (sumOfWeights - third))%Q) in
  readsElements ops 0 n element /\ (forall j, accessesElements ops 0 n element j) /\ moves ops 0 n /\ returnsPrefix ops 0 n /\
  compares ops 0 n /\ measures ops 0 n /\ visitsAll ops 0 n n element.
Proof.
  intros view w ops n element.
  assert (Hl : forall k, k < n -> loadSparse view w k = Some (element k)).
  { intros k Hk. unfold loadSparse. rewrite load_in by exact Hk. reflexivity. }
  assert (Hr : readsElements ops 0 n element).
  { intros k Hk. unfold ops. rewrite at_sparse. apply Hl, Hk. }
  assert (Hc : compares ops 0 n).
  { intros j k _ _. unfold ops. rewrite !at_sparse. split; reflexivity. }
  assert (Hm : moves ops 0 n).
  { intros k _. unfold ops. rewrite !at_sparse. cbn. rewrite N.add_sub. repeat split; reflexivity. }
  split; [exact Hr|]. split; [intros j k Hk; unfold ops; rewrite at_sparse; apply Hl; lia|]. split; [exact Hm|].
  split; [intros k _; unfold ops; rewrite !at_sparse; cbn; rewrite N.add_sub; split; reflexivity|]. split; [exact Hc|].
  split; [intros j k _ _; unfold ops; rewrite !at_sparse; reflexivity|].
  pose proof (traverse_all ops 0 n element Hr (fun k Hk => proj1 (proj2 (Hm k Hk))) Hc) as H. unfold ops in H at 2. rewrite at_sparse in H. exact H.
Qed.

(** ** Counterexamples *)

Transparent u32 W.

Lemma index_decrement : exists n, n < 2 ^ 31 /\ ~ moves indexOperators 0 n.
Proof. exists 1. split; [reflexivity|]. intros H. destruct (H 0 ltac:(reflexivity)) as (_ & _ & _ & E). vm_compute in E. discriminate E. Qed.

Lemma index_subscript : exists n j, n < 2 ^ 31 /\ ~ accessesElements indexOperators 0 n (fun k => k) j.
Proof. exists 2, 1. split; [reflexivity|]. intros H. specialize (H 0 ltac:(reflexivity)). vm_compute in H. discriminate H. Qed.

Lemma binned_subscript :
  exists (bins values : memory N) n j, n < 2 ^ 31 /\ n <= memSize bins /\ (forall k, k < n -> memCells bins k < memSize values) /\
  ~ accessesElements (binnedOperators bins values) 0 n (fun k => memCells values (memCells bins k)) j.
Proof.
  exists (mkMemory 2 (fun k => k)), (mkMemory 2 (fun k => k)), 2, 1. split; [reflexivity|]. split; [discriminate|].
  split; [intros k Hk; exact Hk|]. intros H. specialize (H 0 ltac:(reflexivity)). vm_compute in H. discriminate H.
Qed.

Lemma diagonal_subscript :
  exists (view : memory N) n j, n < 2 ^ 16 /\ n * (n + 1) / 2 <= memSize view /\
  ~ accessesElements (diagonalOperators view) 0 n (fun k => memCells view (k * (k + 1) / 2 + k)) j.
Proof.
  exists (mkMemory 3 (fun k => k)), 2, 1. split; [reflexivity|]. split; [discriminate|].
  intros H. specialize (H 0 ltac:(reflexivity)). vm_compute in H. discriminate H.
Qed.

Lemma postfix_result :
  forall (V : Type) (bins : memory N) (values view : memory V) (triples : memory (Q * Q * Q)) (sumOfWeights : Q), exists n, n < 2 ^ 31 /\
  ~ returnsPostfix indexOperators 0 n /\ ~ returnsPostfix (binnedOperators bins values) 0 n /\
  ~ returnsPostfix (diagonalOperators view) 0 n /\ ~ returnsPostfix (sparseOperators triples sumOfWeights) 0 n.
Proof.
  intros. exists 1. split; [reflexivity|]. repeat split; intros H; destruct (H 0 ltac:(reflexivity)) as (E & _); vm_compute in E; discriminate E.
Qed.

(** Three Hessians are stored for two gradients; two of them are on the diagonal. *)
Lemma diagonal_end :
  exists (view : memory N) n, n < 2 ^ 16 /\ n * (n + 1) / 2 <= memSize view /\
  let ops := diagonalOperators view in let range := vectorDiagonalRange n in
  difference ops (snd range) (fst range) <> Some (Z.of_N n) /\
  forall prefix fuel, traverse ops prefix fuel (fst range) (snd range) = None.
Proof.
  exists (mkMemory 3 (fun k => k)), 2. split; [reflexivity|]. split; [discriminate|]. split; [vm_compute; discriminate|].
  intros prefix [|[|[|fuel]]]; destruct prefix; vm_compute; reflexivity.
Qed.
