(** Proofs about the addresses of the elements of dense matrices. *)
From Coq Require Import NArith Bool Lia ZArith.
From Verif Require Import Model.Rng Model.Addressing Spec.Addressing.
Open Scope N_scope.

(** The number of unsigned 32-bit integers. *)
Definition W : N := 2 ^ 32.

Lemma u32_small (x : N) : x < W -> u32 x = x.
Proof. intros H. apply N.mod_small. exact H. Qed.

Lemma u32_lt (x : N) : u32 x < W.
Proof. apply N.mod_lt. discriminate. Qed.

Lemma u32_add (x : N) : u32 (W + x) = u32 x.
Proof. unfold u32. change (2 ^ 32) with W. replace (W + x) with (x + 1 * W) by lia. apply N.mod_add. discriminate. Qed.

Lemma W_pos : 0 < W.
Proof. reflexivity. Qed.

Lemma u32_double (x : N) : u32 (u32 x) = u32 x.
Proof. apply u32_small, u32_lt. Qed.

(** ** A generic lemma about addresses *)

Section generic.
  Context {V : Type}.

  Lemma load_in (m : memory V) (a : N) : a < memSize m -> load m a = Some (memCells m a).
  Proof. intros H. unfold load. apply N.ltb_lt in H. rewrite H. reflexivity. Qed.

  Lemma load_out (m : memory V) (a : N) : memSize m <= a -> load m a = None.
  Proof. intros H. unfold load. apply N.ltb_ge in H. rewrite H. reflexivity. Qed.

  Lemma store_in (m : memory V) (a : N) (v : V) : a < memSize m ->
    store m a v = Some (mkMemory (memSize m) (fun b => if b =? a then v else memCells m b)).
  Proof. intros H. unfold store. apply N.ltb_lt in H. rewrite H. reflexivity. Qed.

  Context {I : Type} (valid : I -> Prop) (address : matrix V -> I -> N).
  Context (get : matrix V -> I -> option V) (set : matrix V -> I -> V -> option (matrix V)).
  Hypothesis get_def : forall m i, get m i = load (mxArray m) (address m i).
  Hypothesis set_def : forall m i v, set m i v =
    match store (mxArray m) (address m i) v with
    | Some a => Some (mkMatrix a (mxRows m) (mxCols m))
    | None => None
    end.
  Hypothesis address_def : forall a a' r c i, address (mkMatrix a r c) i = address (mkMatrix a' r c) i.

  Lemma address_same (m : matrix V) (a : memory V) (i : I) : address (mkMatrix a (mxRows m) (mxCols m)) i = address m i.
  Proof. destruct m as [a' r c]. apply address_def. Qed.

  Lemma separate_intro (m : matrix V) :
    (forall i, valid i -> address m i < memSize (mxArray m)) ->
    (forall i j, valid i -> valid j -> address m i = address m j -> i = j) ->
    separate valid get set m.
  Proof.
    intros Hin Hinj. split.
    - intros i Hi. rewrite get_def, load_in by auto. eauto.
    - intros i v Hi. rewrite set_def, store_in by auto. eexists. split; [reflexivity|]. setoid_rewrite get_def. cbn [mxArray].
      setoid_rewrite address_same.
      split; [rewrite load_in by (cbn; auto); cbn; rewrite N.eqb_refl; reflexivity|].
      intros j Hj Hne. rewrite !load_in by (cbn; auto). cbn. destruct (N.eqb_spec (address m j) (address m i)) as [E|E]; [|reflexivity].
      elim Hne. apply Hinj; assumption.
  Qed.

  Lemma separate_elim (m : matrix V) (v w : V) : v <> w -> separate valid get set m ->
    (forall i, valid i -> address m i < memSize (mxArray m)) /\
    (forall i j, valid i -> valid j -> i <> j -> address m i <> address m j).
  Proof.
    intros Hvw [Hg Hs].
    assert (Hin : forall i, valid i -> address m i < memSize (mxArray m)).
    { intros i Hi. destruct (Hg i Hi) as (x & Hx). rewrite get_def in Hx. unfold load in Hx.
      destruct (address m i <? memSize (mxArray m)) eqn:E; [|discriminate]. apply N.ltb_lt. exact E. }
    split; [exact Hin|]. intros i j Hi Hj Hne E.
    assert (Hboth : forall x, memCells (mxArray m) (address m i) = x).
    { intros x. destruct (Hs i x Hi) as (m' & Hm' & _ & Ho). specialize (Ho j Hj (fun e => Hne (eq_sym e))).
      rewrite set_def, store_in in Hm' by auto. injection Hm' as <-. rewrite !get_def in Ho. cbn [mxArray] in Ho.
      rewrite address_same in Ho. rewrite !load_in in Ho by (cbn; auto). cbn in Ho. rewrite <- E, N.eqb_refl in Ho.
      injection Ho as Ho. symmetry. exact Ho. }
    apply Hvw. rewrite <- (Hboth v). apply Hboth.
  Qed.
End generic.

Global Opaque u32 W.

(** ** Blocks of equal size: rows or columns *)

Section blocks.
  Variables numBlocks blockSize : N.

  Definition blockAddress (i : N * N) : N := u32 (fst i * blockSize) + snd i.

  Lemma below_product (r c : N) : r < numBlocks -> c < blockSize -> r * blockSize + c < numBlocks * blockSize.
  Proof. intros Hr Hc. nia. Qed.

  Lemma blocks_separate : numBlocks * blockSize < W ->
    (forall i, inMatrix numBlocks blockSize i -> blockAddress i < u32 (numBlocks * blockSize)) /\
    (forall i j, inMatrix numBlocks blockSize i -> inMatrix numBlocks blockSize j -> blockAddress i = blockAddress j -> i = j).
  Proof.
    intros H. rewrite (u32_small _ H). split.
    - intros [r c] [Hr Hc]. unfold blockAddress. cbn [fst snd] in *. pose proof (below_product r c Hr Hc).
      rewrite u32_small by lia. exact H0.
    - intros [r c] [r' c'] [Hr Hc] [Hr' Hc'] E. unfold blockAddress in E. cbn [fst snd] in *.
      pose proof (below_product r c Hr Hc). pose proof (below_product r' c' Hr' Hc').
      rewrite !u32_small in E by lia. assert (r = r') by nia. subst r'. f_equal. lia.
  Qed.

  Lemma blocks_overlap : blockSize < W -> W <= numBlocks * blockSize ->
    (exists i, inMatrix numBlocks blockSize i /\ u32 (numBlocks * blockSize) <= blockAddress i) \/
    (exists i j, inMatrix numBlocks blockSize i /\ inMatrix numBlocks blockSize j /\ i <> j /\ blockAddress i = blockAddress j).
  Proof.
    intros HC H. pose proof W_pos as HW. assert (HC0 : 0 < blockSize) by nia.
    pose (r := W / blockSize). pose proof (N.div_mod W blockSize ltac:(lia)) as Hdm. fold r in Hdm.
    pose proof (N.mod_lt W blockSize ltac:(lia)) as Hml. set (o := W mod blockSize) in *.
    assert (Hr1 : 1 <= r) by nia.
    destruct (N.eq_dec o 0) as [Ho|Ho].
    - destruct (N.lt_ge_cases r numBlocks) as [Hlt|Hge].
      + right. exists (0, 0), (r, 0).
        assert (Hu : u32 (r * blockSize) = 0).
        { replace (r * blockSize) with (W + 0) by nia. rewrite u32_add. apply u32_small. exact HW. }
        unfold inMatrix, blockAddress. cbn [fst snd]. rewrite Hu, N.mul_0_l, u32_small by exact HW.
        split; [lia|]. split; [lia|]. split; [intros E; injection E as E; lia|]. lia.
      + left. exists (0, 0). unfold inMatrix, blockAddress. cbn [fst snd]. split; [nia|].
        replace (numBlocks * blockSize) with (W + 0) by nia. rewrite u32_add, N.mul_0_l, (u32_small 0) by exact HW. lia.
    - destruct (N.lt_ge_cases (r + 1) numBlocks) as [Hlt|Hge].
      + right. exists (0, blockSize * (r + 1) - W), (r + 1, 0).
        assert (Hu : u32 ((r + 1) * blockSize) = blockSize * (r + 1) - W).
        { replace ((r + 1) * blockSize) with (W + (blockSize * (r + 1) - W)) by nia. rewrite u32_add. apply u32_small. nia. }
        unfold inMatrix, blockAddress. cbn [fst snd]. rewrite Hu, N.mul_0_l, u32_small by exact HW.
        split; [nia|]. split; [nia|]. split; [intros E; injection E as E; lia|]. lia.
      + left. exists (0, blockSize - 1). unfold inMatrix, blockAddress. cbn [fst snd]. rewrite N.mul_0_l.
        rewrite (u32_small 0) by exact HW.
        split; [nia|]. assert (Hs : u32 (numBlocks * blockSize) < blockSize); [|lia].
        assert (numBlocks * blockSize = W + (numBlocks * blockSize - W)) as -> by lia. rewrite u32_add.
        assert (numBlocks * blockSize - W < blockSize) by nia. rewrite u32_small by lia. assumption.
  Qed.
End blocks.

(** ** Matrices *)

Section matrices.
  Context {V : Type} (zero : V) (junk : N -> V) (init : bool).

  Lemma allocated_size (R C : N) : memSize (mxArray (allocateMatrix zero junk R C init)) = u32 (R * C).
  Proof. cbn. apply u32_double. Qed.

  Lemma c_contiguous (R C : N) (v w : V) : C < W -> v <> w ->
    (separate (inMatrix R C) (fun m i => getC m (fst i) (snd i)) (fun m i => setC m (fst i) (snd i)) (allocateMatrix zero junk R C init)
     <-> R * C < W).
  Proof.
    intros HC Hvw. set (m := allocateMatrix zero junk R C init). split.
    - intros H. apply (separate_elim _ (fun m i => rowBegin m (fst i) + snd i)) with (v := v) (w := w) in H;
        [|reflexivity|reflexivity|reflexivity|exact Hvw]. destruct H as [Hin Hinj].
      destruct (N.lt_ge_cases (R * C) W) as [Hlt|Hge]; [exact Hlt|exfalso].
      destruct (blocks_overlap R C HC Hge) as [(i & Hi & Ho)|(i & j & Hi & Hj & Hne & E)].
      + specialize (Hin i Hi). unfold m in Hin. rewrite allocated_size in Hin. exact (N.lt_irrefl _ (N.lt_le_trans _ _ _ Hin Ho)).
      + exact (Hinj i j Hi Hj Hne E).
    - intros H. destruct (blocks_separate R C H) as [Hin Hinj].
      apply (separate_intro _ (fun m i => rowBegin m (fst i) + snd i)); [reflexivity|reflexivity|reflexivity| |].
      + intros i Hi. unfold m. rewrite allocated_size. exact (Hin i Hi).
      + intros i j Hi Hj E. exact (Hinj i j Hi Hj E).
  Qed.

  Definition swap (i : N * N) : N * N := (snd i, fst i).

  Lemma swap_inMatrix (R C : N) (i : N * N) : inMatrix R C i -> inMatrix C R (swap i).
  Proof. intros [? ?]. split; assumption. Qed.

  Lemma swap_inj (i j : N * N) : swap i = swap j -> i = j.
  Proof. destruct i, j. unfold swap. cbn. intros E. injection E as -> ->. reflexivity. Qed.

  Lemma fortran_contiguous (R C : N) (v w : V) : R < W -> v <> w ->
    (separate (inMatrix R C) (fun m i => getF m (fst i) (snd i)) (fun m i => setF m (fst i) (snd i)) (allocateMatrix zero junk R C init)
     <-> R * C < W).
  Proof.
    intros HR Hvw. set (m := allocateMatrix zero junk R C init). split.
    - intros H. apply (separate_elim _ (fun m i => columnBegin m (snd i) + fst i)) with (v := v) (w := w) in H;
        [|reflexivity|reflexivity|reflexivity|exact Hvw]. destruct H as [Hin Hinj].
      destruct (N.lt_ge_cases (R * C) W) as [Hlt|Hge]; [exact Hlt|exfalso]. rewrite N.mul_comm in Hge.
      destruct (blocks_overlap C R HR Hge) as [(i & Hi & Ho)|(i & j & Hi & Hj & Hne & E)].
      + specialize (Hin (swap i) (swap_inMatrix _ _ _ Hi)). unfold m in Hin. rewrite allocated_size, N.mul_comm in Hin.
        exact (N.lt_irrefl _ (N.lt_le_trans _ _ _ Hin Ho)).
      + refine (Hinj (swap i) (swap j) (swap_inMatrix _ _ _ Hi) (swap_inMatrix _ _ _ Hj) _ E). intros E'. apply Hne, swap_inj, E'.
    - intros H. rewrite N.mul_comm in H. destruct (blocks_separate C R H) as [Hin Hinj].
      apply (separate_intro _ (fun m i => columnBegin m (snd i) + fst i)); [reflexivity|reflexivity|reflexivity| |].
      + intros i Hi. unfold m. rewrite allocated_size, N.mul_comm. exact (Hin (swap i) (swap_inMatrix _ _ _ Hi)).
      + intros i j Hi Hj E. apply swap_inj. exact (Hinj (swap i) (swap j) (swap_inMatrix _ _ _ Hi) (swap_inMatrix _ _ _ Hj) E).
  Qed.

  (** Clearing. *)
  Lemma cleared (R C : N) (m : matrix V) : R * C < W -> memSize (mxArray m) = R * C -> mxRows m = R -> mxCols m = C ->
    exists m', clearMatrix zero m = Some m' /\
    forall r c, r < R -> c < C -> getC m' r c = Some zero /\ getF m' r c = Some zero.
  Proof.
    intros H Hs HR HC. unfold clearMatrix. rewrite HR, HC, (u32_small _ H), Hs, N.leb_refl. eexists. split; [reflexivity|].
    intros r c Hr Hc. pose proof (below_product R C r c Hr Hc). pose proof (below_product C R c r Hc Hr).
    unfold getC, getF, rowBegin, columnBegin. cbn [mxArray mxRows mxCols].
    rewrite (u32_small (r * C)) by lia. rewrite (u32_small (c * R)) by nia.
    rewrite !load_in by (cbn; nia). cbn [memCells]. split.
    - destruct (N.ltb_spec (r * C + c) (R * C)); [reflexivity|lia].
    - destruct (N.ltb_spec (c * R + r) (R * C)); [reflexivity|nia].
  Qed.

  (** The number of elements between the beginning and the end of a row or column. *)
  Lemma row_range (m : matrix V) (r : N) : r < mxRows m -> mxRows m * mxCols m < W -> mxRows m < W ->
    rowEnd m r = rowBegin m r + mxCols m.
  Proof.
    intros Hr H HR. unfold rowEnd, rowBegin. rewrite (u32_small (r + 1)) by lia. rewrite !u32_small by nia. nia.
  Qed.

  Lemma column_range (m : matrix V) (c : N) : c < mxCols m -> mxRows m * mxCols m < W -> mxCols m < W ->
    columnEnd m c = columnBegin m c + mxRows m.
  Proof.
    intros Hc H HC. unfold columnEnd, columnBegin. rewrite (u32_small (c + 1)) by lia. rewrite !u32_small by nia. nia.
  Qed.
End matrices.

(** ** Arrays that are provided by a caller *)

Section provided.
  Context {V : Type}.

  Lemma provided_c (R C : N) (values : N -> N -> V) (m : memory V) (r c : N) : (R - 1) * C < W -> storedByRow R C values m ->
    r < R -> c < C -> getC (mkMatrix m R C) r c = Some (values r c).
  Proof.
    intros H [Hs Hv] Hr Hc. unfold getC, rowBegin. cbn [mxArray mxCols]. rewrite u32_small by nia. rewrite load_in by nia.
    rewrite Hv by assumption. reflexivity.
  Qed.

  Lemma provided_f (R C : N) (values : N -> N -> V) (m : memory V) (r c : N) : (C - 1) * R < W -> storedByColumn R C values m ->
    r < R -> c < C -> getF (mkMatrix m R C) r c = Some (values r c).
  Proof.
    intros H [Hs Hv] Hr Hc. unfold getF, columnBegin. cbn [mxArray mxRows]. rewrite u32_small by nia. rewrite load_in by nia.
    rewrite Hv by assumption. reflexivity.
  Qed.

  Lemma provided_c_wrong (R C : N) (v w : V) : C < W -> W <= (R - 1) * C -> v <> w ->
    exists (values : N -> N -> V) (m : memory V) r c, storedByRow R C values m /\ r < R /\ c < C /\ values r c = v /\ getC (mkMatrix m R C) r c = Some w.
  Proof.
    intros HC H Hvw. pose proof W_pos as HW. set (a := (R - 1) * C). set (cells := fun b => if b =? a then v else w).
    exists (fun r c => cells (r * C + c)), (mkMemory (R * C) cells), (R - 1), 0.
    split; [split; [reflexivity|intros; reflexivity]|]. split; [nia|]. split; [nia|].
    split; [unfold cells, a; rewrite N.add_0_r, N.eqb_refl; reflexivity|].
    unfold getC, rowBegin. cbn [mxArray mxCols]. rewrite N.add_0_r. pose proof (u32_lt ((R - 1) * C)).
    rewrite load_in by (cbn; nia). cbn. unfold cells, a. destruct (N.eqb_spec (u32 ((R - 1) * C)) ((R - 1) * C)); [lia|reflexivity].
  Qed.

  Lemma provided_f_wrong (R C : N) (v w : V) : R < W -> W <= (C - 1) * R -> v <> w ->
    exists (values : N -> N -> V) (m : memory V) r c, storedByColumn R C values m /\ r < R /\ c < C /\ values r c = v /\ getF (mkMatrix m R C) r c = Some w.
  Proof.
    intros HC H Hvw. pose proof W_pos as HW. set (a := (C - 1) * R). set (cells := fun b => if b =? a then v else w).
    exists (fun r c => cells (c * R + r)), (mkMemory (R * C) cells), 0, (C - 1).
    split; [split; [reflexivity|intros; reflexivity]|]. split; [nia|]. split; [nia|].
    split; [unfold cells, a; rewrite N.add_0_r, N.eqb_refl; reflexivity|].
    unfold getF, columnBegin. cbn [mxArray mxRows]. rewrite N.add_0_r. pose proof (u32_lt ((C - 1) * R)).
    rewrite load_in by (cbn; nia). cbn. unfold cells, a. destruct (N.eqb_spec (u32 ((C - 1) * R)) ((C - 1) * R)); [lia|reflexivity].
  Qed.
End provided.

Lemma provided_c_iff {V : Type} (R C : N) (v w : V) : C < W -> v <> w ->
  ((forall (values : N -> N -> V) (m : memory V), storedByRow R C values m -> forall r c, r < R -> c < C -> getC (mkMatrix m R C) r c = Some (values r c)) <->
   (R - 1) * C < W).
Proof.
  intros HC Hvw. split.
  - intros H. destruct (N.lt_ge_cases ((R - 1) * C) W) as [|Hge]; [assumption|exfalso].
    destruct (provided_c_wrong R C v w HC Hge Hvw) as (values & m & r & c & Hm & Hr & Hc & Hv & Hg).
    rewrite (H values m Hm r c Hr Hc), Hv in Hg. injection Hg as E. exact (Hvw E).
  - intros H values m Hm r c Hr Hc. apply provided_c; assumption.
Qed.

Lemma provided_f_iff {V : Type} (R C : N) (v w : V) : R < W -> v <> w ->
  ((forall (values : N -> N -> V) (m : memory V), storedByColumn R C values m -> forall r c, r < R -> c < C -> getF (mkMatrix m R C) r c = Some (values r c)) <->
   (C - 1) * R < W).
Proof.
  intros HC Hvw. split.
  - intros H. destruct (N.lt_ge_cases ((C - 1) * R) W) as [|Hge]; [assumption|exfalso].
    destruct (provided_f_wrong R C v w HC Hge Hvw) as (values & m & r & c & Hm & Hr & Hc & Hv & Hg).
    rewrite (H values m Hm r c Hr Hc), Hv in Hg. injection Hg as E. exact (Hvw E).
  - intros H values m Hm r c Hr Hc. apply provided_f; assumption.
Qed.

(** ** Hessians *)

Lemma W_value : W = 4294967296.
Proof. reflexivity. Qed.

Lemma triangular_exact (n : N) : n < 65536 -> triangularNumber32 n = n * (n + 1) / 2.
Proof.
  intros H. pose proof W_value. unfold triangularNumber32. rewrite (u32_small (n + 1)) by lia. rewrite u32_small by nia. reflexivity.
Qed.

Lemma triangular_step (n : N) : (n + 1) * (n + 1 + 1) / 2 = n * (n + 1) / 2 + (n + 1).
Proof. replace ((n + 1) * (n + 1 + 1)) with (n * (n + 1) + (n + 1) * 2) by nia. apply N.div_add. lia. Qed.

Lemma triangular_mono (a b : N) : a <= b -> a * (a + 1) / 2 <= b * (b + 1) / 2.
Proof. intros H. apply N.div_le_mono; [lia|nia]. Qed.

Lemma triangular_below (a b j : N) : a < b -> j <= a -> a * (a + 1) / 2 + j < b * (b + 1) / 2.
Proof.
  intros H Hj. pose proof (triangular_mono (a + 1) b ltac:(lia)). rewrite triangular_step in H0. lia.
Qed.

Lemma triangular_inj (a b j k : N) : j <= a -> k <= b -> a * (a + 1) / 2 + j = b * (b + 1) / 2 + k -> a = b /\ j = k.
Proof.
  intros Hj Hk E. destruct (N.lt_trichotomy a b) as [H|[->|H]].
  - pose proof (triangular_below a b j H Hj). lia.
  - split; lia.
  - pose proof (triangular_below b a k H Hk). lia.
Qed.

Section hessians.
  Context {V : Type} (zero : V) (junk : N -> V).

  Lemma hessians_separate (R C : N) : C < 65536 -> R * (C * (C + 1) / 2) < W ->
    separate (inTriangle R C) (fun m i => getHessian m (fst i) (fst (snd i)) (snd (snd i)))
      (fun m i => setHessian m (fst i) (fst (snd i)) (snd (snd i))) (allocateHessians zero junk R C).
  Proof.
    intros HC H. set (m := allocateHessians zero junk R C).
    assert (HT : mxCols m = C * (C + 1) / 2) by (cbn; apply triangular_exact; exact HC).
    assert (HS : memSize (mxArray m) = R * (C * (C + 1) / 2)).
    { unfold m, allocateHessians. rewrite allocated_size, triangular_exact by exact HC. apply u32_small, H. }
    assert (HA : forall i, inTriangle R C i -> rowBegin m (fst i) + triangularNumber32 (fst (snd i)) + snd (snd i) =
      fst i * (C * (C + 1) / 2) + (fst (snd i) * (fst (snd i) + 1) / 2 + snd (snd i)) /\
      fst (snd i) * (fst (snd i) + 1) / 2 + snd (snd i) < C * (C + 1) / 2).
    { intros (r & i & j) (Hr & Hi & Hj). cbn [fst snd] in *. unfold rowBegin. rewrite HT.
      rewrite triangular_exact by lia. pose proof (triangular_below i C j Hi Hj). rewrite u32_small by nia. split; [lia|assumption]. }
    apply (separate_intro _ (fun m i => rowBegin m (fst i) + triangularNumber32 (fst (snd i)) + snd (snd i)));
      [reflexivity|reflexivity|reflexivity| |].
    - intros i Hi. destruct (HA i Hi) as [-> Hb]. rewrite HS. destruct Hi as [Hr _]. nia.
    - intros i k Hi Hk E. destruct (HA i Hi) as [E1 Hb1], (HA k Hk) as [E2 Hb2]. rewrite E1, E2 in E.
      destruct i as (r & i & j), k as (r' & i' & j'), Hi as (Hr & Hi & Hj), Hk as (Hr' & Hi' & Hj'). cbn [fst snd] in *.
      assert (r = r').
      { clear - E Hb1 Hb2. remember (C * (C + 1) / 2) as T. remember (i * (i + 1) / 2 + j) as a. remember (i' * (i' + 1) / 2 + j') as b.
        clear - E Hb1 Hb2. nia. }
      subst r'.
      destruct (triangular_inj i i' j j' Hj Hj') as [-> ->]; [lia|reflexivity].
  Qed.
End hessians.

(** ** Counterexamples *)

(** One million rows and 5,000 columns. *)
Lemma large_matrix :
  exists numRows numCols, numRows < 2 ^ 32 /\ numCols < 2 ^ 32 /\
  forall (junk : N -> bool) init,
  ~ separate (inMatrix numRows numCols) (fun m i => getC m (fst i) (snd i)) (fun m i => setC m (fst i) (snd i))
      (allocateMatrix false junk numRows numCols init).
Proof.
  exists 1000000, 5000. split; [reflexivity|]. split; [reflexivity|]. intros junk init H.
  apply (c_contiguous false junk init 1000000 5000 true false) in H; [discriminate H|reflexivity|discriminate].
Qed.

(** The value of an example is read, although the one of another example is requested. *)
Lemma large_feature_matrix :
  exists numRows numCols (values : N -> N -> N) m row col row', numRows < 2 ^ 32 /\ numCols < 2 ^ 32 /\
  storedByRow numRows numCols values m /\ row < numRows /\ col < numCols /\ row' < numRows /\
  values row col = row /\ row <> row' /\ getC (mkMatrix m numRows numCols) row col = Some row'.
Proof.
  exists 1000000, 5000, (fun r _ => r), (mkMemory (1000000 * 5000) (fun a => a / 5000)), 900000, 0, 41006.
  split; [reflexivity|]. split; [reflexivity|]. split.
  - split; [reflexivity|]. intros r c Hr Hc. cbn [memCells]. rewrite N.div_add_l by lia. rewrite (N.div_small c) by exact Hc. lia.
  - split; [reflexivity|]. split; [reflexivity|]. split; [reflexivity|]. split; [reflexivity|]. split; [discriminate|].
    vm_compute. reflexivity.
Qed.

(** 65,536 outputs and a single example. *)
Lemma many_outputs :
  exists numRows numCols, numRows < 2 ^ 32 /\ numCols < 2 ^ 32 /\
  forall (zero : bool) (junk : N -> bool), exists i, inTriangle numRows numCols i /\
  getHessian (allocateHessians zero junk numRows numCols) (fst i) (fst (snd i)) (snd (snd i)) = None.
Proof.
  exists 1, 65536. split; [reflexivity|]. split; [reflexivity|]. intros zero junk. exists (0, (256, 0)).
  split; [repeat split; vm_compute; congruence|]. vm_compute. reflexivity.
Qed.

(** 300 outputs and 100,000 examples: the Hessians of different examples share the same memory. *)
Lemma many_examples :
  exists numRows numCols, numRows < 2 ^ 32 /\ numCols < 2 ^ 32 /\
  forall (zero v : bool) (junk : N -> bool), exists i j m', inTriangle numRows numCols i /\ inTriangle numRows numCols j /\ i <> j /\
  setHessian (allocateHessians zero junk numRows numCols) (fst i) (fst (snd i)) (snd (snd i)) v = Some m' /\
  getHessian m' (fst j) (fst (snd j)) (snd (snd j)) = Some v.
Proof.
  exists 100000, 300. split; [reflexivity|]. split; [reflexivity|]. intros zero v junk.
  exists (95127, (0, 0)), (0, (182, 101)). eexists. split; [repeat split; vm_compute; congruence|].
  split; [repeat split; vm_compute; congruence|]. split; [discriminate|]. split; vm_compute; reflexivity.
Qed.

(** ** Statements in terms of 2^32 *)

Transparent W.

Lemma allocated_c_iff :
  forall (V : Type) (zero : V) (junk : N -> V) (init : bool) (numRows numCols : N) (v w : V),
  numRows < 2 ^ 32 -> numCols < 2 ^ 32 -> v <> w ->
  (separate (inMatrix numRows numCols) (fun m i => getC m (fst i) (snd i)) (fun m i => setC m (fst i) (snd i))
     (allocateMatrix zero junk numRows numCols init) <-> numRows * numCols < 2 ^ 32).
Proof. intros V zero junk init R C v w _ HC Hvw. exact (c_contiguous zero junk init R C v w HC Hvw). Qed.

Lemma allocated_f_iff :
  forall (V : Type) (zero : V) (junk : N -> V) (init : bool) (numRows numCols : N) (v w : V),
  numRows < 2 ^ 32 -> numCols < 2 ^ 32 -> v <> w ->
  (separate (inMatrix numRows numCols) (fun m i => getF m (fst i) (snd i)) (fun m i => setF m (fst i) (snd i))
     (allocateMatrix zero junk numRows numCols init) <-> numRows * numCols < 2 ^ 32).
Proof. intros V zero junk init R C v w HR _ Hvw. exact (fortran_contiguous zero junk init R C v w HR Hvw). Qed.

Lemma allocated_initialized :
  forall (V : Type) (zero : V) (junk : N -> V) (numRows numCols : N) (m : matrix V), numRows * numCols < 2 ^ 32 ->
  (forall row col, row < numRows -> col < numCols ->
     getC (allocateMatrix zero junk numRows numCols true) row col = Some zero /\
     getF (allocateMatrix zero junk numRows numCols true) row col = Some zero) /\
  (memSize (mxArray m) = numRows * numCols -> mxRows m = numRows -> mxCols m = numCols ->
   exists m', clearMatrix zero m = Some m' /\
   forall row col, row < numRows -> col < numCols -> getC m' row col = Some zero /\ getF m' row col = Some zero).
Proof.
  intros V zero junk R C m H. change (R * C < W) in H. split; [|exact (cleared zero R C m H)]. intros r c Hr Hc.
  pose proof (below_product R C r c Hr Hc). pose proof (below_product C R c r Hc Hr).
  unfold getC, getF, rowBegin, columnBegin.
  rewrite !load_in; rewrite ?allocated_size, ?(u32_small (R * C)) by exact H; cbn [mxRows mxCols allocateMatrix];
    rewrite ?(u32_small (r * C)) by lia; rewrite ?(u32_small (c * R)) by nia; [|nia|nia].
  split; reflexivity.
Qed.

Lemma ranges :
  forall (V : Type) (m : matrix V) (row col : N), mxRows m < 2 ^ 32 -> mxCols m < 2 ^ 32 -> mxRows m * mxCols m < 2 ^ 32 ->
  (row < mxRows m -> rowEnd m row = rowBegin m row + mxCols m) /\
  (col < mxCols m -> columnEnd m col = columnBegin m col + mxRows m).
Proof.
  intros V m r c HR HC H. split; intros Hi; [apply row_range|apply column_range]; assumption.
Qed.

Lemma provided_iff :
  forall (V : Type) (numRows numCols : N) (v w : V), numRows < 2 ^ 32 -> numCols < 2 ^ 32 -> v <> w ->
  ((forall (values : N -> N -> V) (m : memory V), storedByRow numRows numCols values m ->
    forall row col, row < numRows -> col < numCols -> getC (mkMatrix m numRows numCols) row col = Some (values row col)) <->
   (numRows - 1) * numCols < 2 ^ 32) /\
  ((forall (values : N -> N -> V) (m : memory V), storedByColumn numRows numCols values m ->
    forall row col, row < numRows -> col < numCols -> getF (mkMatrix m numRows numCols) row col = Some (values row col)) <->
   (numCols - 1) * numRows < 2 ^ 32).
Proof.
  intros V R C v w HR HC Hvw. split; [exact (provided_c_iff R C v w HC Hvw)|exact (provided_f_iff R C v w HR Hvw)].
Qed.

Lemma allocated_hessians :
  forall (V : Type) (zero : V) (junk : N -> V) (numRows numCols : N),
  numCols < 2 ^ 16 -> numRows * (numCols * (numCols + 1) / 2) < 2 ^ 32 ->
  separate (inTriangle numRows numCols) (fun m i => getHessian m (fst i) (fst (snd i)) (snd (snd i)))
    (fun m i => setHessian m (fst i) (fst (snd i)) (snd (snd i))) (allocateHessians zero junk numRows numCols).
Proof. intros V zero junk R C HC H. exact (hessians_separate zero junk R C HC H). Qed.
