From Coq Require Import NArith Arith List Bool Lia.
From Verif Require Import Lib.Arr Model.Rng Model.Containers Spec.Containers.
Import ListNotations.
Open Scope nat_scope.

(** * Bit vector *)
Lemma bv_mask_eq pos : bv_mask pos = (2 ^ N.of_nat (pos mod 32))%N.
Proof.
  unfold bv_mask, UINT32_SIZE. rewrite N.shiftl_1_l. unfold u32. apply N.mod_small.
  apply N.pow_lt_mono_r; [lia|]. pose proof (Nat.mod_upper_bound pos 32 ltac:(lia)). lia.
Qed.

Lemma bv_get_bit arr pos w : nth_error arr (pos / 32) = Some w ->
  bv_get arr pos = Some (N.testbit w (N.of_nat (pos mod 32))).
Proof.
  intros E. unfold bv_get, aget, bv_index, UINT32_SIZE. rewrite E. f_equal. rewrite bv_mask_eq.
  set (k := N.of_nat (pos mod 32)). clearbody k.
  destruct (N.testbit w k) eqn:B.
  - destruct (N.eqb_spec (N.land w (2 ^ k)) 0); auto.
    assert (N.testbit (N.land w (2 ^ k)) k = false) by (rewrite e; apply N.bits_0).
    rewrite N.land_spec, B, N.pow2_bits_true in H. discriminate.
  - destruct (N.eqb_spec (N.land w (2 ^ k)) 0); auto. exfalso. apply n.
    apply N.bits_inj. intros j. rewrite N.land_spec, N.bits_0.
    destruct (N.eq_dec j k); [subst; rewrite B; auto|]. rewrite N.pow2_bits_false by auto.
    apply andb_false_r.
Qed.

Lemma bv_set_bits arr p v : p / 32 < length arr ->
  exists arr', bv_set arr p v = Some arr' /\ length arr' = length arr /\
    forall pos, pos / 32 < length arr -> bv_get arr' pos = if p =? pos then Some v else bv_get arr pos.
Proof.
  intros H. unfold bv_set, bv_index, UINT32_SIZE.
  destruct (aget_Some arr (p / 32) H) as (w & E). rewrite E. unfold aget in E.
  rewrite bv_mask_eq.
  set (w' := if v then N.lor w (2 ^ N.of_nat (p mod 32)) else N.land w (u32_not (2 ^ N.of_nat (p mod 32)))).
  exists (upd arr (p / 32) w'). split; [|split].
  - destruct v; rewrite aset_Some by auto; auto.
  - apply upd_length.
  - intros pos Hp. destruct (aget_Some arr (pos / 32) Hp) as (u & Eu). unfold aget in Eu.
    pose proof (Nat.div_mod p 32 ltac:(lia)). pose proof (Nat.div_mod pos 32 ltac:(lia)).
    pose proof (Nat.mod_upper_bound p 32 ltac:(lia)). pose proof (Nat.mod_upper_bound pos 32 ltac:(lia)).
    destruct (Nat.eq_dec (p / 32) (pos / 32)) as [D|D].
    + rewrite <- D in Eu. rewrite E in Eu. injection Eu as <-.
      rewrite (bv_get_bit _ _ w') by (rewrite <- D; apply nth_error_upd_eq; auto).
      rewrite (bv_get_bit arr pos w) by (rewrite <- D; auto).
      unfold w'. destruct (Nat.eqb_spec p pos) as [->|N].
      * f_equal. destruct v.
        -- rewrite N.lor_spec, N.pow2_bits_true. apply orb_true_r.
        -- unfold u32_not. rewrite N.land_spec, N.lxor_spec, N.pow2_bits_true, N.ones_spec_low by lia.
           apply andb_false_r.
      * assert (p mod 32 <> pos mod 32) by lia. f_equal. destruct v.
        -- rewrite N.lor_spec, N.pow2_bits_false by lia. apply orb_false_r.
        -- unfold u32_not. rewrite N.land_spec, N.lxor_spec, N.pow2_bits_false by lia.
           rewrite N.ones_spec_low by lia. apply andb_true_r.
    + destruct (Nat.eqb_spec p pos) as [->|N]; [lia|].
      rewrite (bv_get_bit _ _ u) by (rewrite nth_error_upd_neq; auto).
      rewrite (bv_get_bit _ _ u); auto.
Qed.

Lemma bv_size_index n pos : pos < n -> pos / 32 < bv_size n.
Proof.
  intros H. unfold bv_size, UINT32_SIZE.
  pose proof (Nat.div_mod n 32 ltac:(lia)). pose proof (Nat.mod_upper_bound n 32 ltac:(lia)).
  apply Nat.div_lt_upper_bound; [lia|]. destruct (Nat.eqb_spec (n mod 32) 0); lia.
Qed.

Lemma bv_run_ok n ops : forall arr, length arr = bv_size n ->
  Forall (bv_op_in_range n) ops ->
  exists arr', bv_run arr ops = Some arr' /\ length arr' = bv_size n /\
    forall pos, pos < n -> exists b, bv_get arr pos = Some b /\ bv_get arr' pos = Some (last_written b ops pos).
Proof.
  induction ops as [|op ops IH]; intros arr Hl HF.
  - exists arr. split; auto. split; auto. intros pos Hp.
    destruct (aget_Some arr (pos / 32)) as (w & E); [rewrite Hl; apply bv_size_index; auto|].
    rewrite (bv_get_bit arr pos w E). eauto.
  - inversion HF as [|? ? Ho HF']; subst. destruct op as [p v|]; simpl bv_run; simpl bv_step.
    + simpl in Ho. destruct (bv_set_bits arr p v) as (arr1 & E1 & L1 & G1).
      { rewrite Hl. apply bv_size_index; auto. }
      rewrite E1. destruct (IH arr1) as (arr2 & E2 & L2 & G2); auto; [lia|].
      exists arr2. split; auto. split; auto. intros pos Hp.
      destruct (G2 pos Hp) as (b & B1 & B2).
      rewrite G1 in B1 by (rewrite Hl; apply bv_size_index; auto).
      destruct (aget_Some arr (pos / 32)) as (w & E); [rewrite Hl; apply bv_size_index; auto|].
      rewrite (bv_get_bit arr pos w E) in *. eexists. split; [reflexivity|]. simpl.
      rewrite B2. destruct (p =? pos); injection B1 as <-; auto.
    + destruct (IH (bv_clear arr)) as (arr2 & E2 & L2 & G2); auto.
      { unfold bv_clear. rewrite map_length. auto. }
      exists arr2. split; auto. split; auto. intros pos Hp.
      destruct (G2 pos Hp) as (b & B1 & B2).
      destruct (aget_Some arr (pos / 32)) as (w & E); [rewrite Hl; apply bv_size_index; auto|].
      rewrite (bv_get_bit arr pos w E) in *. eexists. split; [reflexivity|]. simpl. rewrite B2.
      rewrite (bv_get_bit _ _ 0%N) in B1.
      * rewrite N.bits_0 in B1. congruence.
      * unfold bv_clear. rewrite nth_error_map. unfold aget in E. rewrite E. auto.
Qed.

(** * Ring buffer *)
Lemma lastn_all {A} n (l : list A) : length l <= n -> lastn n l = l.
Proof. intros. unfold lastn. replace (length l - n) with 0 by lia. auto. Qed.

Lemma lastn_length {A} n (l : list A) : length (lastn n l) = Nat.min n (length l).
Proof. unfold lastn. rewrite skipn_length. lia. Qed.

Lemma skipn_skipn {A} a b (l : list A) : skipn a (skipn b l) = skipn (a + b) l.
Proof.
  revert l; induction b; intros l; [rewrite Nat.add_0_r; auto|].
  rewrite Nat.add_succ_r. destruct l; simpl; [destruct a; auto|apply IHb].
Qed.

Lemma lastn_snoc {A} n (l : list A) x y t : n <= length l -> lastn n l = y :: t -> lastn n (l ++ [x]) = t ++ [x].
Proof.
  unfold lastn. intros Hn E. rewrite app_length. simpl.
  replace (length l + 1 - n) with (S (length l - n)) by lia.
  rewrite skipn_app. assert (n <> 0). { intros ->. rewrite Nat.sub_0_r in E. rewrite skipn_all in E. discriminate. }
  replace (S (length l - n) - length l) with 0 by lia. simpl. f_equal.
  assert (F : skipn 1 (skipn (length l - n) l) = t) by (rewrite E; auto).
  rewrite skipn_skipn in F. exact F.
Qed.

(** Chronological content of a buffer. *)
Definition rb_chrono {A} (b : ring A) : list A :=
  if rb_full b then skipn (rb_pos b) (rb_array b) ++ firstn (rb_pos b) (rb_array b)
  else firstn (rb_pos b) (rb_array b).

Definition rb_inv {A} (n : nat) (hist : list A) (b : ring A) : Prop :=
  length (rb_array b) = n /\ rb_pos b < n /\
  rb_full b = (n <=? length hist) /\ (rb_full b = false -> rb_pos b = length hist) /\
  rb_chrono b = lastn n hist.

Lemma skipn_upd {A} (l : list A) i v j : i < j -> skipn j (upd l i v) = skipn j l.
Proof. revert i j; induction l; destruct i, j; simpl; intros; auto; try lia. apply IHl. lia. Qed.

Lemma firstn_upd {A} (l : list A) i v j : j <= i -> firstn j (upd l i v) = firstn j l.
Proof. revert i j; induction l; destruct i, j; simpl; intros; auto; try lia. f_equal. apply IHl. lia. Qed.

Lemma firstn_S_upd {A} (l : list A) i v : i < length l -> firstn (S i) (upd l i v) = firstn i l ++ [v].
Proof. revert i; induction l; destruct i; simpl; intros; auto; try lia. f_equal. apply IHl. lia. Qed.

Lemma skipn_nth {A} (l : list A) i x : nth_error l i = Some x -> skipn i l = x :: skipn (S i) l.
Proof. revert i; induction l; destruct i; simpl; intros H; try discriminate.
  - injection H as ->. auto.
  - apply IHl. auto.
Qed.

Lemma rb_push_inv {A} n hist (b : ring A) v : 0 < n -> rb_inv n hist b ->
  exists old b', rb_push b v = Some ((rb_full b, old), b') /\ rb_inv n (hist ++ [v]) b' /\
    (n <= length hist -> nth_error hist (length hist - n) = Some old).
Proof.
  intros Hn (I1 & I2 & I3 & I4 & I5). unfold rb_push.
  destruct (aget_Some (rb_array b) (rb_pos b) ltac:(lia)) as (old & E). rewrite E.
  rewrite aset_Some by lia. unfold aget in E.
  exists old.
  assert (Hold : n <= length hist -> nth_error hist (length hist - n) = Some old /\
     lastn n hist = old :: skipn (S (rb_pos b)) (rb_array b) ++ firstn (rb_pos b) (rb_array b)).
  { intros Hh. assert (F : rb_full b = true) by (rewrite I3; apply Nat.leb_le; auto).
    unfold rb_chrono in I5. rewrite F in I5. rewrite (skipn_nth _ _ _ E) in I5. simpl in I5.
    split; [|auto]. unfold lastn in I5.
    assert (X : nth_error (skipn (length hist - n) hist) 0 = Some old) by (rewrite <- I5; auto).
    rewrite <- (firstn_skipn (length hist - n) hist) at 1.
    rewrite nth_error_app2; rewrite firstn_length; [|lia].
    replace (length hist - n - Nat.min (length hist - n) (length hist)) with 0 by lia. auto. }
  destruct (Nat.leb_spec (length (rb_array b)) (rb_pos b + 1)).
  - eexists. split; [reflexivity|]. split; [|intros; apply Hold; auto].
    assert (P : rb_pos b = n - 1) by lia.
    unfold rb_inv, rb_chrono; simpl. rewrite upd_length, app_length. simpl.
    split; auto. split; auto. 
    destruct (Nat.leb_spec n (length hist)).
    + split; [symmetry; apply Nat.leb_le; lia|]. split; [discriminate|]. rewrite app_nil_r.
      destruct (Hold H0) as [_ L]. rewrite (lastn_snoc _ _ _ _ _ H0 L).
      rewrite skipn_all2 by lia. simpl. rewrite <- (firstn_all (upd _ _ _)). rewrite upd_length, I1.
      replace n with (S (rb_pos b)) at 1 by lia. apply firstn_S_upd. lia.
    + assert (F : rb_full b = false) by (rewrite I3; try apply Nat.leb_gt; auto).
      specialize (I4 F). split; [symmetry; apply Nat.leb_le; lia|]. split; [discriminate|]. rewrite app_nil_r.
      unfold rb_chrono in I5. rewrite F in I5. rewrite lastn_all in * by (rewrite ?app_length; simpl; lia).
      rewrite <- I5. rewrite <- (firstn_all (upd _ _ _)). rewrite upd_length, I1.
      replace n with (S (rb_pos b)) at 1 by lia. apply firstn_S_upd. lia.
  - eexists. split; [reflexivity|]. split; [|intros; apply Hold; auto].
    unfold rb_inv, rb_chrono; simpl. rewrite upd_length, app_length. simpl.
    split; auto. split; [lia|]. rewrite (Nat.add_1_r (rb_pos b)).
    destruct (Nat.leb_spec n (length hist)).
    + rewrite I3. split; [symmetry; apply Nat.leb_le; lia|]. split; [discriminate|].
      destruct (Hold H0) as [_ L]. rewrite (lastn_snoc _ _ _ _ _ H0 L).
      rewrite skipn_upd by lia. rewrite firstn_S_upd by lia. rewrite app_assoc. auto.
    + rewrite I3. assert (F : rb_full b = false) by (rewrite I3; try apply Nat.leb_gt; auto).
      specialize (I4 F). split; [symmetry; apply Nat.leb_gt; lia|]. split; [lia|].
      unfold rb_chrono in I5. rewrite F in I5. rewrite lastn_all in * by (rewrite ?app_length; simpl; lia).
      rewrite <- I5. apply firstn_S_upd. lia.
Qed.

Lemma rb_run_inv {A} n vals : forall hist (b : ring A), 0 < n -> rb_inv n hist b ->
  exists rs b', rb_run b vals = Some (rs, b') /\ rb_inv n (hist ++ vals) b' /\ length rs = length vals /\
    forall i f old, nth_error rs i = Some (f, old) ->
      f = (n <=? length hist + i) /\ (f = true -> nth_error (hist ++ vals) (length hist + i - n) = Some old).
Proof.
  induction vals as [|v vals IH]; intros hist b Hn Hi; simpl.
  - exists [], b. rewrite app_nil_r. split; auto. split; auto. split; auto. intros i f old H. destruct i; discriminate.
  - destruct (rb_push_inv n hist b v Hn Hi) as (old & b1 & -> & I1 & O1).
    destruct (IH (hist ++ [v]) b1 Hn I1) as (rs & b2 & -> & I2 & L & O2).
    exists ((rb_full b, old) :: rs), b2. split; auto. rewrite <- app_assoc in I2, O2. split; auto.
    split; [simpl; lia|]. intros i f o H. destruct i as [|i]; simpl in H.
    + injection H as <- <-. destruct Hi as (_ & _ & F & _). rewrite Nat.add_0_r. split; auto.
      intros T. rewrite F in T. apply Nat.leb_le in T.
      rewrite nth_error_app1 by lia. auto.
    + apply O2 in H. rewrite app_length in H. simpl in H.
      replace (length hist + S i) with (length hist + 1 + i) by lia. auto.
Qed.

Lemma rb_init_inv {A} (u : list A) : 0 < length u -> rb_inv (length u) [] (rb_init u).
Proof.
  intros. unfold rb_inv, rb_init, rb_chrono. simpl.
  destruct (Nat.eqb_spec (length u) 0); [lia|]. split; auto. split; auto. split; auto.
  destruct (length u); auto; lia.
Qed.

Lemma skip_first_perm {A} (l : list A) k : Permutation.Permutation (skipn k l ++ firstn k l) l.
Proof.
  rewrite <- (firstn_skipn k l) at 3. apply Permutation.Permutation_app_comm.
Qed.

Lemma C14_lemma {A} (uninit : list A) (vals : list A) : 0 < length uninit ->
  let n := length uninit in
  exists rs b, rb_run (rb_init uninit) vals = Some (rs, b) /\
    rb_full b = (n <=? length vals) /\
    rb_num b = Nat.min n (length vals) /\
    Permutation.Permutation (rb_elements b) (lastn n vals) /\
    (length vals <= n -> rb_elements b = vals) /\
    length rs = length vals /\
    (forall i full old, nth_error rs i = Some (full, old) ->
       full = (n <=? i) /\ (full = true -> nth_error vals (i - n) = Some old)).
Proof.
  intros Hn n.
  destruct (rb_run_inv n vals [] (rb_init uninit) Hn (rb_init_inv uninit Hn)) as (rs & b & E & I & L & O).
  simpl app in *. destruct I as (I1 & I2 & I3 & I4 & I5).
  exists rs, b. split; auto. split; auto.
  split. { unfold rb_num. rewrite I3. destruct (Nat.leb_spec n (length vals)); [lia|].
    rewrite I4; [lia|]. auto. }
  split. { unfold rb_elements. rewrite <- I5. unfold rb_chrono.
    destruct (rb_full b). rewrite firstn_all. symmetry. apply skip_first_perm. auto. }
  split. { intros Hle. unfold rb_elements. unfold rb_chrono in I5. rewrite lastn_all in I5 by lia.
    destruct (rb_full b) eqn:F.
    - rewrite firstn_all. symmetry in I3. apply Nat.leb_le in I3.
      assert (length vals = n) by lia.
      (* the buffer has just become full: the position is 0 *)
      assert (P : rb_pos b = 0).
      { clear -E Hn H. subst n.
        assert (G : forall vals (b b' : ring A) rs, rb_run b vals = Some (rs, b') ->
           rb_full b = false -> length (rb_array b) = rb_pos b + length vals -> 0 < length vals -> rb_pos b' = 0).
        { clear. induction vals as [|v vals IH]; simpl; intros b b' rs E Hf Hl Hv; [lia|].
          unfold rb_push in E. destruct (aget (rb_array b) (rb_pos b)); [|discriminate].
          destruct (aset (rb_array b) (rb_pos b) v) as [arr|] eqn:S; [|discriminate].
          apply aset_inv in S as [_ ->].
          destruct (Nat.leb_spec (length (rb_array b)) (rb_pos b + 1)).
          - destruct vals; [|simpl in *; lia]. simpl in E. injection E as _ <-. auto.
          - destruct (rb_run _ vals) as [[rs' b'']|] eqn:R; [|discriminate]. injection E as _ <-.
            eapply IH in R; simpl; auto.
            + rewrite upd_length. lia.
            + destruct vals; simpl in *; lia. }
        eapply G in E; auto; simpl; try lia. destruct (Nat.eqb_spec (length uninit) 0); auto; lia. }
      rewrite P in I5. simpl in I5. rewrite app_nil_r in I5. auto.
    - auto. }
  split; auto.
Qed.

(** * Sparse set *)
Definition ss_inv {V} (n : nat) (m : fmap V) (s : sset V) : Prop :=
  length (ss_indices s) = n /\
  (forall j i v, nth_error (ss_values s) j = Some (i, v) ->
      i < n /\ nth_error (ss_indices s) i = Some (Some j) /\ m i = Some v) /\
  (forall i, i < n -> m i = None -> nth_error (ss_indices s) i = Some None) /\
  (forall i v, i < n -> m i = Some v -> exists j, nth_error (ss_indices s) i = Some (Some j) /\
      nth_error (ss_values s) j = Some (i, v)) /\
  (forall i, n <= i -> m i = None).

Lemma ss_empty_inv V n : ss_inv n (fun _ => None) (ss_empty V n).
Proof.
  unfold ss_inv, ss_empty; simpl. split; [apply repeat_length|]. repeat split; auto.
  - destruct j; discriminate.
  - destruct j; discriminate.
  - destruct j; discriminate.
  - intros i Hi _. rewrite (nth_error_nth' _ None) by (rewrite repeat_length; auto).
    rewrite nth_repeat. auto.
  - intros; discriminate.
Qed.

Lemma nth_error_snoc {A} (l : list A) x j : nth_error (l ++ [x]) j =
  if j =? length l then Some x else nth_error l j.
Proof.
  destruct (Nat.eqb_spec j (length l)).
  - subst. rewrite nth_error_app2 by lia. rewrite Nat.sub_diag. auto.
  - destruct (Nat.lt_ge_cases j (length l)).
    + apply nth_error_app1; auto.
    + rewrite (proj2 (nth_error_None _ _)), (proj2 (nth_error_None l j)); auto. rewrite app_length; simpl; lia.
Qed.

Lemma nth_error_removelast {A} (l : list A) j :
  nth_error (removelast l) j = if S j <? length l then nth_error l j else None.
Proof.
  revert j; induction l as [|a l IH]; intros j; [destruct j; auto|].
  destruct l as [|b l].
  - destruct j; auto.
  - simpl removelast. destruct j.
    + auto.
    + simpl nth_error. simpl in IH. rewrite IH. reflexivity.
Qed.

Lemma ss_step_inv {V} n m (s : sset V) op : ss_inv n m s -> ss_op_in_range n op ->
  exists s', ss_step s op = Some s' /\ ss_inv n (fm_step m op) s'.
Proof.
  intros (I1 & I2 & I3 & I4 & I5) Ho. destruct op as [i d|i f|i|]; simpl in Ho; simpl ss_step.
  - (* emplace *)
    unfold ss_emplace, aget. destruct (m i) as [v|] eqn:M.
    + destruct (I4 i v Ho M) as (j & E1 & E2). rewrite E1, E2. eexists; split; [reflexivity|].
      simpl. split; auto. split; [|split; [|split]].
      * intros j' i' v' H. destruct (I2 _ _ _ H) as (A1 & A2 & A3). repeat split; auto.
        destruct (Nat.eqb_spec i' i); subst; auto. rewrite M. congruence.
      * intros i' Hi' H. apply I3; auto. destruct (Nat.eqb_spec i' i); subst; [rewrite M in H; discriminate|auto].
      * intros i' v' Hi' H. apply I4; auto. destruct (Nat.eqb_spec i' i); subst; [rewrite M in H; congruence|auto].
      * intros i' Hi'. destruct (Nat.eqb_spec i' i); subst; [lia|auto].
    + rewrite (I3 i Ho M). rewrite aset_Some by lia. eexists; split; [reflexivity|]. simpl.
      assert (NI : forall j i' v', nth_error (ss_values s) j = Some (i', v') -> i' <> i).
      { intros j i' v' H ->. destruct (I2 _ _ _ H) as (_ & _ & H'). congruence. }
      split; [simpl; rewrite upd_length; auto|]. simpl. split; [|split; [|split]].
      * intros j i' v' H. rewrite nth_error_snoc in H. destruct (Nat.eqb_spec j (length (ss_values s))).
        -- injection H as <- <-. subst. repeat split; auto.
           ++ apply nth_error_upd_eq. lia.
           ++ rewrite Nat.eqb_refl, M. auto.
        -- pose proof (NI _ _ _ H). destruct (I2 _ _ _ H) as (A1 & A2 & A3). repeat split; auto.
           ++ rewrite nth_error_upd_neq; auto.
           ++ destruct (Nat.eqb_spec i' i); [congruence|auto].
      * intros i' Hi' H. destruct (Nat.eqb_spec i' i); subst; [rewrite M in H; discriminate|].
        rewrite nth_error_upd_neq by auto. auto.
      * intros i' v' Hi' H. destruct (Nat.eqb_spec i' i).
        -- subst. rewrite M in H. injection H as <-. exists (length (ss_values s)).
           rewrite nth_error_upd_eq by lia. rewrite nth_error_snoc, Nat.eqb_refl. auto.
        -- destruct (I4 i' v' Hi' H) as (j & E1 & E2). exists j. rewrite nth_error_upd_neq by auto. split; auto.
           rewrite nth_error_app1; auto. apply nth_error_Some. congruence.
      * intros i' Hi'. destruct (Nat.eqb_spec i' i); subst; [lia|auto].
  - (* update *)
    unfold ss_update, aget. destruct (m i) as [v|] eqn:M.
    + destruct (I4 i v Ho M) as (j & E1 & E2). rewrite E1, E2.
      assert (Hj : j < length (ss_values s)) by (apply nth_error_Some; congruence).
      rewrite aset_Some by auto. eexists; split; [reflexivity|]. simpl.
      split; auto. simpl. split; [|split; [|split]].
      * intros j' i' v' H. rewrite nth_error_upd in H.
        destruct (Nat.eqb_spec j j'); simpl in H.
        -- subst. destruct (Nat.ltb_spec j' (length (ss_values s))); [|lia]. injection H as <- <-.
           repeat split; auto. rewrite Nat.eqb_refl, M. auto.
        -- destruct (I2 _ _ _ H) as (A1 & A2 & A3). repeat split; auto.
           destruct (Nat.eqb_spec i' i); subst; auto. rewrite E1 in A2. congruence.
      * intros i' Hi' H. apply I3; auto. destruct (Nat.eqb_spec i' i); subst; [rewrite M in H; discriminate|auto].
      * intros i' v' Hi' H. destruct (Nat.eqb_spec i' i).
        -- subst. rewrite M in H. injection H as <-. exists j. split; auto. apply nth_error_upd_eq; auto.
        -- destruct (I4 i' v' Hi' H) as (j' & F1 & F2). exists j'. split; auto.
           rewrite nth_error_upd_neq; auto. intros <-. congruence.
      * intros i' Hi'. destruct (Nat.eqb_spec i' i); subst; [lia|auto].
    + rewrite (I3 i Ho M). eexists; split; [reflexivity|]. simpl. split; auto.
      split; [|split; [|split]].
      * intros j' i' v' H. destruct (I2 _ _ _ H) as (A1 & A2 & A3). repeat split; auto.
        destruct (Nat.eqb_spec i' i); subst; auto. congruence.
      * intros i' Hi' H. apply I3; auto. destruct (Nat.eqb_spec i' i); subst; auto.
      * intros i' v' Hi' H. apply I4; auto. destruct (Nat.eqb_spec i' i); subst; [rewrite M in H; discriminate|auto].
      * intros i' Hi'. destruct (Nat.eqb_spec i' i); subst; [lia|auto].
  - (* erase *)
    unfold ss_erase, aget. destruct (m i) as [v|] eqn:M.
    + destruct (I4 i v Ho M) as (j & E1 & E2). rewrite E1.
      assert (Hj : j < length (ss_values s)) by (apply nth_error_Some; congruence).
      destruct (aget_Some (ss_values s) (length (ss_values s) - 1) ltac:(lia)) as ([li lv] & EL).
      unfold aget in EL. rewrite EL. simpl fst.
      destruct (I2 _ _ _ EL) as (L1 & L2 & L3).
      destruct (Nat.eqb_spec li i) as [->|NE].
      * (* the entry is the last one *)
        rewrite E1 in L2. injection L2 as ->. rewrite aset_Some by lia.
        eexists; split; [reflexivity|]. split; [simpl; rewrite upd_length; auto|]. simpl.
        split; [|split; [|split]].
        -- intros j' i' v' H. rewrite nth_error_removelast in H.
           destruct (Nat.ltb_spec (S j') (length (ss_values s))); [|discriminate].
           destruct (I2 _ _ _ H) as (A1 & A2 & A3).
           assert (i' <> i). { intros ->. rewrite E1 in A2. injection A2 as A2. lia. }
           repeat split; auto. rewrite nth_error_upd_neq; auto.
           destruct (Nat.eqb_spec i' i); [congruence|auto].
        -- intros i' Hi' H. destruct (Nat.eqb_spec i' i).
           ++ subst. apply nth_error_upd_eq. lia.
           ++ rewrite nth_error_upd_neq by auto. auto.
        -- intros i' v' Hi' H. destruct (Nat.eqb_spec i' i); [discriminate|].
           destruct (I4 i' v' Hi' H) as (j' & F1 & F2). exists j'.
           rewrite nth_error_upd_neq by auto. split; auto. rewrite nth_error_removelast.
           assert (j' < length (ss_values s)) by (apply nth_error_Some; congruence).
           destruct (Nat.ltb_spec (S j') (length (ss_values s))); auto.
           exfalso. assert (j' = length (ss_values s) - 1) by lia. subst j'. rewrite EL in F2. congruence.
        -- intros i' Hi'. destruct (Nat.eqb_spec i' i); auto.
      * rewrite aset_Some by auto. rewrite aset_Some by lia. simpl ss_indices. simpl ss_values.
        rewrite aset_Some by (rewrite upd_length; lia).
        eexists; split; [reflexivity|]. split; [simpl; rewrite !upd_length; auto|]. simpl.
        assert (JL : j <> length (ss_values s) - 1). { intros ->. rewrite E2 in EL. congruence. }
        split; [|split; [|split]].
        -- intros j' i' v' H. rewrite nth_error_removelast in H. rewrite upd_length in H.
           destruct (Nat.ltb_spec (S j') (length (ss_values s))); [|discriminate].
           rewrite nth_error_upd in H. destruct (Nat.eqb_spec j j'); simpl in H.
           ++ subst. destruct (Nat.ltb_spec j' (length (ss_values s))); [|lia]. injection H as <- <-.
              repeat split; auto.
              ** rewrite nth_error_upd_neq by auto. apply nth_error_upd_eq. lia.
              ** destruct (Nat.eqb_spec li i); [congruence|auto].
           ++ destruct (I2 _ _ _ H) as (A1 & A2 & A3).
              assert (i' <> i) by (intros ->; congruence).
              assert (i' <> li). { intros ->. rewrite L2 in A2. injection A2 as A2. lia. }
              repeat split; auto.
              ** rewrite !nth_error_upd_neq by auto. auto.
              ** destruct (Nat.eqb_spec i' i); [congruence|auto].
        -- intros i' Hi' H. destruct (Nat.eqb_spec i' i).
           ++ subst. apply nth_error_upd_eq. rewrite upd_length. lia.
           ++ rewrite nth_error_upd_neq by auto. rewrite nth_error_upd_neq; auto.
              intros <-. congruence.
        -- intros i' v' Hi' H. destruct (Nat.eqb_spec i' i); [discriminate|].
           rewrite nth_error_upd_neq by auto.
           destruct (Nat.eq_dec li i') as [->|NL].
           ++ exists j. rewrite nth_error_upd_eq by lia. split; auto.
              rewrite nth_error_removelast, upd_length.
              destruct (Nat.ltb_spec (S j) (length (ss_values s))); [|lia].
              rewrite nth_error_upd_eq by auto. congruence.
           ++ destruct (I4 i' v' Hi' H) as (j' & F1 & F2). exists j'.
              rewrite nth_error_upd_neq by auto. split; auto. rewrite nth_error_removelast, upd_length.
              assert (j' < length (ss_values s)) by (apply nth_error_Some; congruence).
              destruct (Nat.ltb_spec (S j') (length (ss_values s))).
              ** rewrite nth_error_upd_neq; auto. intros <-. congruence.
              ** exfalso. assert (j' = length (ss_values s) - 1) by lia. subst j'. rewrite EL in F2. congruence.
        -- intros i' Hi'. destruct (Nat.eqb_spec i' i); auto.
    + rewrite (I3 i Ho M). eexists; split; [reflexivity|]. simpl. split; auto.
      split; [|split; [|split]].
      * intros j' i' v' H. destruct (I2 _ _ _ H) as (A1 & A2 & A3). repeat split; auto.
        destruct (Nat.eqb_spec i' i); subst; auto. congruence.
      * intros i' Hi' H. apply I3; auto. destruct (Nat.eqb_spec i' i); subst; auto.
      * intros i' v' Hi' H. apply I4; auto. destruct (Nat.eqb_spec i' i); subst; [discriminate|auto].
      * intros i' Hi'. destruct (Nat.eqb_spec i' i); subst; [lia|auto].
  - (* clear *)
    unfold ss_clear.
    assert (G : forall rv ind, length ind = n -> Forall (fun e => fst e < n) rv ->
       exists ind', ss_clear_rev (V := V) rv ind = Some ind' /\ length ind' = n /\
         forall i, i < n -> nth_error ind' i = if existsb (fun e => fst e =? i) rv then Some None else nth_error ind i).
    { induction rv as [|[i v] rv IH]; intros ind HL HF; simpl.
      - exists ind. auto.
      - inversion HF; subst. simpl in H1. rewrite aset_Some by lia.
        destruct (IH (upd ind i None)) as (ind' & -> & L' & G'); auto; [rewrite upd_length; auto|].
        exists ind'. split; auto. split; auto. intros k Hk. rewrite G' by auto.
        destruct (existsb (fun e => fst e =? k) rv); [rewrite orb_true_r; auto|]. rewrite orb_false_r.
        destruct (Nat.eqb_spec i k); [subst; apply nth_error_upd_eq; lia|apply nth_error_upd_neq; auto]. }
    destruct (G (rev (ss_values s)) (ss_indices s) I1) as (ind' & -> & L' & G').
    { apply Forall_rev. apply Forall_forall. intros [i v] Hin. apply In_nth_error in Hin as (j & E).
      apply I2 in E. simpl. tauto. }
    eexists; split; [reflexivity|]. split; auto. simpl. split; [|split; [|split]]; try discriminate; auto.
    + intros j i v H. destruct j; discriminate.
    + intros i Hi _. rewrite G' by auto. destruct (existsb _ _) eqn:X; auto.
      destruct (m i) as [v|] eqn:M; [|auto]. destruct (I4 i v Hi M) as (j & E1 & E2).
      exfalso. apply nth_error_In in E2. rewrite <- not_true_iff_false in X. apply X.
      apply existsb_exists. exists (i, v). rewrite <- in_rev. split; auto. simpl. apply Nat.eqb_refl.
Qed.

Lemma ss_run_inv {V} n ops : forall m (s : sset V), ss_inv n m s -> Forall (ss_op_in_range n) ops ->
  exists s', ss_run s ops = Some s' /\ ss_inv n (fold_left fm_step ops m) s'.
Proof.
  induction ops as [|op ops IH]; intros m s Hi HF; simpl.
  - eauto.
  - inversion HF; subst. destruct (ss_step_inv n m s op Hi H1) as (s1 & -> & I1).
    apply IH; auto.
Qed.

Lemma C15_lemma (V : Type) (n : nat) (ops : list (ss_op V)) : Forall (ss_op_in_range n) ops ->
  exists s, ss_run (ss_empty V n) ops = Some s /\
    (forall i, i < n -> ss_get s i = Some (option_map (pair i) (fm_run ops i))) /\
    NoDup (map fst (ss_values s)) /\
    (forall i v, In (i, v) (ss_values s) <-> fm_run ops i = Some v).
Proof.
  intros HF. destruct (ss_run_inv n ops _ _ (ss_empty_inv V n) HF) as (s & E & I1 & I2 & I3 & I4 & I5).
  fold (fm_run ops) in *. exists s. split; auto. split; [|split].
  - intros i Hi. unfold ss_get, aget. destruct (fm_run ops i) as [v|] eqn:M; simpl.
    + destruct (I4 i v Hi M) as (j & -> & ->). auto.
    + rewrite (I3 i Hi M). auto.
  - apply NoDup_nth_error. intros a b Ha Hab. rewrite map_length in Ha.
    rewrite !nth_error_map in Hab.
    destruct (nth_error (ss_values s) a) as [[i v]|] eqn:Ea; [|apply nth_error_None in Ea; lia].
    destruct (nth_error (ss_values s) b) as [[i' v']|] eqn:Eb; [|discriminate].
    simpl in Hab. injection Hab as <-. destruct (I2 _ _ _ Ea) as (_ & A & _). destruct (I2 _ _ _ Eb) as (_ & B & _).
    congruence.
  - intros i v. split.
    + intros H. apply In_nth_error in H as (j & H). apply I2 in H. tauto.
    + intros M. destruct (Nat.lt_ge_cases i n).
      * destruct (I4 i v H M) as (j & _ & E2). eapply nth_error_In; eauto.
      * rewrite I5 in M by auto. discriminate.
Qed.
