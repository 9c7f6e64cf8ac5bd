From Coq Require Import NArith Arith List Lia ZArith Znumtheory Bool.
From Verif Require Import Lib.Arr Model.Rng.
Import ListNotations.
Open Scope N_scope.

(** * Linearity *)
Lemma u32_land x : u32 x = N.land x (N.ones 32).
Proof. unfold u32. symmetry. apply N.land_ones. Qed.

Lemma u32_lt x : u32 x < 2 ^ 32.
Proof. unfold u32. apply N.mod_lt. discriminate. Qed.

Lemma u32_small x : x < 2 ^ 32 -> u32 x = x.
Proof. intros. unfold u32. apply N.mod_small. auto. Qed.

Lemma u32_lxor x y : u32 (N.lxor x y) = N.lxor (u32 x) (u32 y).
Proof.
  rewrite !u32_land. apply N.bits_inj. intros k.
  rewrite ?N.lxor_spec, ?N.land_spec, ?N.lxor_spec.
  destruct (N.testbit x k), (N.testbit y k), (N.testbit (N.ones 32) k); reflexivity.
Qed.

Lemma lt_pow2_testbit x n : x < 2 ^ n <-> (forall k, n <= k -> N.testbit x k = false).
Proof.
  split; intros H.
  - intros k Hk. destruct (N.eq_dec x 0) as [->|Hx]; [apply N.bits_0|].
    apply N.bits_above_log2. apply N.lt_le_trans with n; auto.
    apply N.log2_lt_pow2; lia.
  - destruct (N.eq_dec x 0) as [->|Hx]; [apply N.neq_0_lt_0; apply N.pow_nonzero; lia|].
    apply N.log2_lt_pow2; [lia|]. destruct (N.lt_ge_cases (N.log2 x) n); auto.
    specialize (H _ H0). rewrite N.bit_log2 in H; auto. discriminate.
Qed.

Lemma lxor_lt x y n : x < 2 ^ n -> y < 2 ^ n -> N.lxor x y < 2 ^ n.
Proof.
  rewrite !lt_pow2_testbit. intros Hx Hy k Hk. rewrite N.lxor_spec, Hx, Hy; auto.
Qed.

Lemma shiftr_lt x k n : x < 2 ^ n -> N.shiftr x k < 2 ^ n.
Proof.
  rewrite !lt_pow2_testbit. intros Hx j Hj. rewrite N.shiftr_spec'. apply Hx. lia.
Qed.

Lemma xorshift_lt s : s < 2 ^ 32 -> xorshift s < 2 ^ 32.
Proof.
  intros H. unfold xorshift.
  repeat first [apply lxor_lt | apply shiftr_lt | apply u32_lt | assumption].
Qed.

Lemma lxor_swap4 a b c d : N.lxor (N.lxor a b) (N.lxor c d) = N.lxor (N.lxor a c) (N.lxor b d).
Proof.
  rewrite !N.lxor_assoc. f_equal. rewrite <- !N.lxor_assoc. f_equal. apply N.lxor_comm.
Qed.

Lemma xorshift_lxor x y : xorshift (N.lxor x y) = N.lxor (xorshift x) (xorshift y).
Proof.
  unfold xorshift. cbv zeta.
  assert (L : forall k a b, N.lxor (N.lxor a b) (u32 (N.shiftl (N.lxor a b) k)) =
     N.lxor (N.lxor a (u32 (N.shiftl a k))) (N.lxor b (u32 (N.shiftl b k)))).
  { intros. rewrite N.shiftl_lxor, u32_lxor. apply lxor_swap4. }
  assert (R : forall k a b, N.lxor (N.lxor a b) (N.shiftr (N.lxor a b) k) =
     N.lxor (N.lxor a (N.shiftr a k)) (N.lxor b (N.shiftr b k))).
  { intros. rewrite N.shiftr_lxor. apply lxor_swap4. }
  rewrite (L 13 x y), R, L. reflexivity.
Qed.

(** * Matrices over GF(2): list of 32 columns *)
Fixpoint app_mat (cols : list N) (v : N) : N :=
  match cols with
  | [] => 0
  | c :: cs => N.lxor (if N.odd v then c else 0) (app_mat cs (N.div2 v))
  end.

Definition mul_mat (a b : list N) : list N := map (app_mat a) b.

Definition basis : list N := map (fun i => 2 ^ N.of_nat i) (seq 0 32).

Definition xs_mat : list N := map xorshift basis.

Definition linear (f : N -> N) := forall x y, f (N.lxor x y) = N.lxor (f x) (f y).

Lemma linear_0 f : linear f -> f 0 = 0.
Proof.
  intros H. specialize (H 0 0). rewrite N.lxor_0_l in H.
  rewrite N.lxor_nilpotent in H. auto.
Qed.

Lemma odd_lxor x y : N.odd (N.lxor x y) = xorb (N.odd x) (N.odd y).
Proof. rewrite <- !N.bit0_odd. apply N.lxor_spec. Qed.

Lemma div2_lxor x y : N.div2 (N.lxor x y) = N.lxor (N.div2 x) (N.div2 y).
Proof. rewrite !N.div2_spec. apply N.shiftr_lxor. Qed.

Lemma app_mat_linear cols : linear (app_mat cols).
Proof.
  induction cols; intros x y; simpl.
  - auto.
  - rewrite odd_lxor, div2_lxor, IHcols.
    rewrite lxor_swap4. f_equal.
    destruct (N.odd x), (N.odd y); simpl; rewrite ?N.lxor_0_l, ?N.lxor_0_r, ?N.lxor_nilpotent; auto.
Qed.

Lemma app_mat_basis f n v :
  linear f -> forall k, v < 2 ^ N.of_nat n ->
  app_mat (map f (map (fun i => 2 ^ N.of_nat i) (seq k n))) v = f (N.shiftl v (N.of_nat k)).
Proof.
  intros Hf. revert v. induction n; intros v k Hv.
  - simpl in Hv. assert (v = 0) by lia. subst. rewrite N.shiftl_0_l. symmetry. apply linear_0; auto.
  - simpl map. simpl app_mat. rewrite IHn.
    + assert (E : N.shiftl v (N.of_nat k) =
        N.lxor (if N.odd v then 2 ^ N.of_nat k else 0) (N.shiftl (N.div2 v) (N.of_nat (S k)))).
      { apply N.bits_inj. intros j. rewrite N.lxor_spec.
        destruct (N.lt_ge_cases j (N.of_nat k)).
        - rewrite !N.shiftl_spec_low by lia. destruct (N.odd v).
          + rewrite N.pow2_bits_false by lia. auto.
          + rewrite N.bits_0. auto.
        - destruct (N.eq_dec j (N.of_nat k)).
          + subst. rewrite N.shiftl_spec_high' by lia. rewrite N.sub_diag.
            rewrite (N.shiftl_spec_low _ _ (N.of_nat k)) by lia.
            rewrite N.bit0_odd. destruct (N.odd v).
            * rewrite N.pow2_bits_true. auto.
            * rewrite N.bits_0. auto.
          + rewrite !N.shiftl_spec_high' by lia. rewrite N.div2_spec, N.shiftr_spec'.
            replace (j - N.of_nat (S k) + 1) with (j - N.of_nat k) by lia.
            destruct (N.odd v).
            * rewrite N.pow2_bits_false by lia. destruct (N.testbit v _); auto.
            * rewrite N.bits_0. destruct (N.testbit v _); auto. }
      rewrite E. rewrite Hf. f_equal. destruct (N.odd v); auto. symmetry. apply linear_0; auto.
    + rewrite N.div2_div. apply N.div_lt_upper_bound; [lia|].
      rewrite Nat2N.inj_succ, N.pow_succ_r' in Hv. auto.
Qed.

Lemma app_mat_repr f v : linear f -> v < 2 ^ 32 -> app_mat (map f basis) v = f v.
Proof.
  intros Hf Hv. unfold basis. rewrite app_mat_basis; auto.
  f_equal. apply N.shiftl_0_r.
Qed.

Lemma app_mat_xs v : v < 2 ^ 32 -> app_mat xs_mat v = xorshift v.
Proof. intros. unfold xs_mat. apply app_mat_repr; auto. intros x y. apply xorshift_lxor. Qed.

Definition wf_mat (m : list N) := length m = 32%nat /\ Forall (fun c => c < 2 ^ 32) m.

Lemma app_mat_lt m v : Forall (fun c => c < 2 ^ 32) m -> app_mat m v < 2 ^ 32.
Proof.
  intros H. revert v. induction H; intros; cbn [app_mat].
  - reflexivity.
  - apply lxor_lt; auto. destruct (N.odd v); auto. reflexivity.
Qed.

Lemma app_mul_gen a b v : app_mat (mul_mat a b) v = app_mat a (app_mat b v).
Proof.
  unfold mul_mat. revert v. induction b; intros; simpl.
  - symmetry. apply linear_0. apply app_mat_linear.
  - rewrite IHb. rewrite app_mat_linear. f_equal. destruct (N.odd v); auto.
    symmetry. apply linear_0. apply app_mat_linear.
Qed.

Lemma app_basis v : v < 2 ^ 32 -> app_mat basis v = v.
Proof.
  intros. rewrite <- (map_id basis). apply app_mat_repr; auto. intros x y; auto.
Qed.

(** Powers by repeated squaring *)
Fixpoint pow_mat (m : list N) (p : positive) : list N :=
  match p with
  | xH => m
  | xO p => let q := pow_mat m p in mul_mat q q
  | xI p => let q := pow_mat m p in mul_mat m (mul_mat q q)
  end.

Lemma iter_add {A} (f : A -> A) (m n : nat) x :
  Nat.iter (m + n) f x = Nat.iter m f (Nat.iter n f x).
Proof. induction m; simpl; auto. rewrite IHm; auto. Qed.

Lemma app_pow_mat m p v : app_mat (pow_mat m p) v = Nat.iter (Pos.to_nat p) (app_mat m) v.
Proof.
  revert v. induction p; intros; simpl pow_mat.
  - rewrite !app_mul_gen, !IHp. rewrite <- iter_add.
    rewrite Pos2Nat.inj_xI. simpl. f_equal. f_equal. lia.
  - rewrite app_mul_gen, !IHp. rewrite <- iter_add.
    rewrite Pos2Nat.inj_xO. f_equal. lia.
  - reflexivity.
Qed.

Lemma xorshift_iter_lt k s : s < 2 ^ 32 -> Nat.iter k xorshift s < 2 ^ 32.
Proof. intros. induction k; simpl; auto. apply xorshift_lt; auto. Qed.

Lemma iter_xs k s : s < 2 ^ 32 -> Nat.iter k (app_mat xs_mat) s = Nat.iter k xorshift s.
Proof.
  intros. induction k; cbn [Nat.iter nat_rect]; auto.
  unfold Nat.iter in *. rewrite IHk. apply app_mat_xs. apply xorshift_iter_lt; auto.
Qed.

Definition period : positive := Eval vm_compute in (2 ^ 32 - 1)%positive.

Lemma pow_period_id : pow_mat xs_mat period = basis.
Proof. vm_compute. reflexivity. Qed.

Lemma xorshift_period s : s < 2 ^ 32 -> Nat.iter (Pos.to_nat period) xorshift s = s.
Proof.
  intros. rewrite <- iter_xs by auto. rewrite <- app_pow_mat. rewrite pow_period_id. apply app_basis; auto.
Qed.

(** The period as an opaque natural number, so that it never gets unfolded. *)
Lemma period_nat_ex : {P : nat | Z.of_nat P = Zpos period /\
  forall s, s < 2 ^ 32 -> Nat.iter P xorshift s = s}.
Proof. exists (Pos.to_nat period). split; [apply positive_nat_Z | exact xorshift_period]. Qed.

Definition period_nat : nat := proj1_sig period_nat_ex.

Lemma period_nat_Z : Z.of_nat period_nat = Zpos period.
Proof. exact (proj1 (proj2_sig period_nat_ex)). Qed.

Lemma xorshift_period_nat s : s < 2 ^ 32 -> Nat.iter period_nat xorshift s = s.
Proof. exact (proj2 (proj2_sig period_nat_ex) s). Qed.

(** Gauss-Jordan elimination, used only to compute candidate inverses; the result is verified. *)
Definition add_mat (a b : list N) : list N := map (fun '(x, y) => N.lxor x y) (combine a b).

Lemma app_add_mat a b v : length a = length b ->
  app_mat (add_mat a b) v = N.lxor (app_mat a v) (app_mat b v).
Proof.
  revert b v; induction a; destruct b; intros; simpl in *; try discriminate.
  - auto.
  - unfold add_mat in IHa. rewrite IHa by lia.
    rewrite lxor_swap4. f_equal. destruct (N.odd v); auto.
Qed.

(* State: list of pairs (column of A, column of the tracked identity). *)
Fixpoint pick (bit : N) (l : list (N * N)) (acc : list (N * N)) : option ((N * N) * list (N * N)) :=
  match l with
  | [] => None
  | c :: cs => if N.testbit (fst c) bit then Some (c, rev_append acc cs) else pick bit cs (c :: acc)
  end.

Definition elim (bit : N) (piv : N * N) (c : N * N) : N * N :=
  if N.testbit (fst c) bit then (N.lxor (fst c) (fst piv), N.lxor (snd c) (snd piv)) else c.

Fixpoint gauss (bits : list N) (todo done : list (N * N)) : list (N * N) :=
  match bits with
  | [] => rev done
  | b :: bs =>
      match pick b todo [] with
      | None => []
      | Some (piv, rest) => gauss bs (map (elim b piv) rest) (piv :: map (elim b piv) done)
      end
  end.

Definition inv_mat (m : list N) : list N :=
  map snd (gauss (map N.of_nat (seq 0 32)) (combine m basis) []).

Definition check_factor (p : positive) : bool :=
  let a := add_mat (pow_mat xs_mat p) basis in
  let w := inv_mat a in
  if list_eq_dec N.eq_dec (mul_mat w a) basis then
    (length (pow_mat xs_mat p) =? 32)%nat
  else false.

Lemma check_factor_ok p s :
  check_factor p = true -> s < 2 ^ 32 -> Nat.iter (Pos.to_nat p) xorshift s = s -> s = 0.
Proof.
  unfold check_factor. destruct (list_eq_dec _ _ _) as [E|]; [|discriminate].
  intros L Hs Hi. apply Nat.eqb_eq in L.
  rewrite <- iter_xs in Hi by auto. rewrite <- app_pow_mat in Hi.
  rewrite <- (app_basis s Hs). rewrite <- E. rewrite app_mul_gen.
  rewrite app_add_mat.
  - rewrite Hi, app_basis by auto. rewrite N.lxor_nilpotent. apply linear_0. apply app_mat_linear.
  - rewrite L. reflexivity.
Qed.

Definition factors : list positive := [3; 5; 17; 257; 65537]%positive.

Lemma factors_ok : forallb (fun p => check_factor (Z.to_pos (Zpos period / Zpos p))) factors = true.
Proof. vm_compute. reflexivity. Qed.

(** * Primes *)
Definition coprime_below (p : Z) : bool :=
  N.peano_rect (fun _ => bool) true (fun r acc => acc && (Z.gcd (Z.of_N (N.succ r)) p =? 1)%Z) (Z.to_N (p - 1)).

Lemma coprime_below_ok p : coprime_below p = true -> forall r, (0 < r < p)%Z -> Z.gcd r p = 1%Z.
Proof.
  unfold coprime_below. intros H r Hr.
  assert (G : forall n, N.peano_rect (fun _ => bool) true
     (fun r acc => acc && (Z.gcd (Z.of_N (N.succ r)) p =? 1)%Z) n = true ->
     forall r, (0 < r <= Z.of_N n)%Z -> Z.gcd r p = 1%Z).
  { intros n. induction n using N.peano_ind; intros Hn r' Hr'.
    - simpl in Hr'. lia.
    - rewrite N.peano_rect_succ in Hn. apply Bool.andb_true_iff in Hn as [H1 H2].
      apply Z.eqb_eq in H2. destruct (Z.eq_dec r' (Z.of_N (N.succ n))).
      + subst; auto.
      + apply IHn; auto. lia. }
  apply (G _ H). rewrite Z2N.id by lia. lia.
Qed.

Lemma gauss_factor p q x :
  coprime_below p = true -> (0 < p)%Z -> ~ (p | q)%Z -> (q | p * x)%Z -> (q | x)%Z.
Proof.
  intros Hp Hp0 Hnd Hd. apply Gauss with p; auto.
  apply Zgcd_1_rel_prime. rewrite Z.gcd_comm.
  rewrite <- Z.gcd_mod by lia. rewrite Z.gcd_comm, Z.gcd_comm.
  apply (coprime_below_ok p Hp).
  assert (q mod p <> 0)%Z. { intros E. apply Hnd. apply Z.mod_divide; lia. }
  pose proof (Z.mod_pos_bound q p Hp0). lia.
Qed.

Lemma coprime_factors : forallb (fun p => coprime_below (Zpos p)) factors = true.
Proof. vm_compute. reflexivity. Qed.

Lemma period_divisor q : (q | Zpos period)%Z -> (1 < q)%Z -> exists p, In p factors /\ (Zpos p | q)%Z.
Proof.
  intros Hq H1.
  assert (D : forall p, In p factors -> coprime_below (Zpos p) = true).
  { intros p Hp. pose proof coprime_factors as H. rewrite forallb_forall in H. auto. }
  destruct (Zdivide_dec 3 q) as [?|N1]; [exists 3%positive; split; [simpl; auto|auto]|].
  destruct (Zdivide_dec 5 q) as [?|N2]; [exists 5%positive; split; [simpl; auto|auto]|].
  destruct (Zdivide_dec 17 q) as [?|N3]; [exists 17%positive; split; [simpl; auto|auto]|].
  destruct (Zdivide_dec 257 q) as [?|N4]; [exists 257%positive; split; [simpl; auto|auto]|].
  destruct (Zdivide_dec 65537 q) as [?|N5]; [exists 65537%positive; split; [simpl; auto 6|auto]|].
  exfalso.
  change (Zpos period) with (3 * (5 * (17 * (257 * (65537 * 1)))))%Z in Hq.
  apply (gauss_factor 3) in Hq; [|apply D; simpl; auto|lia|auto].
  apply (gauss_factor 5) in Hq; [|apply D; simpl; auto|lia|auto].
  apply (gauss_factor 17) in Hq; [|apply D; simpl; auto|lia|auto].
  apply (gauss_factor 257) in Hq; [|apply D; simpl; auto|lia|auto].
  apply (gauss_factor 65537) in Hq; [|apply D; simpl; auto 6|lia|auto].
  apply Z.divide_1_r_nonneg in Hq; lia.
Qed.

(** * Orbits *)
Lemma iter_mul_fix {A} (f : A -> A) d k x : Nat.iter d f x = x -> Nat.iter (k * d) f x = x.
Proof. intros H. induction k; cbn [Nat.mul]; auto. rewrite iter_add, IHk; auto. Qed.

Lemma iter_gcd_fix {A} (f : A -> A) a : forall b x, (b <= a)%nat -> 
  Nat.iter a f x = x -> Nat.iter b f x = x -> Nat.iter (Nat.gcd a b) f x = x.
Proof.
  induction a as [a IH] using lt_wf_ind. intros b x Hb Ha Hbx.
  destruct b.
  - rewrite Nat.gcd_0_r. auto.
  - rewrite Nat.gcd_comm. rewrite <- Nat.gcd_mod by lia. rewrite Nat.gcd_comm.
    assert (Hm : Nat.iter (a mod S b) f x = x).
    { rewrite (Nat.div_mod a (S b)) in Ha by lia. rewrite Nat.add_comm, iter_add in Ha.
      rewrite (Nat.mul_comm (S b)) in Ha. rewrite iter_mul_fix in Ha; auto. }
    pose proof (Nat.mod_upper_bound a (S b) ltac:(lia)).
    destruct (Nat.eq_dec (S b) a).
    + subst. rewrite Nat.mod_same by lia. rewrite Nat.gcd_0_r. auto.
    + apply IH; auto; lia.
Qed.

Lemma nat_divide_Z a b : Nat.divide a b -> (Z.of_nat a | Z.of_nat b)%Z.
Proof. intros [k ->]. exists (Z.of_nat k). lia. Qed.

Lemma no_short_cycle s d : s < 2 ^ 32 -> s <> 0 -> (0 < d < period_nat)%nat ->
  Nat.iter d xorshift s <> s.
Proof.
  intros Hs Hs0 Hd Hi.
  pose proof (iter_gcd_fix xorshift (period_nat) d s ltac:(lia) (xorshift_period_nat s Hs) Hi) as Hg.
  set (g := Nat.gcd (period_nat) d) in *.
  assert (Hg1 : Nat.divide g (period_nat)) by apply Nat.gcd_divide_l.
  assert (Hg2 : Nat.divide g d) by apply Nat.gcd_divide_r.
  clearbody g.
  assert (g <= d)%nat by (apply Nat.divide_pos_le; lia || auto).
  assert (0 < g)%nat. { destruct Hg2 as [k Hk]. destruct (Nat.eq_dec g 0) as [E|]; [|lia]. rewrite E in Hk. lia. }
  apply nat_divide_Z in Hg1. rewrite period_nat_Z in Hg1.
  destruct Hg1 as [q Hq].
  assert (q | Zpos period)%Z. { exists (Z.of_nat g). lia. }
  assert (1 < q)%Z. { apply Z.lt_nge. intros Hle.
    assert (Zpos period <= Z.of_nat g)%Z by nia.
    pose proof period_nat_Z. lia. }
  destruct (period_divisor q H1 H2) as (p & Hp & [r Hr]).
  pose proof factors_ok as F. rewrite forallb_forall in F. specialize (F p Hp).
  apply Hs0. eapply check_factor_ok; eauto.
  assert (E : (Zpos period / Zpos p = r * Z.of_nat g)%Z).
  { rewrite Hq, Hr. replace (r * Zpos p * Z.of_nat g)%Z with (r * Z.of_nat g * Zpos p)%Z by ring.
    apply Z.div_mul. lia. }
  rewrite E. assert (0 < r)%Z by nia.
  assert (X : Pos.to_nat (Z.to_pos (r * Z.of_nat g)) = (Z.to_nat r * g)%nat).
  { rewrite <- Z2Nat.inj_pos. rewrite Z2Pos.id by nia.
    rewrite Z2Nat.inj_mul by lia. rewrite Nat2Z.id. auto. }
  rewrite X. apply iter_mul_fix. auto.
Qed.

Lemma xorshift_nonzero s : s < 2 ^ 32 -> s <> 0 -> xorshift s <> 0.
Proof.
  intros Hs H0 E. apply H0. rewrite <- (xorshift_period_nat s Hs).
  pose proof period_nat_Z as HP. unfold period in HP.
  replace period_nat with ((period_nat - 1) + 1)%nat by lia.
  rewrite iter_add. change (Nat.iter 1 xorshift s) with (xorshift s). rewrite E.
  generalize (period_nat - 1)%nat. induction n; simpl; auto. rewrite IHn. reflexivity.
Qed.

Lemma iter_nonzero k s : s < 2 ^ 32 -> s <> 0 -> Nat.iter k xorshift s <> 0.
Proof.
  intros. induction k; simpl; auto. apply xorshift_nonzero; auto. apply xorshift_iter_lt; auto.
Qed.

Lemma iter_inj s i j : s < 2 ^ 32 -> s <> 0 ->
  (i < period_nat)%nat -> (j < period_nat)%nat ->
  Nat.iter i xorshift s = Nat.iter j xorshift s -> i = j.
Proof.
  intros Hs H0.
  assert (G : forall i j, (i < j)%nat -> (j < period_nat)%nat ->
              Nat.iter i xorshift s = Nat.iter j xorshift s -> False).
  { intros a b Hab Hb E.
    replace b with ((b - a) + a)%nat in E by lia. rewrite iter_add in E.
    symmetry in E. revert E. apply no_short_cycle; try lia.
    - apply xorshift_iter_lt; auto.
    - apply iter_nonzero; auto. }
  intros Hi Hj E. destruct (lt_eq_lt_dec i j) as [[?|?]|?]; auto; exfalso; eauto.
Qed.

Lemma orbit_full s v : s < 2 ^ 32 -> s <> 0 -> v < 2 ^ 32 -> v <> 0 ->
  exists i, (i < period_nat)%nat /\ Nat.iter i xorshift s = v.
Proof.
  intros Hs Hs0 Hv Hv0.
  set (P := period_nat) in *.
  set (l := map (fun i => Nat.iter i xorshift s) (seq 0 P)).
  set (l' := map N.of_nat (seq 1 P)).
  assert (HP : N.of_nat P = 2 ^ 32 - 1). { unfold P. pose proof period_nat_Z as HP. unfold period in HP. lia. }
  assert (ND : NoDup l).
  { unfold l.
    assert (G : forall n, (n <= P)%nat -> NoDup (map (fun i => Nat.iter i xorshift s) (seq 0 n))).
    { intros n. induction n; intros Hn.
      - constructor.
      - rewrite seq_S, map_app. simpl. 
        apply NoDup_rev in IHn; [|lia]. 
        rewrite <- (rev_involutive (_ ++ _)). apply NoDup_rev. rewrite rev_app_distr. simpl.
        constructor; auto. rewrite <- in_rev. rewrite in_map_iff. intros (j & Hj & Hin).
        apply in_seq in Hin. apply iter_inj in Hj; auto; try lia; unfold P in *; lia. }
    apply G. auto. }
  assert (I : incl l l').
  { intros x Hx. unfold l in Hx. apply in_map_iff in Hx as (i & <- & Hi).
    unfold l'. apply in_map_iff. exists (N.to_nat (Nat.iter i xorshift s)).
    split; [apply N2Nat.id|]. apply in_seq.
    pose proof (xorshift_iter_lt i s Hs). pose proof (iter_nonzero i s Hs Hs0).
    assert (N.of_nat (N.to_nat (Nat.iter i xorshift s)) < N.of_nat (1 + P)).
    { rewrite N2Nat.id. rewrite Nat2N.inj_add, HP. lia. }
    lia. }
  assert (I' : incl l' l).
  { apply NoDup_length_incl; auto. unfold l, l'. rewrite !map_length, !seq_length. auto. }
  assert (In v l).
  { apply I'. unfold l'. apply in_map_iff. exists (N.to_nat v). split; [apply N2Nat.id|].
    apply in_seq. split; [lia|].
    assert (N.of_nat (N.to_nat v) < N.of_nat (1 + P)).
    { rewrite N2Nat.id. rewrite Nat2N.inj_add, HP. lia. }
    lia. }
  unfold l in H. apply in_map_iff in H as (i & E & Hi). apply in_seq in Hi.
  exists i. split; [lia|auto].
Qed.

(** * Drawn numbers *)
Definition valid (s : N) : Prop := 1 <= s < 2 ^ 32.

Lemma next_state_valid s : valid s -> next_state s = xorshift s /\ valid (xorshift s).
Proof.
  intros [H1 H2]. unfold next_state. destruct (N.eqb_spec s 0); [lia|]. split; auto.
  pose proof (xorshift_lt s H2). pose proof (xorshift_nonzero s H2 n). split; lia.
Qed.

Lemma u32_diff min max : min < max < 2 ^ 32 -> u32 (2 ^ 32 + max - min) = max - min.
Proof.
  intros. unfold u32. replace (2 ^ 32 + max - min) with (max - min + 1 * 2 ^ 32) by lia.
  rewrite N.mod_add by discriminate. apply N.mod_small. lia.
Qed.

Lemma randomInt32_eq s min max : valid s -> min < max < 2 ^ 32 ->
  randomInt32 s min max = Some (min + (xorshift s mod 2 ^ 31) mod (max - min), xorshift s).
Proof.
  intros Hs H. unfold randomInt32. destruct (next_state_valid s Hs) as [-> _].
  change (u32 (MAX_RANDOM + 1)) with (2 ^ 31). cbv zeta. rewrite u32_diff by auto.
  destruct (N.eqb_spec (max - min) 0); [lia|].
  rewrite u32_small; auto.
  pose proof (N.mod_lt (xorshift s mod 2 ^ 31) (max - min) n). lia.
Qed.

Lemma randomInt32_ok s min max : valid s -> min < max < 2 ^ 32 ->
  exists r s', randomInt32 s min max = Some (r, s') /\ min <= r < max /\ valid s'.
Proof.
  intros Hs H. rewrite randomInt32_eq by auto.
  exists (min + (xorshift s mod 2 ^ 31) mod (max - min)), (xorshift s). split; [reflexivity|].
  pose proof (N.mod_lt (xorshift s mod 2 ^ 31) (max - min) ltac:(lia)).
  set (r := (xorshift s mod 2 ^ 31) mod (max - min)) in *. clearbody r.
  split; [lia|]. apply next_state_valid; auto.
Qed.

Lemma randomInt_ok s (min max : nat) : valid s -> (min < max)%nat -> N.of_nat max < 2 ^ 32 ->
  exists r s', randomInt s min max = Some (r, s') /\ (min <= r < max)%nat /\ valid s'.
Proof.
  intros Hs H1 H2.
  destruct (randomInt32_ok s (N.of_nat min) (N.of_nat max) Hs ltac:(lia)) as (r & s' & E & Hr & Hs').
  unfold randomInt. rewrite E. do 2 eexists. split; [reflexivity|]. split; [lia|auto].
Qed.

Lemma randomInt_state s (min max : nat) r s' : valid s -> (min < max)%nat -> N.of_nat max < 2 ^ 32 ->
  randomInt s min max = Some (r, s') -> s' = xorshift s /\ (min <= r < max)%nat /\ valid s'.
Proof.
  intros Hs H1 H2 E.
  destruct (randomInt_ok s min max Hs H1 H2) as (r0 & s0 & E0 & Hr & Hs0).
  assert (r0 = r /\ s0 = s') as [-> ->] by (rewrite E0 in E; split; congruence).
  split; auto.
  unfold randomInt in E0. rewrite randomInt32_eq in E0 by (auto; lia). congruence.
Qed.

Lemma requests_ok reqs : forall s, valid s -> Forall (fun q => fst q < snd q < 2 ^ 32) reqs ->
  exists rs s', requests s reqs = Some (rs, s') /\
    Forall2 (fun q r => fst q <= r < snd q) reqs rs /\ valid s'.
Proof.
  induction reqs as [|[lo hi] reqs IH]; intros s Hs HF.
  - exists [], s. auto.
  - inversion HF; subst. simpl in *.
    destruct (randomInt32_ok s lo hi Hs H1) as (r & s1 & E & Hr & Hs1). rewrite E.
    destruct (IH s1 Hs1 H2) as (rs & s2 & E2 & HF2 & Hs2). rewrite E2.
    exists (r :: rs), s2. split; auto.
Qed.

(** The result of the [k]-th of several identical requests. *)
Lemma requests_nth k : forall s lo hi, valid s -> lo < hi < 2 ^ 32 ->
  exists rs, requests s (repeat (lo, hi) (S k)) = Some (rs, Nat.iter (S k) xorshift s) /\
    nth_error rs k = Some (lo + (Nat.iter (S k) xorshift s mod 2 ^ 31) mod (hi - lo)).
Proof.
  induction k; intros s lo hi Hs H.
  - exists [lo + (xorshift s mod 2 ^ 31) mod (hi - lo)]. cbn [repeat requests].
    rewrite randomInt32_eq by auto. split; reflexivity.
  - cbn [repeat requests]. rewrite randomInt32_eq by auto.
    destruct (IHk (xorshift s) lo hi) as (rs & E & E2); auto.
    { apply next_state_valid; auto. }
    cbn [repeat requests] in E. rewrite E.
    assert (X : Nat.iter (S k) xorshift (xorshift s) = Nat.iter (S (S k)) xorshift s).
    { replace (S (S k)) with (S k + 1)%nat by lia. rewrite iter_add. reflexivity. }
    eexists. split; [rewrite X; reflexivity|]. cbn [nth_error]. rewrite X in E2. auto.
Qed.

Lemma orbit_full_S s v : valid s -> valid v ->
  exists i, (i < period_nat)%nat /\ Nat.iter (S i) xorshift s = v.
Proof.
  intros Hs Hv. destruct (next_state_valid s Hs) as [_ [Hx1 Hx2]].
  destruct Hv. destruct (orbit_full (xorshift s) v) as (i & Hi & E); auto; try lia.
  exists i. split; auto. replace (S i) with (i + 1)%nat by lia. rewrite iter_add. exact E.
Qed.

Lemma reach_state s v : valid s -> valid v ->
  exists k rs, (k < period_nat)%nat /\ requests s (repeat (0, 1) (S k)) = Some (rs, v).
Proof.
  intros Hs Hv. destruct (orbit_full_S s v Hs Hv) as (k & Hk & E).
  destruct (requests_nth k s 0 1 Hs) as (rs & E1 & _); [lia|].
  exists k, rs. split; auto. rewrite E1, E. auto.
Qed.

Lemma reach_value s lo hi t : valid s -> lo <= t < hi -> hi < 2 ^ 32 -> t - lo < 2 ^ 31 ->
  exists k rs s', (k < period_nat)%nat /\
    requests s (repeat (lo, hi) (S k)) = Some (rs, s') /\ nth_error rs k = Some t.
Proof.
  intros Hs Ht Hhi Hd.
  destruct (orbit_full_S s (t - lo + 2 ^ 31) Hs) as (k & Hk & E).
  { unfold valid. lia. }
  destruct (requests_nth k s lo hi Hs) as (rs & E1 & E2); [lia|].
  exists k, rs, (Nat.iter (S k) xorshift s). split; auto. split; auto.
  rewrite E2, E. f_equal.
  replace (t - lo + 2 ^ 31) with (t - lo + 1 * 2 ^ 31) by lia.
  rewrite N.mod_add by discriminate. rewrite (N.mod_small (t - lo)) by lia.
  rewrite N.mod_small by lia. lia.
Qed.
