From Coq Require Import NArith Arith List Bool ZArith QArith Qround Lia Permutation.
From Verif Require Import Lib.Arr Model.Rng Model.Sampling Model.Stratified Spec.Stratified
  Proofs.Rng Proofs.Sampling Proofs.Stratified.
Import ListNotations.
Open Scope nat_scope.

(** Examples among [indices] that are still masked and have label [l]. *)
Definition mtrue (mask : list bool) (e : nat) : bool := nth e mask false.
Definition cnt rows indices mask l : nat :=
  length (filter (fun e => mtrue mask e && hasLabel rows l e) indices).

Lemma mtrue_upd mask e v k : e < length mask -> mtrue (upd mask e v) k = if k =? e then v else mtrue mask k.
Proof.
  intros H. unfold mtrue. destruct (Nat.eqb_spec k e).
  - subst. erewrite nth_error_nth; [reflexivity|]. apply nth_error_upd_eq; auto.
  - destruct (Nat.lt_ge_cases k (length mask)).
    + destruct (nth_error mask k) eqn:E.
      * rewrite (nth_error_nth _ _ _ E). apply nth_error_nth. rewrite nth_error_upd_neq; auto.
      * apply nth_error_None in E. lia.
    + rewrite !nth_overflow; auto. rewrite upd_length. auto.
Qed.

Lemma mtrue_aget mask e : e < length mask -> aget mask e = Some (mtrue mask e).
Proof.
  intros H. unfold aget, mtrue. destruct (nth_error mask e) eqn:E.
  - rewrite (nth_error_nth _ _ _ E). auto.
  - apply nth_error_None in E. lia.
Qed.

Lemma filter_ext_In {A} (f g : A -> bool) l : (forall x, In x l -> f x = g x) -> filter f l = filter g l.
Proof. induction l as [|a l IH]; simpl; intros H; auto. rewrite (H a) by auto. rewrite IH by auto. auto. Qed.

Lemma cnt_upd rows indices mask e l : NoDup indices -> In e indices -> e < length mask -> mtrue mask e = true ->
  cnt rows indices (upd mask e false) l + (if hasLabel rows l e then 1 else 0) = cnt rows indices mask l.
Proof.
  intros ND Hin Hl Hm. unfold cnt.
  apply in_split in Hin as (a & b & ->). apply NoDup_remove_2 in ND. rewrite in_app_iff in ND.
  rewrite !filter_app, !app_length. simpl. rewrite mtrue_upd, Nat.eqb_refl, Hm by auto. simpl.
  rewrite (filter_ext_In (fun e0 => mtrue (upd mask e false) e0 && hasLabel rows l e0)
    (fun e0 => mtrue mask e0 && hasLabel rows l e0) a).
  2:{ intros x Hx. rewrite mtrue_upd by auto. destruct (Nat.eqb_spec x e); auto. subst. tauto. }
  rewrite (filter_ext_In (fun e0 => mtrue (upd mask e false) e0 && hasLabel rows l e0)
    (fun e0 => mtrue mask e0 && hasLabel rows l e0) b).
  2:{ intros x Hx. rewrite mtrue_upd by auto. destruct (Nat.eqb_spec x e); auto. subst. tauto. }
  destruct (hasLabel rows l e); simpl; lia.
Qed.

Lemma cnt_mono rows indices mask mask' l : (forall e, mtrue mask' e = true -> mtrue mask e = true) ->
  cnt rows indices mask' l <= cnt rows indices mask l.
Proof.
  intros H. unfold cnt. induction indices as [|e is IH]; simpl; auto. specialize (H e).
  destruct (mtrue mask' e); simpl; [rewrite H by auto; simpl; destruct (hasLabel rows l e); simpl; lia|].
  destruct (mtrue mask e && hasLabel rows l e); simpl; lia.
Qed.

Lemma filter_length_le' {A} (f : A -> bool) l : length (filter f l) <= length l.
Proof. induction l as [|a l IH]; simpl; auto. destruct (f a); simpl; lia. Qed.

(** Relation between the affected labels and the counters. *)
Definition aff_inv (numLabels : nat) (num0 num : list nat) (aff : list (nat * nat)) : Prop :=
  length num = numLabels /\ NoDup (map fst aff) /\
  (forall k v, In (k, v) aff -> k < numLabels /\ nth_error num0 k = Some v /\ exists n, nth_error num k = Some n /\ n < v) /\
  (forall k, ~ In k (map fst aff) -> nth_error num k = nth_error num0 k).

Lemma mapEmplace_spec k v m :
  (In k (map fst m) /\ mapEmplace k v m = m) \/ (~ In k (map fst m) /\ mapEmplace k v m = m ++ [(k, v)]).
Proof.
  unfold mapEmplace. destruct (existsb _ m) eqn:E.
  - left. split; auto. apply existsb_exists in E as (x & Hx & Ex). apply Nat.eqb_eq in Ex. subst.
    apply in_map. auto.
  - right. split; auto. intros H. apply in_map_iff in H as (x & <- & Hx).
    assert (existsb (fun e => fst e =? fst x) m = true); [|congruence].
    apply existsb_exists. exists x. split; auto. apply Nat.eqb_refl.
Qed.

Lemma updateNum_ok numLabels num0 labels : forall num aff,
  NoDup labels -> (forall l, In l labels -> l < numLabels) ->
  (forall l, In l labels -> exists n, nth_error num l = Some (S n)) ->
  aff_inv numLabels num0 num aff ->
  exists num' aff', updateNumExamplesPerLabel labels num aff = Some (num', aff') /\
    aff_inv numLabels num0 num' aff' /\
    (forall l n, nth_error num l = Some n -> nth_error num' l = Some (if mem l labels then n - 1 else n)).
Proof.
  induction labels as [|l labels IH]; intros num aff ND HB HP HA; simpl.
  - exists num, aff. auto.
  - inversion ND as [|? ? Hni ND']; subst.
    destruct (HP l (or_introl eq_refl)) as (n & En). unfold aget. rewrite En.
    destruct HA as (L & NA & A1 & A2).
    assert (Hl : l < length num) by (apply nth_error_Some; congruence).
    rewrite aset_Some by auto.
    destruct (IH (upd num l (S n - 1)) (mapEmplace l (S n) aff)) as (num' & aff' & E & HA' & HN); auto.
    + intros k Hk. apply HB. right. auto.
    + intros k Hk. rewrite nth_error_upd_neq; [apply HP; right; auto|]. intros ->. auto.
    + split; [rewrite upd_length; auto|].
      destruct (mapEmplace_spec l (S n) aff) as [[I ->]|[I ->]].
      * split; auto. split.
        -- intros k v Hk. destruct (A1 k v Hk) as (B1 & B2 & m & B3 & B4). split; auto. split; auto.
           destruct (Nat.eq_dec k l).
           ++ subst. exists n. rewrite nth_error_upd_eq by auto. replace (S n - 1) with n by lia. split; auto.
              rewrite En in B3. injection B3 as <-. lia.
           ++ exists m. rewrite nth_error_upd_neq by auto. auto.
        -- intros k Hk. rewrite nth_error_upd_neq; [auto|]. intros ->. auto.
      * split; [rewrite map_app; simpl; apply NoDup_snoc; auto|]. split.
        -- intros k v Hk. apply in_app_iff in Hk as [Hk|[[= <- <-]|[]]].
           ++ destruct (A1 k v Hk) as (B1 & B2 & m & B3 & B4). split; auto. split; auto.
              exists m. rewrite nth_error_upd_neq; auto. intros ->. apply I. apply in_map_iff. exists (k, v). auto.
           ++ split; [lia|]. split; [rewrite <- A2; auto|]. exists n. rewrite nth_error_upd_eq by auto.
              split; [f_equal; lia|lia].
        -- intros k Hk. rewrite map_app, in_app_iff in Hk. simpl in Hk.
           rewrite nth_error_upd_neq by (intros ->; tauto). apply A2. tauto.
    + exists num', aff'. split; auto. split; auto. intros k m Hk. unfold mem. simpl. destruct (Nat.eqb_spec k l).
      * subst. rewrite En in Hk. injection Hk as <-.
        rewrite (HN l (S n - 1)) by (apply nth_error_upd_eq; auto). simpl.
        assert (M : mem l labels = false).
        { destruct (mem l labels) eqn:M; auto. apply mem_In in M. tauto. }
        rewrite M. auto.
      * rewrite (HN k m) by (rewrite nth_error_upd_neq; auto). auto.
Qed.

Section Output.
  Variables (rows : list (list nat)) (numLabels : nat) (indices : list nat).
  Hypothesis rows_ok : forall r, In r rows -> NoDup r /\ forall l, In l r -> l < numLabels.
  Hypothesis indices_nodup : NoDup indices.
  Hypothesis indices_bound : forall e, In e indices -> e < length rows.

  Definition num_inv (mask : list bool) (num : list nat) : Prop :=
    length num = numLabels /\ forall l, l < numLabels -> nth_error num l = Some (cnt rows indices mask l).

  Lemma processColumn_ok num0 ex : forall mask column num aff,
    NoDup ex -> (forall e, In e ex -> In e indices) -> length mask = length rows ->
    num_inv mask num -> aff_inv numLabels num0 num aff ->
    exists mask' num' aff',
      processColumn rows ex mask column num aff = Some (mask', column ++ filter (mtrue mask) ex, num', aff') /\
      length mask' = length rows /\ num_inv mask' num' /\ aff_inv numLabels num0 num' aff' /\
      (forall e, mtrue mask' e = mtrue mask e && negb (mem e ex)).
  Proof.
    induction ex as [|e ex IH]; intros mask column num aff ND HI LM NI AI; simpl.
    - exists mask, num, aff. rewrite app_nil_r. split; auto. split; auto. split; auto. split; auto.
      intros e. rewrite andb_true_r. auto.
    - inversion ND as [|? ? Hni ND']; subst.
      assert (He : In e indices) by (apply HI; left; auto).
      pose proof (indices_bound e He) as Be. rewrite mtrue_aget by lia.
      destruct (mtrue mask e) eqn:M.
      + rewrite aset_Some by lia. destruct (aget_Some rows e Be) as (r & Er). rewrite Er. unfold aget in Er.
        destruct (rows_ok r (nth_error_In _ _ Er)) as (NDr & Br).
        assert (HL : forall l, hasLabel rows l e = mem l r) by (intros l; unfold hasLabel; rewrite Er; auto).
        destruct NI as (N1 & N2).
        destruct (updateNum_ok numLabels num0 r num aff) as (num' & aff' & Eu & AI' & NV); auto.
        { intros l Hl. rewrite N2 by auto. pose proof (cnt_upd rows indices mask e l indices_nodup He ltac:(lia) M) as C.
          rewrite HL in C. rewrite (proj2 (mem_In l r) Hl) in C. exists (cnt rows indices (upd mask e false) l). f_equal. lia. }
        rewrite Eu.
        destruct (IH (upd mask e false) (column ++ [e]) num' aff') as (mask' & num2 & aff2 & Ep & LM' & NI' & AI2 & MM); auto.
        { intros x Hx. apply HI. right. auto. }
        { rewrite upd_length. auto. }
        { split; [apply AI'|]. intros l Hl. rewrite (NV l (cnt rows indices mask l)) by auto.
          pose proof (cnt_upd rows indices mask e l indices_nodup He ltac:(lia) M) as C. rewrite HL in C.
          destruct (mem l r); f_equal; lia. }
        exists mask', num2, aff2. split.
        { rewrite Ep. rewrite <- app_assoc. simpl.
          rewrite (filter_ext_In (mtrue (upd mask e false)) (mtrue mask)); auto. intros x Hx. rewrite mtrue_upd by lia. destruct (Nat.eqb_spec x e); auto. subst. tauto. }
        split; auto. split; auto. split; auto. intros x. rewrite MM, mtrue_upd by lia. unfold mem at 2; simpl. fold (mem x ex).
        destruct (Nat.eqb_spec x e).
        * subst. rewrite andb_false_r. auto.
        * auto.
      + destruct (IH mask column num aff) as (mask' & num' & aff' & Ep & LM' & NI' & AI2 & MM); auto.
        { intros x Hx. apply HI. right. auto. }
        exists mask', num', aff'. split; auto. split; auto. split; auto. split; auto.
        intros x. rewrite MM. unfold mem at 2; simpl. fold (mem x ex). destruct (Nat.eqb_spec x e).
        * subst. rewrite M. auto.
        * auto.
  Qed.

  Lemma entryEq_spec a b : entryEq a b = true <-> a = b.
  Proof.
    destruct a, b. unfold entryEq. simpl. rewrite andb_true_iff, !Nat.eqb_eq. split; [intros [-> ->]; auto|].
    intros [= -> ->]. auto.
  Qed.

  Lemma entryLt_antisym a b : entryLt a b = false -> entryLt b a = false -> a = b.
  Proof.
    destruct a as [a1 a2], b as [b1 b2]. unfold entryLt. simpl.
    destruct (Nat.ltb_spec a1 b1), (Nat.eqb_spec a1 b1), (Nat.ltb_spec a2 b2),
      (Nat.ltb_spec b1 a1), (Nat.eqb_spec b1 a1), (Nat.ltb_spec b2 a2); simpl; intros; try discriminate; f_equal; lia.
  Qed.

  Lemma setInsert_In x l y : In y (setInsert x l) <-> y = x \/ In y l.
  Proof.
    induction l as [|a l IH]; simpl.
    - intuition.
    - destruct (entryLt x a) eqn:E1; simpl; [intuition|]. destruct (entryLt a x) eqn:E2; simpl.
      + rewrite IH. intuition.
      + rewrite (entryLt_antisym x a E1 E2). intuition.
  Qed.

  Lemma setInsert_NoDup x l : ~ In x l -> NoDup l -> NoDup (setInsert x l).
  Proof.
    induction l as [|a l IH]; simpl; intros Hn ND.
    - constructor; auto.
    - inversion ND; subst. destruct (entryLt x a) eqn:E1; [constructor; auto|].
      destruct (entryLt a x) eqn:E2; auto. constructor; auto. rewrite setInsert_In. intros [->|H]; tauto.
  Qed.

  Lemma setErase_ok x l : NoDup l -> In x l ->
    exists l', setErase x l = Some l' /\ NoDup l' /\ forall y, In y l' <-> In y l /\ y <> x.
  Proof.
    induction l as [|a l IH]; simpl; intros ND Hin; [tauto|]. inversion ND; subst.
    destruct (entryEq x a) eqn:E.
    - apply entryEq_spec in E. subst. exists l. split; auto. split; auto. intros y. split.
      + intros H. split; auto. intros ->. auto.
      + intros [[->|H] Hn]; tauto.
    - assert (N : x <> a). { intros ->. rewrite (proj2 (entryEq_spec a a) eq_refl) in E. discriminate. }
      destruct IH as (l' & El & NDl & Hl); auto. { destruct Hin; [congruence|auto]. }
      rewrite El. exists (a :: l'). split; auto. split.
      + constructor; auto. rewrite Hl. tauto.
      + intros y. simpl. rewrite Hl. split.
        * intros [->|[H H']]; split; auto.
        * intros [[->|H] H']; auto.
  Qed.

  Lemma updateOrder_ok L num aff : forall set, NoDup set -> NoDup (map fst aff) ->
    (forall k v, In (k, v) aff -> k <> L -> In (v, k) set /\ (forall v', In (v', k) set -> v' = v) /\
                 exists n, nth_error num k = Some n /\ n < v) ->
    exists set', updateOrder aff L num set = Some set' /\ NoDup set' /\
      forall v k, In (v, k) set' <->
        (k <> L /\ In k (map fst aff) /\ nth_error num k = Some v /\ 0 < v) \/ ((k = L \/ ~ In k (map fst aff)) /\ In (v, k) set).
  Proof.
    induction aff as [|[k0 v0] aff IH]; intros set ND NA H; simpl.
    - exists set. split; auto. split; auto. intros v k. split; [auto|]. intros [[_ [[] _]]|[_ ?]]; auto.
    - simpl in NA. inversion NA as [|? ? Hk0 NA']; subst. destruct (Nat.eqb_spec k0 L).
      + subst. destruct (IH set ND NA') as (set' & E & ND' & HS).
        { intros k v Hk Hn. apply H; auto. right. auto. }
        exists set'. split; auto. split; auto. intros v k. rewrite HS.
        destruct (Nat.eq_dec k L); [subst; tauto|]. assert (L <> k) by auto. tauto.
      + destruct (H k0 v0 (or_introl eq_refl) n) as (S1 & S2 & m & Em & Hm). unfold aget. rewrite Em.
        assert (NI : ~ In (m, k0) set). { intros I. apply S2 in I. lia. }
        set (set1 := if 0 <? m then setInsert (m, k0) set else set).
        assert (ND1 : NoDup set1) by (unfold set1; destruct (0 <? m); auto; apply setInsert_NoDup; auto).
        assert (I1 : forall y, In y set1 <-> (0 < m /\ y = (m, k0)) \/ In y set).
        { intros y. unfold set1. destruct (Nat.ltb_spec 0 m); [rewrite setInsert_In|]; intuition lia. }
        destruct (setErase_ok (v0, k0) set1 ND1) as (set2 & E2 & ND2 & I2); [apply I1; auto|].
        rewrite E2. destruct (IH set2 ND2 NA') as (set' & E & ND' & HS).
        { intros k v Hk Hn. assert (Nk : k <> k0). { intros ->. apply Hk0. apply in_map_iff. exists (k0, v). auto. }
          destruct (H k v (or_intror Hk) Hn) as (T1 & T2 & T3). split; [|split; auto].
          - apply I2. split; [apply I1; auto|congruence].
          - intros v' Hv'. apply I2 in Hv' as [Hv' _]. apply I1 in Hv' as [[_ [= -> ->]]|Hv']; [tauto|]. auto. }
        exists set'. split; auto. split; auto. intros v k. rewrite HS, I2, I1. destruct (Nat.eq_dec k k0).
        * subst k. split.
          -- intros [(A & B & C)|(A & B & C)]; [tauto|]. left. split; auto. split; auto.
             destruct B as [[B [= ->]]|B]; [split; auto|]. apply S2 in B. congruence.
          -- intros [(A & B & C & D)|(A & B)]; [|destruct A as [A|A]; [congruence|tauto]].
             right. split; [tauto|]. rewrite Em in C. injection C as ->. split; [auto|]. intros [= ->]. lia.
        * split.
          -- intros [(A & B & C)|(A & B & C)]; [tauto|]. right. split; [intuition congruence|].
             destruct B as [[B [= -> ->]]|B]; [tauto|auto].
          -- intros [(A & [B|B] & C)|(A & B)]; [congruence|tauto|]. right. split; [tauto|]. split; auto. congruence.
  Qed.

  Definition set_inv (mask : list bool) (set : list (nat * nat)) : Prop :=
    NoDup set /\ forall v l, In (v, l) set <-> l < numLabels /\ v = cnt rows indices mask l /\ 0 < v.

  Lemma filter_split_perm {A} (m h : A -> bool) l :
    Permutation (filter m l) (filter (fun x => m x && h x) l ++ filter (fun x => m x && negb (h x)) l).
  Proof.
    induction l as [|a l IH]; simpl; auto. destruct (m a); simpl; auto. destruct (h a); simpl.
    - constructor. auto.
    - apply Permutation_cons_app. auto.
  Qed.

  Lemma filter_filter' {A} (f g : A -> bool) l : filter f (filter g l) = filter (fun x => f x && g x) l.
  Proof.
    induction l as [|a l IH]; simpl; auto. destruct (g a); simpl.
    - rewrite andb_true_r. destruct (f a); rewrite IH; auto.
    - rewrite andb_false_r. auto.
  Qed.

  Lemma set_inv_length mask set : set_inv mask set -> length set <= length (filter (fun l => 0 <? cnt rows indices mask l) (seq 0 numLabels)).
  Proof.
    intros (ND & HS). rewrite <- (map_length snd). apply NoDup_incl_length.
    - clear - ND HS. assert (X : forall a b, In a set -> In b set -> snd a = snd b -> a = b).
      { intros [v l] [v' l'] Ha Hb. simpl. intros <-. apply HS in Ha, Hb. f_equal. lia. }
      clear HS. induction set as [|a set IH]; simpl; [constructor|]. inversion ND; subst. constructor.
      + intros H. apply in_map_iff in H as (b & Eb & Hb). rewrite (X a b) in H1; simpl; auto.
      + apply IH; auto. intros. apply X; simpl; auto.
    - intros l Hl. apply in_map_iff in Hl as ([v l'] & <- & Hin). apply HS in Hin. simpl.
      apply filter_In. split; [apply in_seq; lia|]. apply Nat.ltb_lt. lia.
  Qed.

  Lemma stratifyLoop_ok fuel : forall set mask num columns,
    length mask = length rows -> num_inv mask num -> set_inv mask set -> length set <= fuel ->
    Permutation (concat columns ++ filter (mtrue mask) indices) indices ->
    Forall (fun c => c <> []) columns ->
    (forall e, mtrue mask e = true -> In e indices) ->
    exists mask' columns', stratifyLoop fuel rows indices set mask num columns = Some (mask', columns') /\
      length mask' = length rows /\
      Permutation (concat columns' ++ filter (mtrue mask') indices) indices /\ Forall (fun c => c <> []) columns' /\
      (forall e, mtrue mask' e = true -> In e indices).
  Proof.
    induction fuel as [|fuel IH]; intros set mask num columns LM NI SI LF PC NE MI; simpl.
    - destruct set; [|simpl in LF; lia]. exists mask, columns. auto.
    - destruct set as [|[v L] set']; [exists mask, columns; auto|].
      destruct (proj1 (proj2 SI v L) (or_introl eq_refl)) as (HL & Hv & Hpos).
      set (ex := cscColumn rows indices L).
      destruct (processColumn_ok num ex mask [] num []) as (mask' & num' & aff & Ep & LM' & NI' & AI & MM); auto.
      { apply NoDup_filter. auto. }
      { intros e He. apply filter_In in He. tauto. }
      { destruct NI as [N1 N2]. split; auto. split; [constructor|]. split; [intros k u []|auto]. }
      rewrite Ep. simpl app.
      assert (Nn : forall k, k < numLabels -> nth_error num' k = Some (cnt rows indices mask' k)) by apply NI'.
      assert (No : forall k, k < numLabels -> nth_error num k = Some (cnt rows indices mask k)) by apply NI.
      assert (CL : cnt rows indices mask' L = 0).
      { unfold cnt. rewrite (filter_ext_In _ (fun _ => false)); [clear; induction indices; simpl; auto|].
        intros e He. rewrite MM. destruct (hasLabel rows L e) eqn:Hh; [|apply andb_false_r].
        assert (M : mem e ex = true) by (apply mem_In; apply filter_In; auto). rewrite M. rewrite andb_false_r. auto. }
      destruct SI as (SN & SI). inversion SN as [|? ? Hni SN']; subst.
      destruct (updateOrder_ok L num' aff set') as (set2 & Eo & ND2 & S2); auto; try apply AI.
      { intros k u Hk Hn. destruct AI as (A0 & A1 & A2 & A3). destruct (A2 k u Hk) as (B1 & B2 & n & B3 & B4).
        rewrite No in B2 by auto. injection B2 as <-.
        assert (Y : forall v', In (v', k) set' <-> v' = cnt rows indices mask k /\ 0 < v').
        { intros v'. split.
          - intros I. pose proof (proj1 (SI v' k) (or_intror I)). tauto.
          - intros I. destruct (proj2 (SI v' k) ltac:(tauto)) as [E|E]; auto. exfalso; apply Hn; congruence. }
        split; [apply Y; lia|]. split; [intros v' I; apply Y in I; tauto|]. exists n. auto. }
      rewrite Eo.
      assert (SI2 : set_inv mask' set2).
      { split; auto. intros u k. rewrite S2. destruct AI as (A0 & A1 & A2 & A3).
        assert (Y : k <> L -> In (u, k) set' <-> k < numLabels /\ u = cnt rows indices mask k /\ 0 < u).
        { intros Hk. rewrite <- SI. simpl. split; auto. intros [E|E]; auto. exfalso; apply Hk; congruence. }
        destruct (Nat.eq_dec k L).
        - subst k. split.
          + intros [(B & _)|(_ & B)]; [tauto|]. exfalso. apply Hni.
            pose proof (proj1 (SI u L) (or_intror B)) as (_ & -> & _). auto.
          + intros (B1 & B2 & B3). lia.
        - rewrite Y by auto. destruct (in_dec Nat.eq_dec k (map fst aff)) as [I|I].
          + assert (B : k < numLabels). { apply in_map_iff in I as ([k' v'] & <- & I). apply (A2 _ _ I). }
            rewrite Nn by auto. split.
            * intros [(B1 & B2 & B3 & B4)|(B1 & _)]; [injection B3 as <-; auto|tauto].
            * intros (B1 & -> & B3). left. auto.
          + split.
            * intros [(B1 & B2 & _)|(B1 & B2 & B3 & B4)]; [tauto|]. split; auto. split; auto.
              specialize (A3 k I). rewrite Nn, No in A3 by auto. congruence.
            * intros (B1 & B2 & B3). right. split; auto. split; auto. split; auto.
              specialize (A3 k I). rewrite Nn, No in A3 by auto. congruence. }
      apply IH; auto.
      + etransitivity; [apply (set_inv_length mask' set2 SI2)|].
        assert (Hlen : length (filter (fun l => 0 <? cnt rows indices mask' l) (seq 0 numLabels)) <= length set').
        { rewrite <- (map_length snd set'). apply NoDup_incl_length; [apply NoDup_filter, seq_NoDup|].
          intros l Hl. apply filter_In in Hl as [Hl Hp]. apply in_seq in Hl. apply Nat.ltb_lt in Hp.
          assert (Ll : l <> L) by (intros ->; lia).
          assert (C : cnt rows indices mask' l <= cnt rows indices mask l).
          { apply cnt_mono. intros e He. rewrite MM in He. apply andb_true_iff in He. tauto. }
          destruct (proj2 (SI (cnt rows indices mask l) l) ltac:(split; [lia|split; [auto|lia]])) as [E|E].
          - injection E as _ E. congruence.
          - apply in_map_iff. exists (cnt rows indices mask l, l). auto. }
        simpl in LF. lia.
      + rewrite concat_app. simpl. rewrite app_nil_r. rewrite <- app_assoc.
        etransitivity; [|exact PC]. apply Permutation_app_head. apply Permutation_sym.
        etransitivity; [apply (filter_split_perm (mtrue mask) (hasLabel rows L))|].
        unfold ex, cscColumn. rewrite filter_filter'. apply Permutation_app_head.
        rewrite (filter_ext_In (mtrue mask') (fun x => mtrue mask x && negb (hasLabel rows L x))); auto.
        intros e He. rewrite MM. f_equal. f_equal. unfold ex.
        destruct (hasLabel rows L e) eqn:Hh.
        * apply mem_In, filter_In. auto.
        * destruct (mem e (cscColumn rows indices L)) eqn:M; auto. apply mem_In, filter_In in M. destruct M. congruence.
      + apply Forall_app. split; auto. constructor; auto. unfold ex, cscColumn. rewrite filter_filter'.
        intros E. unfold cnt in Hpos. rewrite E in Hpos. simpl in Hpos. lia.
      + intros e He. rewrite MM in He. apply andb_true_iff in He. apply MI. tauto.
  Qed.

  Lemma initMask_ok : exists mask, initMask (length rows) indices = Some mask /\ length mask = length rows /\
    forall e, mtrue mask e = mem e indices.
  Proof.
    unfold initMask.
    match goal with |- context [forN ?c 0 ?f ?x] =>
      destruct (forN_inv (fun i mask => length mask = length rows /\ forall e, mtrue mask e = mem e (firstn i indices)) f c 0 x)
        as (mask & E & L & M)
    end.
    - split; [apply repeat_length|]. intros e. simpl. unfold mtrue. destruct (Nat.lt_ge_cases e (length rows)).
      + apply nth_repeat.
      + apply nth_overflow. rewrite repeat_length. auto.
    - intros i mask Hi (L & M). destruct (aget_Some indices i ltac:(lia)) as (e & Ee). rewrite Ee. unfold aget in Ee.
      pose proof (indices_bound e (nth_error_In _ _ Ee)). rewrite aset_Some by lia. eexists; split; [reflexivity|].
      split; [rewrite upd_length; auto|]. intros x. rewrite mtrue_upd by lia. rewrite (firstn_S_nth _ _ e Ee).
      rewrite M. unfold mem. rewrite existsb_app. simpl. rewrite orb_false_r.
      destruct (Nat.eqb_spec x e); [rewrite orb_true_r; auto|rewrite orb_false_r; auto].
    - exists mask. split; auto. split; auto. intros e. rewrite M. simpl. rewrite firstn_all. auto.
  Qed.

  Lemma init_set mask : (forall e, mtrue mask e = mem e indices) ->
    forall l, cnt rows indices mask l = length (cscColumn rows indices l).
  Proof.
    intros M l. unfold cnt, cscColumn. f_equal. apply filter_ext_In. intros e He. rewrite M.
    rewrite (proj2 (mem_In e indices) He). auto.
  Qed.

  Lemma stratificationMatrix_ok : exists columns, stratificationMatrix rows numLabels indices = Some columns /\
    Permutation (concat columns) indices /\ Forall (fun c => c <> []) columns.
  Proof.
    unfold stratificationMatrix. destruct initMask_ok as (mask & Em & Lm & MM). rewrite Em.
    pose proof (init_set mask MM) as C.
    set (set := fold_left _ (seq 0 numLabels) []).
    assert (SI : set_inv mask set).
    { assert (G : forall n, n <= numLabels -> let st := fold_left (fun set l => let k := length (cscColumn rows indices l) in
          if 0 <? k then setInsert (k, l) set else set) (seq 0 n) [] in
        NoDup st /\ forall v l, In (v, l) st <-> l < n /\ v = cnt rows indices mask l /\ 0 < v).
      { induction n as [|n IHn]; intros Hn.
        - simpl. split; [constructor|]. intros v l. split; [tauto|lia].
        - rewrite seq_S, fold_left_app. simpl fold_left at 1. destruct IHn as (I1 & I2); [lia|].
          cbv zeta. destruct (Nat.ltb_spec 0 (length (cscColumn rows indices n))).
          + split.
            * apply setInsert_NoDup; auto. rewrite I2. lia.
            * intros v l. rewrite setInsert_In, I2. rewrite <- C in *. split.
              -- intros [[= -> ->]|X]; lia.
              -- intros (X1 & X2 & X3). destruct (Nat.eq_dec l n); [left; subst; auto|right; lia].
          + split; auto. intros v l. rewrite I2. rewrite <- C in *. split.
            * intros X. lia.
            * intros (X1 & X2 & X3). destruct (Nat.eq_dec l n); [subst; lia|lia]. }
      apply (G numLabels). auto. }
    destruct (stratifyLoop_ok numLabels set mask (map (fun l => length (cscColumn rows indices l)) (seq 0 numLabels)) [])
      as (mask' & columns & E & L' & PC & NE & MI); auto.
    - split; [rewrite map_length, seq_length; auto|]. intros l Hl. rewrite C.
      rewrite nth_error_map. erewrite nth_error_nth' with (d := 0); [|rewrite seq_length; auto].
      rewrite seq_nth; auto.
    - etransitivity; [apply (set_inv_length mask set SI)|]. rewrite <- (seq_length numLabels 0) at 2. apply filter_length_le'.
    - simpl. rewrite (filter_ext_In _ (fun _ => true)).
      + clear. induction indices; simpl; auto.
      + intros e He. rewrite MM. apply mem_In. auto.
    - intros e He. rewrite MM in He. apply mem_In. auto.
    - rewrite E. pose proof (Permutation_length PC) as LP. rewrite app_length in LP.
      destruct (Nat.ltb_spec 0 (length indices - length (concat columns))).
      + exists (columns ++ [remaining mask']). split; auto.
        assert (PR : Permutation (remaining mask') (filter (mtrue mask') indices)).
        { apply NoDup_Permutation.
          - apply NoDup_filter, seq_NoDup.
          - apply NoDup_filter; auto.
          - intros e. unfold remaining. rewrite !filter_In. fold (mtrue mask' e). rewrite in_seq. split.
            + intros [_ X]. auto.
            + intros [X1 X2]. split; auto. specialize (indices_bound e X1). lia. }
        split.
        * rewrite concat_app. simpl. rewrite app_nil_r. etransitivity; [|exact PC]. apply Permutation_app_head. auto.
        * apply Forall_app. split; auto. constructor; auto. intros X. rewrite X in PR. apply Permutation_nil in PR.
          rewrite PR in LP. simpl in LP. lia.
      + exists columns. split; auto. split; auto.
        assert (X : filter (mtrue mask') indices = []) by (apply length_zero_iff_nil; lia).
        rewrite X, app_nil_r in PC. auto.
  Qed.
End Output.

(** Both variants of sampling on top of the stratification matrix. *)
Lemma C09_partition_lemma share rows numLabels indices first second s :
  (forall a b n up, 0 < a + b -> exists m, share a b n up = Some m /\ m <= n) ->
  (forall r, In r rows -> NoDup r /\ forall l, In l r -> l < numLabels) ->
  NoDup indices -> (forall e, In e indices -> e < length rows) ->
  (N.of_nat (length indices) < 2 ^ 32)%N -> (1 <= s < 2 ^ 32)%N ->
  length first + length second = length indices ->
  exists columns columns' first' second' s',
    stratificationMatrix rows numLabels indices = Some columns /\
    stratifiedPartition share columns first second s = Some (columns', first', second', s') /\
    Forall2 (@Permutation nat) columns columns' /\ (1 <= s' < 2 ^ 32)%N /\
    length first' = length first /\ length second' = length second /\
    Permutation (first' ++ second') indices.
Proof.
  intros SH RO ND HB HN V HL.
  destruct (stratificationMatrix_ok rows numLabels indices RO ND HB) as (columns & E & P & NE).
  pose proof (Permutation_length P) as LC.
  destruct (stratifiedPartitionLoop_ok share columns SH (length first) (length second) first 0 second 0 s)
    as (o' & f' & s' & st' & E2 & F & V' & L1 & L2 & a & b & Ea & Eb & La & Lb & Pab); auto; try lia.
  exists columns, o', f', s', st'. split; auto. split; auto. split; auto. split; auto. split; auto. split; auto.
  simpl in Ea, Eb. subst. etransitivity; eauto.
Qed.

Lemma C09_weights_lemma rows numLabels indices q minS maxS w s :
  (forall r, In r rows -> NoDup r /\ forall l, In l r -> l < numLabels) ->
  NoDup indices -> (forall e, In e indices -> e < length rows) -> length rows <= length w ->
  (N.of_nat (length indices) < 2 ^ 32)%N -> (0 <= q)%Q -> (q <= 1)%Q -> (1 <= s < 2 ^ 32)%N ->
  exists columns columns' w' n s',
    stratificationMatrix rows numLabels indices = Some columns /\
    stratifiedWeights columns (length indices) q minS maxS w s = Some (columns', w', n, s') /\
    Permutation (concat columns) indices /\ (1 <= s' < 2 ^ 32)%N /\
    length w' = length w /\ (forall i, ~ In i indices -> nth_error w' i = nth_error w i) /\
    n = numSelected w' indices /\
    (forall column, In column columns ->
       Z.of_nat (numSelected w' column) = Qfloor (q * inject_Z (Z.of_nat (length column))) \/
       Z.of_nat (numSelected w' column) = Qceiling (q * inject_Z (Z.of_nat (length column)))).
Proof.
  intros RO ND HB HW HN Q0 Q1 V.
  destruct (stratificationMatrix_ok rows numLabels indices RO ND HB) as (columns & E & P & NE).
  unfold stratifiedWeights. set (T := calculateBoundedFraction _ _ _ _).
  destruct (stratifiedWeightsLoop_ok q T (length indices - T) columns 0 0 w s)
    as (o' & w' & n & s' & E2 & F & V' & L & FR & SH & NZ); auto.
  { eapply Permutation_NoDup; [apply Permutation_sym; eauto|auto]. }
  { intros i Hi. apply (Permutation_in _ P) in Hi. specialize (HB _ Hi). lia. }
  { rewrite (Permutation_length P). auto. }
  exists columns, o', w', n, s'. split; auto. split; auto. split; auto. split; auto. split; auto. split.
  { intros i Hi. apply FR. intros C. apply Hi. eapply Permutation_in; eauto. }
  split. { rewrite NZ. simpl. apply numSelected_perm. auto. }
  intros c Hc. destruct (SH c Hc) as (up & ->). unfold roundShare.
  set (x := (q * inject_Z (Z.of_nat (length c)))%Q).
  assert (X0 : (0 <= x)%Q).
  { unfold x. apply Qmult_le_0_compat; auto. change 0%Q with (inject_Z 0). rewrite <- Zle_Qle. lia. }
  destruct up; [right|left]; rewrite Z2Nat.id; auto.
  - change 0%Z with (Qceiling (inject_Z 0)). apply Qceiling_resp_le. auto.
  - change 0%Z with (Qfloor (inject_Z 0)). apply Qfloor_resp_le. auto.
Qed.
