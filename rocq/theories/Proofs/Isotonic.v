(** The pool adjacent violators algorithm. *)
From Coq Require Import ZArith QArith Qabs Qminmax Arith List Bool Lia Lqa.
From Verif Require Import Lib.Arr Model.Stopping Model.Isotonic Spec.Stopping Spec.Isotonic Proofs.Stopping Proofs.Pruning.
Import ListNotations.
Open Scope nat_scope.

Lemma Qltb_spec a b : reflect (a < b)%Q (Qltb a b).
Proof. unfold Qltb. destruct (Qlt_le_dec a b); constructor; auto. lra. Qed.

Notation seg := (list bin * bin)%type.

Definition total (l : list seg) : nat := list_sum (map (fun s => length (fst s)) l).

Lemma total_cons s l : total (s :: l) = length (fst s) + total l.
Proof. reflexivity. Qed.
Lemma total_app a b : total (a ++ b) = total a + total b.
Proof. unfold total. rewrite map_app, list_sum_app. auto. Qed.

(** The arrays represent the segments [l], starting at index [p]. *)
Fixpoint Rep (bins : list bin) (pools : list nat) (p : nat) (l : list seg) : Prop :=
  match l with
  | [] => True
  | (g, b) :: l => g <> [] /\ nth_error bins p = Some b /\ nth_error pools p = Some (p + length g - 1) /\
      nth_error pools (p + length g - 1) = Some p /\ Rep bins pools (p + length g) l
  end.

Lemma Rep_frame l : forall bins pools bins' pools' p, Rep bins pools p l ->
  (forall k, p <= k < p + total l -> nth_error bins' k = nth_error bins k /\ nth_error pools' k = nth_error pools k) ->
  Rep bins' pools' p l.
Proof.
  induction l as [|[g b] l IH]; simpl; auto. intros bins pools bins' pools' p (Hg & Hb & H1 & H2 & HR) F.
  assert (1 <= length g) by (destruct g; [congruence|simpl; lia]).
  rewrite total_cons in F. cbn [fst] in F.
  destruct (F p) as [E1 E2]; [lia|]. destruct (F (p + length g - 1)) as [_ E3]; [lia|].
  rewrite E1, E2, E3. repeat match goal with |- _ /\ _ => split end; auto.
  apply (IH bins pools); auto. intros k Hk. apply F. lia.
Qed.

Lemma Rep_app a : forall bins pools p b, Rep bins pools p (a ++ b) <-> Rep bins pools p a /\ Rep bins pools (p + total a) b.
Proof.
  induction a as [|[g x] a IH]; intros; simpl.
  - unfold total. simpl. rewrite Nat.add_0_r. tauto.
  - rewrite IH. rewrite total_cons. simpl. rewrite Nat.add_assoc. tauto.
Qed.

(** Merging in terms of segments: [g], [b]: the current segment, [v]: the value of the segment added last. *)
Fixpoint innerA (num : nat) (g : list bin) (b : bin) (v : Q) (rest : list seg) : seg * list seg :=
  match rest with
  | [] => ((g, b), [])
  | (g', b') :: rest' =>
      if Qltb v (snd b') then ((g, b), rest)
      else innerA (num + 1) (g ++ g') (fst b, iterativeArithmeticMean (num + 1) (snd b') (snd b)) (snd b') rest'
  end.

Lemma innerA_total rest : forall num g b v s rest', innerA num g b v rest = (s, rest') ->
  length (fst s) + total rest' = length g + total rest /\ length rest' <= length rest.
Proof.
  induction rest as [|[g' b'] rest IH]; intros num g b v s rest' H; simpl in H.
  - injection H as <- <-. simpl. auto.
  - destruct (Qltb v (snd b')).
    + injection H as <- <-. auto.
    + apply IH in H. rewrite app_length in H. rewrite total_cons. simpl. lia.
Qed.

Lemma poolInner_ok rest : forall fuel bins pools i c j num q g b bc,
  length bins = length pools -> length rest < fuel ->
  nth_error pools j = Some (q - 1) -> 1 <= q -> i < c < q -> q + total rest = length bins ->
  i + length g = q ->
  nth_error bins i = Some b -> nth_error bins c = Some bc -> Rep bins pools q rest ->
  let '((g', b'), rest') := innerA num g b (snd bc) rest in
  exists bins' q', poolInner fuel bins pools i c j num = Some (bins', q') /\ length bins' = length bins /\
    i + length g' = q' /\ q <= q' /\ q' + total rest' = length bins /\ nth_error bins' i = Some b' /\
    (forall k, k <> i -> k <> c -> nth_error bins' k = nth_error bins k) /\ Rep bins' pools q' rest'.
Proof.
  induction rest as [|[g3 b3] rest IH]; intros fuel bins pools i c j num q g b bc HL Hf Hj Hq Hc Ht Hg Hi Hbc HR.
  - destruct fuel as [|fuel]; [simpl in Hf; lia|]. unfold total in Ht. simpl in Ht. simpl. unfold aget. rewrite Hj.
    replace (q - 1 + 1) with q by lia. destruct (Nat.ltb_spec q (length bins)); [lia|].
    exists bins, q. repeat match goal with |- _ /\ _ => split end; auto.
  - destruct fuel as [|fuel]; [simpl in Hf; lia|]. destruct HR as (Hne & Hb3 & H1 & H2 & HR).
    assert (1 <= length g3) by (destruct g3; [congruence|simpl; lia]).
    rewrite total_cons in Ht. cbn [fst] in Ht.
    simpl. unfold aget at 1. rewrite Hj. replace (q - 1 + 1) with q by lia.
    destruct (Nat.ltb_spec q (length bins)); [|lia]. unfold aget. rewrite Hb3, Hbc.
    destruct (Qltb_spec (snd bc) (snd b3)) as [HQ|HQ].
    + exists bins, q. rewrite total_cons. cbn [fst]. repeat match goal with |- _ /\ _ => split end; auto; try lia.
      simpl. auto.
    + rewrite Hi. rewrite aset_Some by lia. rewrite nth_error_upd_neq by lia. rewrite Hb3.
      rewrite aset_Some by (rewrite upd_length; lia).
      set (b1 := (fst b, iterativeArithmeticMean (num + 1) (snd b3) (snd b))).
      set (bins1 := upd (upd bins i b1) c b3).
      assert (Hk : forall k, k <> i -> k <> c -> nth_error bins1 k = nth_error bins k).
      { intros k Hki Hkc. unfold bins1. rewrite !nth_error_upd_neq; auto. }
      assert (HL1 : length bins1 = length bins) by (unfold bins1; rewrite !upd_length; auto).
      specialize (IH fuel bins1 pools i c q (num + 1) (q + length g3) (g ++ g3) b1 b3).
      destruct (innerA (num + 1) (g ++ g3) b1 (snd b3) rest) as [[g' b'] rest'] eqn:EA.
      destruct IH as (bins' & q' & E & E1 & E2 & E3 & E4 & E5 & E6 & E7); try lia.
      * simpl in Hf. lia.
      * exact H1.
      * rewrite app_length. lia.
      * unfold bins1. rewrite nth_error_upd_neq by lia. apply nth_error_upd_eq. lia.
      * unfold bins1. apply nth_error_upd_eq. rewrite upd_length. lia.
      * eapply Rep_frame; [exact HR|]. intros k Hk'. split; auto. apply Hk; lia.
      * exists bins', q'. rewrite E. repeat match goal with |- _ /\ _ => split end; auto; try lia.
        intros k Hki Hkc. rewrite E6; auto.
Qed.

(** The algorithm in terms of segments. *)
Fixpoint poolA (fuel : nat) (left : list seg) (cur : seg) (right : list seg) : option (list seg) :=
  match fuel with
  | 0 => None
  | S fuel =>
      match right with
      | [] => Some (rev left ++ [cur])
      | (g2, b2) :: right' =>
          if Qltb (snd (snd cur)) (snd b2) then poolA fuel (cur :: left) (g2, b2) right'
          else let '(m, rest) := innerA 2 (fst cur ++ g2)
                 (fst (snd cur), iterativeArithmeticMean 2 (snd b2) (snd (snd cur))) (snd b2) right' in
               match left with
               | [] => poolA fuel [] m rest
               | s :: left' => poolA fuel left' s (m :: rest)
               end
      end
  end.

Lemma Rep_bound l : forall bins pools p g b, Rep bins pools p ((g, b) :: l) -> p + length g - 1 < length pools /\ p < length bins /\ 1 <= length g.
Proof.
  intros bins pools p g b (Hg & Hb & H1 & H2 & _). repeat split.
  - apply nth_error_Some. congruence.
  - apply nth_error_Some. congruence.
  - destruct g; [congruence|simpl; lia].
Qed.

Lemma length_le_total l bins pools : forall p, Rep bins pools p l -> length l <= total l.
Proof.
  induction l as [|[g b] l IH]; intros p HR; simpl; auto. destruct HR as (Hg & _ & _ & _ & HR).
  apply IH in HR. rewrite total_cons. simpl. destruct g; [congruence|simpl; lia].
Qed.

Lemma poolLoop_ok fuel : forall bins pools left cur right j,
  length bins = length pools -> j < length bins ->
  total (rev left ++ cur :: right) = length bins -> Rep bins pools 0 (rev left ++ cur :: right) ->
  match poolA fuel left cur right with
  | Some segs => exists bins' pools', poolLoop fuel bins pools (total (rev left)) j = Some (bins', pools') /\
      length bins' = length bins /\ length pools' = length bins /\ total segs = length bins /\ Rep bins' pools' 0 segs
  | None => poolLoop fuel bins pools (total (rev left)) j = None
  end.
Proof.
  induction fuel as [|fuel IH]; intros bins pools left [g1 b1] right j HL Hj Ht HR; [reflexivity|].
  pose proof (proj1 (Rep_app _ _ _ _ _) HR) as [HRl HRr]. simpl in HRr.
  pose proof (Rep_bound _ _ _ _ _ _ HRr) as (Hb1 & Hb2 & Hb3).
  destruct HRr as (Hg1 & Hbi & Hp1 & Hp2 & HRr).
  set (i := total (rev left)) in *.
  rewrite total_app, total_cons in Ht. fold i in Ht. cbn [fst] in Ht.
  remember (poolLoop (S fuel) bins pools i j) as X eqn:EX.
  cbn [poolLoop] in EX. destruct (Nat.ltb_spec i (length bins)); [|lia]. destruct (Nat.ltb_spec j (length bins)); [|lia].
  cbn [andb] in EX. unfold aget at 1 in EX. rewrite Hp1 in EX.
  replace (i + length g1 - 1 + 1) with (i + length g1) in EX by lia.
  destruct right as [|[g2 b2] right'].
  - unfold total in Ht. simpl in Ht. destruct (Nat.ltb_spec (i + length g1) (length bins)); [lia|]. cbn [poolA].
    exists bins, pools. rewrite EX. repeat match goal with |- _ /\ _ => split end; auto.
    rewrite total_app. fold i. rewrite total_cons. unfold total. simpl. lia.
  - rewrite total_cons in Ht. cbn [fst] in Ht.
    pose proof (Rep_bound _ _ _ _ _ _ HRr) as (_ & Hc2 & Hc3).
    destruct HRr as (Hg2 & Hb2' & Hq1 & Hq2 & HRr).
    destruct (Nat.ltb_spec (i + length g1) (length bins)); [|lia]. unfold aget at 1 2 in EX. rewrite Hbi, Hb2' in EX.
    cbn [poolA snd fst]. destruct (Qltb_spec (snd b1) (snd b2)) as [HQ|HQ].
    + specialize (IH bins pools ((g1, b1) :: left) (g2, b2) right' (i + length g1) HL).
      assert (Ei : total (rev ((g1, b1) :: left)) = i + length g1).
      { simpl. rewrite total_app. fold i. rewrite total_cons. unfold total. simpl. lia. }
      rewrite Ei in IH. rewrite EX. apply IH; try lia.
      * simpl. rewrite <- app_assoc. rewrite total_app. fold i. simpl. rewrite !total_cons. simpl. lia.
      * simpl. rewrite <- app_assoc. simpl. exact HR.
    + rewrite aset_Some in EX by lia.
      set (b' := (fst b1, iterativeArithmeticMean 2 (snd b2) (snd b1))) in *. set (bins1 := upd bins i b') in *.
      assert (HL1 : length bins1 = length bins) by (unfold bins1; rewrite upd_length; auto).
      assert (Hfr : forall k, i < k -> nth_error bins1 k = nth_error bins k).
      { intros k Hk. unfold bins1. apply nth_error_upd_neq. lia. }
      pose proof (poolInner_ok right' (length bins) bins1 pools i (i + length g1) (i + length g1) 2 (i + length g1 + length g2)
                    (g1 ++ g2) b' b2) as HI.
      rewrite (Hfr (i + length g1)) in HI by lia.
      pose proof (length_le_total _ _ _ _ HRr) as HLt.
      pose proof (innerA_total right' 2 (g1 ++ g2) b' (snd b2)) as HT.
      destruct (innerA 2 (g1 ++ g2) b' (snd b2) right') as [[g' b''] rest'].
      specialize (HT _ _ eq_refl). cbn [fst] in HT. rewrite app_length in HT. destruct HT as [HT HT'].
      destruct HI as (bins2 & q' & E & E1 & E2 & E3 & E4 & E5 & E6 & E7); try lia.
      * rewrite Hq1. f_equal. 
      * rewrite app_length. lia.
      * unfold bins1. apply nth_error_upd_eq. lia.
      * exact Hb2'.
      * eapply Rep_frame; [exact HRr|]. intros k Hk. split; auto. apply Hfr. lia.
      * rewrite E in EX. rewrite aset_Some in EX by lia. rewrite aset_Some in EX by (rewrite upd_length; lia).
        set (pools1 := upd (upd pools i (q' - 1)) (q' - 1) i) in *.
        assert (HLp : length pools1 = length bins2) by (unfold pools1; rewrite !upd_length; lia).
        assert (Hpo : forall k, k <> i -> k <> q' - 1 -> nth_error pools1 k = nth_error pools k).
        { intros k Hk1 Hk2. unfold pools1. rewrite !nth_error_upd_neq; auto. }
        assert (HRm : Rep bins2 pools1 i ((g', b'') :: rest')).
        { simpl. repeat match goal with |- _ /\ _ => split end; auto.
          - intros ->. simpl in E2. lia.
          - unfold pools1. rewrite nth_error_upd_neq by lia. rewrite nth_error_upd_eq by lia. f_equal. lia.
          - replace (i + length g' - 1) with (q' - 1) by lia. unfold pools1. apply nth_error_upd_eq.
            rewrite upd_length. lia.
          - replace (i + length g') with q' by lia. eapply Rep_frame; [exact E7|]. intros k Hk. split; auto.
            apply Hpo; lia. }
        assert (HRl' : Rep bins2 pools1 0 (rev left)).
        { eapply Rep_frame; [exact HRl|]. fold i. intros k Hk. split.
          - rewrite E6 by lia. unfold bins1. apply nth_error_upd_neq. lia.
          - apply Hpo; lia. }
        destruct left as [|[gl bl] left'].
        -- unfold i in *. cbn [rev] in *. change (total []) with 0 in *. rewrite EX. cbn [Nat.ltb Nat.leb].
           destruct (Nat.ltb_spec q' (length bins2)) as [Hq'|Hq'].
           ++ specialize (IH bins2 pools1 [] (g', b'') rest' q'). cbn [rev] in IH. change (total []) with 0 in IH.
              rewrite E1, HL1 in IH. apply IH; auto; try lia.
              cbn [app]. rewrite total_cons. cbn [fst]. lia.
           ++ assert (rest' = []) as ->.
              { destruct rest' as [|[gr br] rest']; auto. simpl in E7. destruct E7 as (Hgr & _).
                rewrite total_cons in E4. cbn [fst] in E4. destruct gr; [congruence|]. simpl in E4. lia. }
              destruct fuel as [|fuel]; [reflexivity|]. cbn [poolA poolLoop].
              destruct (Nat.ltb_spec q' (length bins2)); [lia|]. rewrite andb_false_r.
              exists bins2, pools1. simpl. unfold total in *. simpl in *. repeat match goal with |- _ /\ _ => split end;
              try apply HRm; try lia; auto.
        -- simpl in HRl'. apply Rep_app in HRl'. destruct HRl' as [HRl1 HRl2]. simpl in HRl2.
           assert (Ei : i = total (rev left') + length gl).
           { unfold i. simpl. rewrite total_app. rewrite total_cons. unfold total. simpl. lia. }
           destruct HRl2 as (Hgl & Hl1 & Hl2 & Hl3 & _).
           assert (1 <= length gl) by (destruct gl; [congruence|simpl; lia]).
           destruct (Nat.ltb_spec 0 i); [|lia]. rewrite EX. unfold aget.
           replace (i - 1) with (total (rev left') + length gl - 1) by lia. rewrite Hl3.
           specialize (IH bins2 pools1 left' (gl, bl) ((g', b'') :: rest') (total (rev left'))).
           rewrite E1, HL1 in IH. apply IH; try lia.
           ++ rewrite total_app. rewrite !total_cons. cbn [fst]. lia.
           ++ apply Rep_app. split; auto. simpl. repeat match goal with |- _ /\ _ => split end; auto.
              all: try (intros ->; simpl in *; lia).
              all: rewrite <- ?Ei; try apply HRm.
              all: try (replace (total (rev left') + length gl - 1) with (i - 1) by lia; auto).
Qed.

(** ** Properties of the segments *)

Definition nonincr (l : list bin) : Prop :=
  forall i x y, nth_error l i = Some x -> nth_error l (S i) = Some y -> (snd y <= snd x)%Q.

Lemma nonincr_snoc l x y : nonincr (l ++ [x]) -> (snd y <= snd x)%Q -> nonincr ((l ++ [x]) ++ [y]).
Proof.
  intros H Hy i a b Ha Hb. pose proof (proj1 (nth_error_Some ((l ++ [x]) ++ [y]) (S i)) ltac:(congruence)) as HL.
  rewrite !app_length in HL. simpl in HL. destruct (Nat.eq_dec i (length l)) as [->|Hn].
  - rewrite nth_error_app1 in Ha by (rewrite app_length; simpl; lia). rewrite nth_error_app2 in Ha, Hb by (try rewrite app_length; simpl; lia).
    replace (length l - length l) with 0 in Ha by lia.
    match type of Hb with nth_error _ ?k = _ => replace k with 0 in Hb by (rewrite app_length; cbn [length]; lia) end.
    simpl in Ha, Hb. injection Ha as <-. injection Hb as <-. auto.
  - rewrite nth_error_app1 in Ha, Hb by (rewrite app_length; simpl; lia). eapply H; eauto.
Qed.

Definition seg_ok (s : seg) : Prop := pooled (fst s) (snd s).

Lemma map_snd_snoc (l : list bin) x : map snd (l ++ [x]) = map snd l ++ [snd x].
Proof. rewrite map_app. auto. Qed.

Lemma innerA_ok rest : forall num gs b0 bs bl b,
  Forall2 pooled gs (b0 :: bs) -> (exists l, b0 :: bs = l ++ [bl]) -> bs <> [] -> nonincr (b0 :: bs) ->
  fst b = fst b0 -> num = length (b0 :: bs) -> (snd b * inject_Z (Z.of_nat num) == Qsum (map snd (b0 :: bs)))%Q ->
  Forall seg_ok rest ->
  let '(m, rest') := innerA num (concat gs) b (snd bl) rest in
  seg_ok m /\ Forall seg_ok rest' /\
  fst m ++ concat (map fst rest') = concat gs ++ concat (map fst rest).
Proof.
  induction rest as [|[g' b'] rest IH]; intros num gs b0 bs bl b Hg (l & Hl) Hne Hni Hf Hn Hs Hr.
  - cbn [innerA]. simpl. split; [|auto]. unfold seg_ok. simpl. apply pooled_merge with b0 bs; auto.
    split; [discriminate|]. rewrite map_length, <- Hn. auto.
  - cbn [innerA]. destruct (Qltb_spec (snd bl) (snd b')) as [HQ|HQ].
    + split; [|auto]. unfold seg_ok. simpl. apply pooled_merge with b0 bs; auto.
      split; [discriminate|]. rewrite map_length, <- Hn. auto.
    + inversion Hr as [|? ? Hr1 Hr2]; subst x l0.
      specialize (IH (num + 1) (gs ++ [g']) b0 (bs ++ [b']) b'
        (fst b, iterativeArithmeticMean (num + 1) (snd b') (snd b))).
      rewrite concat_app in IH. simpl in IH. rewrite app_nil_r in IH.
      destruct (innerA (num + 1) (concat gs ++ g') (fst b, iterativeArithmeticMean (num + 1) (snd b') (snd b)) (snd b') rest)
        as [m rest'] eqn:EI.
      destruct IH as (I1 & I2 & I3); auto.
      * change (b0 :: bs ++ [b']) with ((b0 :: bs) ++ [b']). apply Forall2_app; auto.
      * exists (b0 :: bs). reflexivity.
      * destruct bs; discriminate.
      * change (b0 :: bs ++ [b']) with ((b0 :: bs) ++ [b']). rewrite Hl. rewrite Hl in Hni. apply nonincr_snoc; auto. lra.
      * rewrite app_length. simpl. simpl in Hn. lia.
      * rewrite (mean_step num (snd b') (snd b) _ Hs). rewrite map_snd_snoc, Qsum_app. simpl. ring.
      * split; [exact I1|]. split; [exact I2|]. rewrite I3. simpl. rewrite <- app_assoc. auto.
Qed.

Definition seg_lt (a b : seg) : Prop := (snd (snd a) < snd (snd b))%Q.

From Coq Require Import Sorted.

Lemma SS_prefix {A} (R : A -> A -> Prop) a : forall b, StronglySorted R (a ++ b) -> StronglySorted R a.
Proof.
  induction a as [|x a IH]; intros b H; [constructor|]. inversion H; subst. constructor; eauto.
  apply Forall_app in H3. tauto.
Qed.

Lemma SS_snoc {A} (R : A -> A -> Prop) a x : StronglySorted R a -> (forall y, In y a -> R y x) -> StronglySorted R (a ++ [x]).
Proof.
  induction 1 as [|y a H IH HF]; intros Hx; simpl.
  - constructor; constructor.
  - constructor.
    + apply IH. intros z Hz. apply Hx. simpl; auto.
    + apply Forall_app. split; auto. constructor; auto. apply Hx. simpl; auto.
Qed.

Lemma SS_push a (c s : seg) : StronglySorted seg_lt (a ++ [c]) -> seg_lt c s -> StronglySorted seg_lt ((a ++ [c]) ++ [s]).
Proof.
  intros H Hs. apply SS_snoc; auto. intros y Hy. apply in_app_or in Hy. destruct Hy as [Hy|[<-|[]]]; auto.
  assert (seg_lt y c). 
  { clear Hs. induction a as [|z a IH]; [destruct Hy|]. simpl in H. inversion H; subst. destruct Hy as [<-|Hy]; auto.
    rewrite Forall_forall in H3. apply H3. apply in_or_app. simpl; auto. }
  unfold seg_lt in *. lra.
Qed.

Lemma poolA_ok fuel : forall left cur right,
  length left + 2 * length right < fuel -> Forall seg_ok (rev left ++ cur :: right) ->
  StronglySorted seg_lt (rev left ++ [cur]) ->
  exists segs, poolA fuel left cur right = Some segs /\ Forall seg_ok segs /\ StronglySorted seg_lt segs /\
    concat (map fst segs) = concat (map fst (rev left ++ cur :: right)).
Proof.
  induction fuel as [|fuel IH]; intros left [g1 b1] right Hf Hok HS; [lia|].
  destruct right as [|[g2 b2] right']; cbn [poolA].
  - eexists. split; [reflexivity|]. auto.
  - cbn [fst snd] in *. destruct (Qltb_spec (snd b1) (snd b2)) as [HQ|HQ].
    + destruct (IH ((g1, b1) :: left) (g2, b2) right') as (segs & E & E1 & E2 & E3).
      * simpl in *. lia.
      * simpl. rewrite <- app_assoc. auto.
      * simpl. apply SS_push; auto.
      * exists segs. split; [exact E|]. split; [exact E1|]. split; [exact E2|]. rewrite E3. simpl.
        rewrite <- app_assoc. auto.
    + apply Forall_app in Hok. destruct Hok as [Hl Hr]. inversion Hr as [|? ? Hr1 Hr']; subst.
      inversion Hr' as [|? ? Hr2 Hr3]; subst.
      pose proof (innerA_ok right' 2 [g1; g2] b1 [b2] b2 (fst b1, iterativeArithmeticMean 2 (snd b2) (snd b1))) as HI.
      cbn [concat] in HI. rewrite app_nil_r in HI.
      pose proof (innerA_total right' 2 (g1 ++ g2) (fst b1, iterativeArithmeticMean 2 (snd b2) (snd b1)) (snd b2)) as HT.
      destruct (innerA 2 (g1 ++ g2) (fst b1, iterativeArithmeticMean 2 (snd b2) (snd b1)) (snd b2) right') as [m rest].
      specialize (HT _ _ eq_refl). destruct HT as [_ HT].
      destruct HI as (I1 & I2 & I3); auto.
      * exists [b1]. auto.
      * discriminate.
      * intros i x y Hx Hy. destruct i as [|i]; simpl in *.
        -- injection Hx as <-. injection Hy as <-. lra.
        -- destruct i; discriminate.
      * rewrite (mean_step 1 (snd b2) (snd b1) (snd b1)); simpl; [ring|]. change (inject_Z 1) with 1%Q. ring.
      * destruct left as [|s left'].
        -- destruct (IH [] m rest) as (segs & E & E1 & E2 & E3).
           ++ simpl in *. lia.
           ++ simpl. auto.
           ++ simpl. repeat constructor.
           ++ exists segs. split; [exact E|]. split; [exact E1|]. split; [exact E2|]. rewrite E3. simpl.
              simpl in I3. rewrite I3. rewrite <- app_assoc. auto.
        -- simpl in Hl, HS. apply Forall_app in Hl. destruct Hl as [Hl1 Hl2]. inversion Hl2; subst.
           destruct (IH left' s (m :: rest)) as (segs & E & E1 & E2 & E3).
           ++ simpl in *. lia.
           ++ apply Forall_app. auto.
           ++ apply SS_prefix in HS. auto.
           ++ exists segs. split; [exact E|]. split; [exact E1|]. split; [exact E2|]. rewrite E3.
              simpl. rewrite <- app_assoc. rewrite !map_app, !concat_app. simpl. rewrite I3, <- app_assoc, app_nil_r. auto.
Qed.

(** ** Compaction *)
Lemma compact_ok segs : forall fuel bins pools i j out,
  length segs < fuel -> Rep bins pools i segs -> i + total segs = length bins -> j <= i -> firstn j bins = out -> length out = j ->
  exists bins', compactLoop fuel bins pools i j = Some (bins', j + length segs) /\
    firstn (j + length segs) bins' = out ++ map snd segs.
Proof.
  induction segs as [|[g b] segs IH]; intros fuel bins pools i j out Hf HR Ht Hji Ho Hlo;
    (destruct fuel as [|fuel]; [simpl in Hf; lia|]); cbn [compactLoop].
  - unfold total in Ht. simpl in Ht. destruct (Nat.ltb_spec i (length bins)); [lia|].
    exists bins. simpl. rewrite Nat.add_0_r, app_nil_r. auto.
  - pose proof (Rep_bound _ _ _ _ _ _ HR) as (_ & Hb & Hg). destruct HR as (_ & Hbi & Hp & _ & HR).
    rewrite total_cons in Ht. cbn [fst] in Ht.
    destruct (Nat.ltb_spec i (length bins)); [|lia]. unfold aget. rewrite Hbi. rewrite aset_Some by lia. rewrite Hp.
    replace (i + length g - 1 + 1) with (i + length g) by lia.
    destruct (IH fuel (upd bins j b) pools (i + length g) (j + 1) (out ++ [b])) as (bins' & E1 & E2).
    + simpl in Hf. lia.
    + eapply Rep_frame; [exact HR|]. intros k Hk. split; auto. apply nth_error_upd_neq. lia.
    + rewrite upd_length. lia.
    + lia.
    + rewrite Nat.add_1_r. rewrite (firstn_S_nth _ _ b) by (apply nth_error_upd_eq; lia). f_equal.
      rewrite <- Ho. clear. revert j. induction bins as [|y bins IH]; intros [|j]; simpl; auto. f_equal. auto.
    + rewrite app_length. simpl. lia.
    + exists bins'. cbn [length map]. replace (j + S (length segs)) with (j + 1 + length segs) by lia.
      split; [exact E1|]. rewrite E2. rewrite <- app_assoc. auto.
Qed.

Lemma seq_nth_error n : forall s k, k < n -> nth_error (seq s n) k = Some (s + k).
Proof.
  induction n; intros s k Hk; [lia|]. destruct k; simpl; [f_equal; lia|]. rewrite IHn by lia. f_equal. lia.
Qed.

Lemma Rep_init bins : forall all p, p + length bins = length all ->
  (forall k, nth_error all (p + k) = nth_error bins k) ->
  Rep all (seq 0 (length all)) p (map (fun b => ([b], b)) bins).
Proof.
  induction bins as [|b bins IH]; intros all p HL Hk; simpl; auto. simpl in HL.
  replace (p + 1 - 1) with p by lia. rewrite !seq_nth_error by lia.
  repeat match goal with |- _ /\ _ => split end; auto; try discriminate.
  - specialize (Hk 0). rewrite Nat.add_0_r in Hk. exact Hk.
  - apply IH; auto; try lia. intros k. specialize (Hk (S k)). simpl in Hk. rewrite <- Hk. f_equal. lia.
Qed.

Lemma aggregate_ok bins : bins <> [] ->
  exists segs, aggregateNonIncreasingBins bins = Some (map snd segs) /\ Forall seg_ok segs /\ StronglySorted seg_lt segs /\
    concat (map fst segs) = bins.
Proof.
  intros Hne. destruct bins as [|b bins]; [congruence|]. set (all := b :: bins).
  assert (HR : Rep all (seq 0 (length all)) 0 (map (fun b => ([b], b)) all)) by (apply Rep_init; auto).
  assert (Ht : forall l : list bin, total (map (fun b => ([b], b)) l) = length l).
  { induction l as [|x l IHl]; auto. simpl map. rewrite total_cons, IHl. auto. }
  destruct (poolA_ok (2 * length all + 1) [] ([b], b) (map (fun b => ([b], b)) bins)) as (segs & E1 & E2 & E3 & E4).
  - unfold all. simpl. rewrite map_length. lia.
  - simpl. change (([b], b) :: map (fun b => ([b], b)) bins) with (map (fun b : bin => ([b], b)) all).
    apply Forall_forall. intros s Hs. apply in_map_iff in Hs. destruct Hs as (x & <- & _). apply pooled_single.
  - simpl. repeat constructor.
  - pose proof (poolLoop_ok (2 * length all + 1) all (seq 0 (length all)) [] ([b], b) (map (fun b => ([b], b)) bins) 0) as HP.
    rewrite E1 in HP. destruct HP as (bins' & pools' & P1 & P2 & P3 & P4 & P5).
    + rewrite seq_length. auto.
    + simpl. lia.
    + exact (Ht all).
    + exact HR.
    + exists segs. change (total (rev [])) with 0 in P1. unfold aggregateNonIncreasingBins. rewrite P1.
      pose proof (length_le_total _ _ _ _ P5).
      destruct (compact_ok segs (length all + 1) bins' pools' 0 0 []) as (bins'' & C1 & C2); auto; try lia.
      rewrite C1. rewrite Nat.add_0_l in *. rewrite C2. simpl. repeat match goal with |- _ /\ _ => split end; auto.
      rewrite E4. change (concat (map fst (map (fun b : bin => ([b], b)) all)) = all). clear.
      induction all as [|x l IHl]; simpl; f_equal; auto.
Qed.
