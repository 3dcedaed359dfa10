(** * Proofs about the lucky number sieve. *)
From Coq Require Import ZArith Znumtheory List Lia Bool Sorted Arith.
From Verif Require Import Base Spec SpecEx Ext NT PBase MInteger MExamples.
Import ListNotations.
Local Open Scope nat_scope.

(** Arithmetic of dropping every s-th index. *)
Lemma drop_index : forall s i m, 2 <= s -> (i + i / (s - 1) < m <-> i < m - m / s).
Proof.
  intros s i m Hs. pose proof (Nat.div_mod i (s - 1) ltac:(lia)) as Ei. pose proof (Nat.mod_upper_bound i (s - 1) ltac:(lia)) as Bi.
  pose proof (Nat.div_mod m s ltac:(lia)) as Em. pose proof (Nat.mod_upper_bound m s ltac:(lia)) as Bm.
  set (a := i / (s - 1)) in *. set (b := i mod (s - 1)) in *. set (q := m / s) in *. set (r := m mod s) in *.
  destruct s as [|[|s]]; [lia | lia|]. replace (S (S s) - 1) with (S s) in * by lia.
  assert (Hm : m - q = S s * q + r) by lia. rewrite Hm.
  destruct (Nat.lt_trichotomy a q) as [L|[E|L]].
  - assert (S s * a + S s <= S s * q) by nia. assert (S (S s) * a + S (S s) <= S (S s) * q) by nia. lia.
  - subst a. rewrite E in *. lia.
  - assert (S s * q + S s <= S s * a) by nia. assert (S (S s) * q + S (S s) <= S (S s) * a) by nia. lia.
Qed.
Lemma drop_at : forall s m, 2 <= s -> (m + 1) mod s <> 0 -> let i := m - m / s in i + i / (s - 1) = m /\ (m + 1) / s = m / s.
Proof.
  intros s m Hs Hr i. pose proof (Nat.div_mod m s ltac:(lia)) as Em. pose proof (Nat.mod_upper_bound m s ltac:(lia)) as Bm.
  assert (Hr' : m mod s + 1 < s).
  { destruct (Nat.eq_dec (m mod s + 1) s) as [E|N]; [|lia]. exfalso. apply Hr. rewrite Nat.add_mod by lia. rewrite (Nat.mod_small 1) by lia. rewrite E. apply Nat.mod_same. lia. }
  split.
  - assert (Ei : i = (s - 1) * (m / s) + m mod s) by (unfold i; nia). rewrite Ei at 2. rewrite Nat.mul_comm, Nat.div_add_l, (Nat.div_small (m mod s)) by lia. unfold i. pose proof (Nat.div_le_upper_bound m s m ltac:(lia) ltac:(nia)). lia.
  - symmetry. apply (Nat.div_unique (m + 1) s (m / s) (m mod s + 1)); lia.
Qed.
Lemma drop_at0 : forall s m, 2 <= s -> (m + 1) mod s = 0 -> m + 1 - (m + 1) / s = m - m / s.
Proof.
  intros s m Hs Hr. pose proof (Nat.div_mod (m + 1) s ltac:(lia)) as E. rewrite Hr in E.
  assert (Q : 1 <= (m + 1) / s) by nia. assert (D : m / s = (m + 1) / s - 1).
  { symmetry. apply (Nat.div_unique m s ((m + 1) / s - 1) (s - 1)); [lia|]. nia. }
  rewrite D. lia.
Qed.

(** Stages are strictly increasing, and grow at least like the odd numbers. *)
Definition increasing (g : nat -> nat) : Prop := forall i j, i < j -> g i < g j.
Definition odds (g : nat -> nat) : Prop := increasing g /\ (forall i, Nat.odd (g i) = true) /\ g 0 = 1.
Lemma drop_odds : forall s g, 2 <= s -> odds g -> odds (drop_every s g).
Proof.
  intros s g Hs [I [O Z]]. unfold drop_every. split; [|split; [intros i; apply O|]].
  - intros i j L. apply I. pose proof (Nat.div_le_mono i j (s - 1) ltac:(lia) ltac:(lia)). lia.
  - rewrite Nat.div_0_l by lia. exact Z.
Qed.
Lemma odds_ge : forall g i, odds g -> 2 * i + 1 <= g i.
Proof.
  intros g i [I [O Z]]. induction i as [|i IH]; [lia|]. pose proof (I i (S i) ltac:(lia)). pose proof (O i) as Oi. pose proof (O (S i)) as Oj. apply Nat.odd_spec in Oi, Oj. destruct Oi as [a Ea], Oj as [b Eb]. lia.
Qed.
Lemma stage_odds : forall k, odds (lucky_stage k).
Proof.
  induction k as [|k IH].
  - cbn [lucky_stage]. split; [intros i j L; lia|]. split; [intros i; apply Nat.odd_spec; exists i; reflexivity | reflexivity].
  - cbn [lucky_stage]. apply drop_odds; [|exact IH]. pose proof (odds_ge _ (S k) IH). lia.
Qed.
Lemma stage_ge : forall k i, 2 * i + 1 <= lucky_stage k i.
Proof. intros k i. apply odds_ge, stage_odds. Qed.
Lemma stage_mono : forall k i, lucky_stage k i <= lucky_stage (S k) i.
Proof.
  intros k i. cbn [lucky_stage]. unfold drop_every. destruct (stage_odds k) as [I _]. destruct (Nat.eq_dec (i / (lucky_stage k (S k) - 1)) 0) as [E|E]; [rewrite E, Nat.add_0_r; lia|].
  apply Nat.lt_le_incl, I. lia.
Qed.
Lemma stage_mono_le : forall k j i, k <= j -> lucky_stage k i <= lucky_stage j i.
Proof. intros k j i L. induction L; [lia|]. pose proof (stage_mono m i). lia. Qed.
(** From the first stage on, the bound is larger. *)
Lemma stage1_ge : forall k i, 1 <= k -> 2 <= i -> 2 * i + 3 <= lucky_stage k i.
Proof.
  intros k i Hk Hi. apply Nat.le_trans with (lucky_stage 1 i); [|apply stage_mono_le; exact Hk].
  cbn [lucky_stage]. unfold drop_every. replace (2 * 1 + 1 - 1) with 2 by reflexivity. pose proof (Nat.div_le_mono 2 i 2 ltac:(lia) Hi) as D. change (2 / 2) with 1 in D. lia.
Qed.
Lemma stage_stable1 : forall k i, i < lucky_stage k (S k) - 1 -> lucky_stage (S k) i = lucky_stage k i.
Proof. intros k i H. cbn [lucky_stage]. unfold drop_every. rewrite Nat.div_small by exact H. f_equal. lia. Qed.
Lemma stage_stable : forall k j i, k <= j -> (i <= 2 * k + 1 \/ 1 <= k /\ i <= 2 * k + 2) -> lucky_stage j i = lucky_stage k i.
Proof.
  intros k j i L. induction L as [|j L IH]; intros H; [reflexivity|]. rewrite stage_stable1; [apply IH, H|].
  destruct H as [H|[Hk H]].
  - pose proof (stage_ge j (S j)). lia.
  - pose proof (stage1_ge j (S j) ltac:(lia) ltac:(lia)). lia.
Qed.
(** Survival is inherited. *)
Lemma stage_incl : forall k i, exists j, lucky_stage (S k) i = lucky_stage k j.
Proof. intros k i. eexists. cbn [lucky_stage]. unfold drop_every. reflexivity. Qed.
Lemma stage_incl_le : forall k j i, k <= j -> exists i', lucky_stage j i = lucky_stage k i'.
Proof. intros k j i L. revert i. induction L as [|j L IH]; intros i; [exists i; reflexivity|]. destruct (stage_incl j i) as [i1 E1]. destruct (IH i1) as [i2 E2]. exists i2. congruence. Qed.

(** Finite prefixes. *)
Definition pref (g : nat -> nat) (m : nat) : list Z := map (fun i => Z.of_nat (g i)) (seq 0 m).
Lemma pref_length : forall g m, length (pref g m) = m.
Proof. intros. unfold pref. rewrite map_length, seq_length. reflexivity. Qed.
Lemma pref_snoc : forall g m, pref g (S m) = pref g m ++ [Z.of_nat (g m)].
Proof. intros. unfold pref. rewrite seq_S, map_app. reflexivity. Qed.
Lemma pref_nth : forall g m i, i < m -> nth_error (pref g m) i = Some (Z.of_nat (g i)).
Proof. intros g m i L. unfold pref. erewrite map_nth_error; [reflexivity|]. erewrite nth_error_nth' with (d := 0) by (rewrite seq_length; exact L). rewrite seq_nth by exact L. reflexivity. Qed.
Fixpoint pass (s : nat) (i : nat) (l : list Z) : list Z :=
  match l with [] => [] | x :: l' => if (i + 1) mod s =? 0 then pass s (i + 1) l' else x :: pass s (i + 1) l' end.
Lemma pass_app : forall s l l' i, pass s i (l ++ l') = pass s i l ++ pass s (i + length l) l'.
Proof.
  induction l as [|x l IH]; intros l' i; cbn [pass app length]; [f_equal; lia|]. rewrite IH. replace (i + 1 + length l) with (i + S (length l)) by lia. destruct (_ =? 0); reflexivity.
Qed.
Lemma pass_pref : forall s g m, 2 <= s -> pass s 0 (pref g m) = pref (drop_every s g) (m - m / s).
Proof.
  intros s g m Hs. induction m as [|m IH]; [rewrite Nat.div_0_l by lia; reflexivity|]. rewrite pref_snoc, pass_app, IH, pref_length. cbn [pass Nat.add].
  replace (S m - S m / s)%nat with (m + 1 - (m + 1) / s)%nat by (rewrite Nat.add_1_r; reflexivity). destruct (Nat.eqb_spec ((m + 1) mod s) 0) as [E|E].
  - rewrite drop_at0 by assumption. apply app_nil_r.
  - destruct (drop_at s m Hs E) as [A B]. rewrite B. pose proof (Nat.div_le_upper_bound m s m ltac:(lia) ltac:(nia)). replace (m + 1 - m / s) with (S (m - m / s)) by lia. rewrite pref_snoc. unfold drop_every at 3. rewrite A. reflexivity.
Qed.

Local Open Scope Z_scope.
Lemma lucky_pass_ok : forall pf s l i, (0 < s)%nat -> 0 <= Z.of_nat i -> Z.of_nat i + Z.of_nat (length l) < 2 ^ 64 -> lucky_pass pf (Z.of_nat s) (Z.of_nat i) l = Ret (pass s i l).
Proof.
  intros pf s. induction l as [|x l IH]; intros i Hs Hi HL; cbn [lucky_pass pass]; [reflexivity|]. cbn [length] in HL.
  rewrite add_ok by (rngs; lia). cbn [bind]. rewrite rem_ok by lia. cbn [bind]. replace (Z.of_nat i + 1) with (Z.of_nat (i + 1)) by lia. rewrite IH by lia. cbn [bind].
  rewrite <- Nat2Z.inj_mod. destruct (Nat.eqb_spec ((i + 1) mod s) 0) as [E|E].
  - rewrite E. reflexivity.
  - replace (Z.of_nat ((i + 1) mod s) =? 0) with false by (symmetry; apply Z.eqb_neq; lia). reflexivity.
Qed.

(** The state before the pass with counter k + 1: the members of stage k below the limit. *)
Definition lucky_inv (limit : Z) (st : Z * list Z) : Prop :=
  exists k m, st = (Z.of_nat (S k), pref (lucky_stage k) m) /\ (forall i, Z.of_nat (lucky_stage k i) < limit <-> (i < m)%nat).
Definition lucky_end (limit : Z) (l : list Z) : Prop :=
  exists k m, l = pref (lucky_stage k) m /\ (forall i, Z.of_nat (lucky_stage k i) < limit <-> (i < m)%nat) /\ (m <= 2 * k + 3)%nat.

Lemma lucky_count : forall limit k m, (forall i, Z.of_nat (lucky_stage k i) < limit <-> (i < m)%nat) -> 0 <= limit -> 2 * Z.of_nat m <= limit + 1.
Proof.
  intros limit k m H HL. destruct m as [|m]; [lia|]. pose proof (proj2 (H m) ltac:(lia)) as A. pose proof (stage_ge k m). lia.
Qed.
Lemma start_pref : forall limit, 0 <= limit -> exists m, range_step 1 limit 2 = pref (lucky_stage 0) m /\ (forall i, Z.of_nat (lucky_stage 0 i) < limit <-> (i < m)%nat).
Proof.
  intros limit HL. exists (Z.to_nat ((limit - 1 + 2 - 1) / 2)). split.
  - unfold range_step. generalize (Z.to_nat ((limit - 1 + 2 - 1) / 2)). intros m. unfold pref.
    assert (G : forall m a b, b = 2 * Z.of_nat a + 1 -> range_from m b 2 = map (fun i => Z.of_nat (lucky_stage 0 i)) (seq a m)).
    { induction m0 as [|m0 IH]; intros a b E; cbn [range_from seq map]; [reflexivity|]. f_equal; [cbn [lucky_stage]; lia | apply IH; lia]. }
    apply G. reflexivity.
  - intros i. cbn [lucky_stage]. replace (limit - 1 + 2 - 1) with limit by lia. pose proof (Z.div_mod limit 2 ltac:(lia)). pose proof (Z.mod_pos_bound limit 2 ltac:(lia)). pose proof (Z.div_pos limit 2 ltac:(lia) ltac:(lia)). lia.
Qed.
Lemma lucky_loop : forall pf fuel limit, 0 <= limit < 2 ^ 64 -> limit < fuel -> exists l, list_lucky_numbers pf fuel limit = Ret l /\ lucky_end limit l.
Proof.
  intros pf fuel limit HL Hf. unfold list_lucky_numbers. apply run_total.
  apply (run_loop_measure _ _ False False (lucky_inv limit) (lucky_end limit) (fun st => limit + 1 - fst st)).
  - destruct (start_pref limit ltac:(lia)) as [m [E H]]. exists 0%nat, m. rewrite E. auto.
  - cbn [fst]. lia.
  - intros st [k [m [-> H]]]. pose proof (lucky_count limit k m H ltac:(lia)) as C. unfold lucky_step. rewrite pref_length. destruct (Z.ltb_spec (Z.of_nat (S k)) (Z.of_nat m / 2)) as [L|L].
    + assert (Lm : (S k < m)%nat) by (pose proof (Z.mul_div_le (Z.of_nat m) 2 ltac:(lia)); lia).
      unfold index. rewrite Nat2Z.id, pref_nth by exact Lm. replace (_ <? 0) with false by (symmetry; apply Z.ltb_ge; lia). cbn [bind unwrap].
      pose proof (stage_ge k (S k)) as G. rewrite (lucky_pass_ok pf _ _ 0) by (rewrite ?pref_length; lia). cbn [bind]. rewrite pass_pref by lia.
      rewrite add_ok by (rngs; lia). cbn [bind run fst]. split.
      * exists (S k), (m - m / lucky_stage k (S k))%nat. split; [f_equal; lia|]. intros i. cbn [lucky_stage]. unfold drop_every. rewrite H. apply drop_index. lia.
      * lia.
    + cbn [run]. exists k, m. split; [reflexivity|]. split; [exact H|]. pose proof (Z.mul_succ_div_gt (Z.of_nat m) 2 ltac:(lia)). lia.
Qed.

(** What remains at the end are the lucky numbers, unless the limit is 6 or 7. *)
Lemma lucky_end_exact : forall limit l, 0 <= limit -> limit <> 6 -> limit <> 7 -> lucky_end limit l -> StronglySorted Z.lt l /\ forall n, In n l <-> lucky n /\ n < limit.
Proof.
  intros limit l HL N6 N7 [k [m [-> [H Hm]]]].
  assert (E : forall j i, (k <= j)%nat -> (i < m)%nat -> lucky_stage j i = lucky_stage k i).
  { intros j i L Hi. apply stage_stable; [exact L|]. destruct k as [|k]; [|lia]. left.
    destruct (Nat.eq_dec m 3) as [->|]; [|lia]. exfalso. pose proof (proj2 (H 2%nat) ltac:(lia)) as A. assert (B : ~ (3 < 3)%nat) by lia. rewrite <- (H 3%nat) in B. cbn [lucky_stage] in A, B. lia. }
  split.
  - unfold pref. destruct (stage_odds k) as [I _]. clear - I. generalize 0%nat. induction m as [|m IH]; intros a; cbn [seq map]; constructor; [apply IH|]. apply Forall_forall. intros x Hx. apply in_map_iff in Hx. destruct Hx as [i [<- Hi]]. apply in_seq in Hi. specialize (I a i ltac:(lia)). lia.
  - intros n. unfold pref. rewrite in_map_iff. split.
    + intros [i [<- Hi]]. apply in_seq in Hi. split; [|apply H; lia]. intros j. destruct (Nat.le_gt_cases k j) as [L|L].
      * exists i. rewrite E by lia. reflexivity.
      * destruct (stage_incl_le j k i ltac:(lia)) as [i' Ei]. exists i'. rewrite Ei. reflexivity.
    + intros [Hn Hlt]. destruct (Hn k) as [i Hi]. exists i. split; [exact Hi|]. apply in_seq. rewrite <- Hi in Hlt. apply H in Hlt. lia.
Qed.
Lemma lucky_not_5 : ~ lucky 5.
Proof.
  intros H. destruct (H 1%nat) as [i E]. destruct i as [|[|[|i]]]; [discriminate E | discriminate E | discriminate E|].
  pose proof (stage1_ge 1 (S (S (S i))) ltac:(lia) ltac:(lia)). lia.
Qed.
