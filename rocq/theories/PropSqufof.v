(** * C77: what squfof finds, and the rest of C66: squfof_test. *)
From Coq Require Import ZArith Znumtheory List Lia Bool.
From Verif Require Import Base Spec SpecCF Ext NT PBase MInteger Ops POps MFactor PFactor2 PSqufof PSqufof2 PSqufof3 PropFactor.
Import ListNotations.
Local Open Scope Z_scope.

(** ** C77: squfof(target, N, max_iter) walks through the continued fraction of sqrt N and returns the divisor of the first pass, among
    the odd ones, at which Shanks' method succeeds; the second component is the number of that pass. *)
Theorem C77_squfof : forall f pf t fuel target N max_iter, valid_ity t -> 1 <= target -> 1 <= N -> in_range t N -> (target | N) -> 0 <= max_iter ->
  (~ exists r, r * r = N) -> 2 * N <= fuel ->
  (forall d i, squfof f pf t fuel target N max_iter = Ret (Some d, i) <->
     1 <= i < max_iter /\ Z.odd i = true /\ shanks_hit target N (Z.to_nat (i + 1)) d /\
     forall j d', 1 <= j < i -> Z.odd j = true -> ~ shanks_hit target N (Z.to_nat (j + 1)) d') /\
  (forall i, squfof f pf t fuel target N max_iter = Ret (None, i) <->
     i = max_iter /\ forall j d', 1 <= j < max_iter -> Z.odd j = true -> ~ shanks_hit target N (Z.to_nat (j + 1)) d').
Proof.
  intros f pf t fuel target N maxi Ht H1 HN1 HN Hd Hm Hsq Hf. destruct (squfof_exact f pf t fuel target N maxi Ht H1 HN1 HN Hd Hm Hsq Hf) as [o [i0 [E H]]]. rewrite E. unfold hit in H.
  pose proof (Z.sqrt_spec N ltac:(lia)) as [S1 _]. assert (Hns : Z.sqrt N * Z.sqrt N < N) by (assert (Z.sqrt N * Z.sqrt N <> N) by (intros C; apply Hsq; eauto); lia).
  split.
  - intros d i. split.
    + intros X. injection X as -> ->. exact H.
    + intros [A [B [C D]]]. destruct o as [d0|]; [|exfalso; exact (proj2 H i d ltac:(lia) B C)]. destruct H as [A' [B' [C' D']]].
      assert (i0 = i) as ->. { destruct (Z.lt_trichotomy i0 i) as [L|[L|L]]; [exfalso; exact (D i0 d0 ltac:(lia) B' C') | exact L | exfalso; exact (D' i d ltac:(lia) B C)]. }
      rewrite (hit_unique N (Z.sqrt N) ltac:(lia) eq_refl Hns target i d0 d ltac:(lia) C' C). reflexivity.
  - intros i. split.
    + intros X. injection X as -> ->. exact H.
    + intros [-> D]. destruct o as [d0|]; [exfalso; destruct H as [A' [B' [C' _]]]; exact (D i0 d0 ltac:(lia) B' C')|]. rewrite (proj1 H). reflexivity.
Qed.
(** More passes never lose a factor. *)
Theorem C77_more_passes : forall f pf t fuel target N m m', valid_ity t -> 1 <= target -> 1 <= N -> in_range t N -> (target | N) -> 0 <= m <= m' ->
  (~ exists r, r * r = N) -> 2 * N <= fuel -> forall d i, squfof f pf t fuel target N m = Ret (Some d, i) -> squfof f pf t fuel target N m' = Ret (Some d, i).
Proof.
  intros f pf t fuel target N m m' Ht H1 HN1 HN Hd Hm Hsq Hf d i E.
  apply (C77_squfof f pf t fuel target N m' Ht H1 HN1 HN Hd ltac:(lia) Hsq Hf). apply (C77_squfof f pf t fuel target N m Ht H1 HN1 HN Hd ltac:(lia) Hsq Hf) in E.
  destruct E as [A B]. split; [lia | exact B].
Qed.
(** The type and the feature make no difference. *)
Theorem C77_any_type : forall f f' pf pf' t t' fuel fuel' target N m, valid_ity t -> valid_ity t' -> 1 <= target -> 1 <= N -> in_range t N -> in_range t' N -> (target | N) -> 0 <= m ->
  (~ exists r, r * r = N) -> 2 * N <= fuel -> 2 * N <= fuel' -> squfof f pf t fuel target N m = squfof f' pf' t' fuel' target N m.
Proof.
  intros f f' pf pf' t t' fuel fuel' target N m Ht Ht' H1 HN1 HN HN' Hd Hm Hsq Hf Hf'.
  destruct (squfof_exact f pf t fuel target N m Ht H1 HN1 HN Hd Hm Hsq Hf) as [o [i [E _]]]. rewrite E. symmetry.
  pose proof (C77_squfof f pf t fuel target N m Ht H1 HN1 HN Hd Hm Hsq Hf) as [A B]. pose proof (C77_squfof f' pf' t' fuel' target N m Ht' H1 HN1 HN' Hd Hm Hsq Hf') as [A' B'].
  destruct o as [d|]; [apply A', A, E | apply B', B, E].
Qed.
Lemma between_squares : forall N a, 0 <= a -> a * a < N < (a + 1) * (a + 1) -> ~ exists r, r * r = N.
Proof.
  intros N a Ha H [r Er]. rewrite <- (Z.abs_square r) in Er. destruct (Z.le_gt_cases (Z.abs r) a) as [L|L].
  - assert (Z.abs r * Z.abs r <= a * a) by (apply Z.mul_le_mono_nonneg; lia). lia.
  - assert ((a + 1) * (a + 1) <= Z.abs r * Z.abs r) by (apply Z.mul_le_mono_nonneg; lia). lia.
Qed.
(** 11111 = 41 * 271: Q is 25 in the pass 5 *)
Example C77_case : shanks_hit 11111 11111 6 41 /\ cf 11111 6 = (94, 25) /\ (forall d, ~ shanks_hit 11111 11111 2 d) /\ (forall d, ~ shanks_hit 11111 11111 4 d).
Proof.
  pose proof (C77_squfof BigTable Debug u64 22222 11111 11111 100 ltac:(cbn; lia) ltac:(lia) ltac:(lia) ltac:(cbn; lia) (Z.divide_refl _) ltac:(lia)
    (between_squares 11111 105 ltac:(lia) ltac:(lia)) ltac:(lia)) as [A _].
  destruct (proj1 (A 41 5) ltac:(vm_compute; reflexivity)) as [_ [_ [H N]]]. split; [exact H|]. split; [vm_compute; reflexivity|].
  split; intros d; [apply (N 1) | apply (N 3)]; (lia || reflexivity).
Qed.

(** ** C66: squfof_test, src/factor.rs:357-405 *)
Definition or_else (a b : option Z) : option Z := match a with Some _ => a | None => b end.
Definition squfof_cases : list Z := [2501; 12851; 13289; 75301; 120787; 967009; 997417; 7091569; 5214317; 20834839; 23515517; 33409583; 44524219; 13290059; 223553581; 2027651281;
  11111111111; 100895598169; 60012462237239; 287129523414791; 9007199254740931; 11111111111111111; 314159265358979323; 384307168202281507; 419244183493398773; 658812288346769681;
  922337203685477563; 1000000000000000127; 1152921505680588799; 1537228672809128917; 4558849].
(** the expression in the loop of the test; all five calls are made *)
Definition squfof_case (f : feature) (pf : profile) (fuel n : Z) : res (option Z) :=
  '(a, _) <- squfof f pf u64 fuel n n 40000 ;;
  m <- mul_ pf u64 3 n ;; '(b, _) <- squfof f pf u64 fuel n m 40000 ;;
  m <- mul_ pf u64 5 n ;; '(c, _) <- squfof f pf u64 fuel n m 40000 ;;
  m <- mul_ pf u64 7 n ;; '(d, _) <- squfof f pf u64 fuel n m 40000 ;;
  m <- mul_ pf u64 11 n ;; '(e, _) <- squfof f pf u64 fuel n m 40000 ;;
  Ret (or_else (or_else (or_else (or_else a b) c) d) e).
(** a multiplier and a pass for each case but the square 7091569 = 2663^2 *)
Definition squfof_pass : list (Z * Z * Z) := [(2501, 11, 7); (12851, 5, 3); (13289, 1, 17); (75301, 11, 9); (120787, 3, 3); (967009, 11, 67); (997417, 3, 5); (5214317, 7, 103);
  (20834839, 11, 73); (23515517, 3, 57); (33409583, 3, 39); (44524219, 11, 23); (13290059, 5, 13); (223553581, 1, 5); (2027651281, 3, 121); (11111111111, 5, 165); (100895598169, 11, 763);
  (60012462237239, 5, 377); (287129523414791, 5, 2221); (9007199254740931, 7, 8447); (11111111111111111, 7, 1757); (314159265358979323, 11, 8163); (384307168202281507, 3, 5957);
  (419244183493398773, 11, 7207); (658812288346769681, 7, 5425); (922337203685477563, 7, 4099); (1000000000000000127, 11, 19397); (1152921505680588799, 7, 4425); (1537228672809128917, 5, 7597);
  (4558849, 3, 13)].
Lemma squfof_passes : forallb (fun '(n, m, k) => sq_check n (m * n) k) squfof_pass = true.
Proof. vm_compute. reflexivity. Qed.
Lemma any_square : forall N, 0 <= N -> (exists r, 0 <= r /\ r * r = N) \/ ~ exists r, r * r = N.
Proof.
  intros N HN. destruct (Z.eq_dec (Z.sqrt N * Z.sqrt N) N) as [E|E]; [left; exists (Z.sqrt N); split; [apply Z.sqrt_nonneg | exact E]|].
  right. intros [r Er]. apply E. rewrite <- Er, <- (Z.abs_square r). rewrite Z.sqrt_square by lia. reflexivity.
Qed.
Lemma squfof_returns : forall f pf fuel n m, 1 <= n -> 1 <= m -> m * n < 2 ^ 64 -> 2 ^ 65 <= fuel -> exists o i, squfof f pf u64 fuel n (m * n) 40000 = Ret (o, i).
Proof.
  intros f pf fuel n m Hn Hm H64 Hf. change (2 ^ 65) with (2 * 2 ^ 64) in Hf. assert (1 <= m * n) by nia. destruct (any_square (m * n) ltac:(lia)) as [[r [Hr Er]]|Hs].
  - do 2 eexists. refine (C27_square f pf u64 fuel n (m * n) 40000 r _ _ _ _ (Z.divide_factor_r _ _) _ _); try assumption; unfold u64; cbn [valid_ity in_range]; lia.
  - destruct (squfof_exact f pf u64 fuel n (m * n) 40000 ltac:(cbn; lia) Hn H ltac:(cbn; lia) ltac:(exists m; reflexivity) ltac:(lia) Hs ltac:(lia)) as [o [i [E _]]]. exists o, i. exact E.
Qed.
Theorem C66_squfof_test : forall f pf fuel, 2 ^ 65 <= fuel ->
  (exists i, squfof f pf (U 32) fuel 11111 11111 100 = Ret (Some 41, i)) /\
  (forall n, In n squfof_cases -> exists d, squfof_case f pf fuel n = Ret (Some d)).
Proof.
  intros f pf fuel Hf. change (2 ^ 65) with 36893488147419103232 in Hf. split.
  { exists 5. transitivity (squfof BigTable Debug u64 22222 11111 11111 100); [|vm_compute; reflexivity].
    refine (C77_any_type f BigTable pf Debug (U 32) u64 fuel 22222 11111 11111 100 _ _ _ _ _ _ (Z.divide_refl _) _ (between_squares 11111 105 _ _) _ _); try lia; unfold u64; cbn [valid_ity in_range]; lia. }
  intros n Hn.
  assert (B : 2 <= n /\ 11 * n < 2 ^ 64).
  { assert (C : forallb (fun n => (2 <=? n) && (11 * n <? 2 ^ 64)) squfof_cases = true) by (vm_compute; reflexivity).
    rewrite forallb_forall in C. specialize (C n Hn). apply andb_true_iff in C. rewrite Z.leb_le, Z.ltb_lt in C. exact C. }
  destruct B as [B1 B2]. change (2 ^ 64) with 18446744073709551616 in B2.
  assert (R : forall m, 1 <= m <= 11 -> exists o i, squfof f pf u64 fuel n (m * n) 40000 = Ret (o, i)) by (intros m Hm; assert (m * n <= 11 * n) by (apply Z.mul_le_mono_nonneg_r; lia); apply squfof_returns; [lia | lia | change (2 ^ 64) with 18446744073709551616; lia | change (2 ^ 65) with 36893488147419103232; lia]).
  assert (M : forall m, 1 <= m <= 11 -> mul_ pf u64 m n = Ret (m * n)) by (intros m Hm; assert (0 <= m * n <= 11 * n) by (split; [lia | apply Z.mul_le_mono_nonneg_r; lia]); apply mul_ok; unfold u64; cbn [in_range]; change (2 ^ 64) with 18446744073709551616; lia).
  assert (F : exists m d i, In m [1; 3; 5; 7; 11] /\ squfof f pf u64 fuel n (m * n) 40000 = Ret (Some d, i)).
  { destruct (Z.eq_dec n 7091569) as [->|Ne].
    { exists 1, 2663, 0. split; [left; reflexivity|]. refine (C27_square f pf u64 fuel 7091569 (1 * 7091569) 40000 2663 _ _ _ _ (Z.divide_factor_r _ _) _ _); try lia; unfold u64; cbn [valid_ity in_range]; lia. }
    assert (C : forallb (fun n => (n =? 7091569) || existsb (fun '(n', m, k) => (n =? n') && existsb (Z.eqb m) [1; 3; 5; 7; 11] && (k <? 40000)) squfof_pass) squfof_cases = true) by (vm_compute; reflexivity).
    rewrite forallb_forall in C. specialize (C n Hn). apply orb_true_iff in C. destruct C as [C|C]; [apply Z.eqb_eq in C; contradiction|].
    apply existsb_exists in C. destruct C as [[[n' m] k] [Hin C]]. apply andb_true_iff in C. destruct C as [C C3]. apply andb_true_iff in C. destruct C as [C1 C2].
    apply Z.eqb_eq in C1. subst n'. apply Z.ltb_lt in C3. apply existsb_exists in C2. destruct C2 as [m' [Hm' Em]]. apply Z.eqb_eq in Em. subst m'.
    assert (Hm : 1 <= m <= 11) by (cbn [In] in Hm'; lia).
    pose proof squfof_passes as P. rewrite forallb_forall in P. specialize (P _ Hin). cbv beta iota in P.
    assert (0 <= m * n <= 11 * n) by (split; [lia | apply Z.mul_le_mono_nonneg_r; lia]).
    destruct (squfof_found f pf u64 fuel n (m * n) 40000 k ltac:(cbn; lia) ltac:(lia) ltac:(unfold u64; cbn [in_range]; change (2 ^ 64) with 18446744073709551616; lia) (Z.divide_factor_r _ _) C3 ltac:(lia) P) as [d [i [E _]]].
    exists m, d, i. split; [exact Hm' | exact E]. }
  unfold squfof_case. rewrite !M by lia. cbn [bind].
  destruct (R 1 ltac:(lia)) as [o1 [i1 E1]], (R 3 ltac:(lia)) as [o3 [i3 E3]], (R 5 ltac:(lia)) as [o5 [i5 E5]], (R 7 ltac:(lia)) as [o7 [i7 E7]], (R 11 ltac:(lia)) as [o11 [i11 E11]].
  pose proof E1 as E1'. rewrite Z.mul_1_l in E1'. rewrite E1', E3, E5, E7, E11. cbn [bind].
  destruct F as [m [d [i [Hm E]]]]. cbn [In] in Hm.
  destruct Hm as [<-|[<-|[<-|[<-|[<-|[]]]]]]; rewrite E in *;
    [injection E1 as <- _ | injection E3 as <- _ | injection E5 as <- _ | injection E7 as <- _ | injection E11 as <- _];
    repeat match goal with o : option Z |- _ => destruct o; cbn [or_else]; try (eexists; reflexivity) end; eexists; reflexivity.
Qed.
Example C66_case_squfof : exists d, squfof_case SmallTable Release (2 ^ 65) 1537228672809128917 = Ret (Some d).
Proof. apply C66_squfof_test; [lia | cbn; tauto]. Qed.

Print Assumptions C77_squfof.
Print Assumptions C77_more_passes.
Print Assumptions C77_any_type.
Print Assumptions C66_squfof_test.
