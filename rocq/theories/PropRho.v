(** * C72: how long Pollard's rho runs and when it finds a factor. *)
From Coq Require Import ZArith Znumtheory List Lia Bool.
From Verif Require Import Base Ext NT PBase MInteger Ops POps MFactor PFactor PRho PropFactor.
Import ListNotations.
Local Open Scope Z_scope.

(** The walk x -> x^2 + offset modulo the target. *)
Definition walk (n offset start k : Z) : Z := Nat.iter (Z.to_nat k) (fun x => (x * x + offset) mod n) start.

Lemma walk_add : forall (g : Z -> Z) a b x, Nat.iter (a + b) g x = Nat.iter a g (Nat.iter b g x).
Proof. intros g a b x. induction a as [|a IH]; [reflexivity|]. unfold Nat.iter in *. cbn [Nat.add nat_rect]. rewrite IH. reflexivity. Qed.
(** Without a factor before max_iter is used up, the walk has met itself modulo the target; in particular the
    second exit, "ultimately failed", is never taken (it would return without a meeting). *)
Theorem C72_none : forall f pf t n start offset max_iter i, valid_ity t -> in_range t n -> 2 <= n -> 0 <= start < n -> 0 <= max_iter <= 2 ^ 62 ->
  pollard_rho pf (uops f pf t) n start offset max_iter = Ret (None, i) -> i < max_iter ->
  exists u v, 0 <= u < v /\ v <= i /\ walk n offset start u = walk n offset start v.
Proof.
  intros f pf t n start c mi i Ht Hn H2 Hs Hmi E Hi. destruct (orbit_repeats n c start H2 Hs) as [u [v [Huv [Hv Ew]]]].
  destruct (rho_run n c start H2 Hs n u (v - u) ltac:(lia) (Z.divide_refl n) ltac:(lia) ltac:(lia) ltac:(replace (u + (v - u)) with v by lia; rewrite Ew, Z.sub_diag; apply Z.divide_0_r) f pf t mi Ht Hn Hmi) as [o [i' [E' [_ [H _]]]]].
  rewrite E in E'. injection E' as <- <-. exact (H eq_refl Hi).
Qed.
(** If the walk modulo a divisor d > 1 of the target has period l from step m on, the run is over after at most
    5 max(m + 128, l) + l passes. *)
Theorem C72_ends : forall f pf t n start offset max_iter d m l, valid_ity t -> in_range t n -> 2 <= n -> 0 <= start < n -> 0 <= max_iter <= 2 ^ 62 ->
  1 < d -> (d | n) -> 0 <= m -> 1 <= l -> (d | walk n offset start (m + l) - walk n offset start m) ->
  exists o i, pollard_rho pf (uops f pf t) n start offset max_iter = Ret (o, i) /\ (5 * Z.max (m + 128) l + l <= max_iter -> i <= 5 * Z.max (m + 128) l + l).
Proof.
  intros f pf t n start c mi d m l Ht Hn H2 Hs Hmi Hd Dn Hm Hl Hc. destruct (rho_run n c start H2 Hs d m l Hd Dn Hm Hl Hc f pf t mi Ht Hn Hmi) as [o [i [E [_ [_ H]]]]].
  exists o, i. split; [exact E|]. intros K. apply H. exact K.
Qed.
(** Completeness: if moreover the last value of the walk within that many steps is new modulo the target (so the
    walk has not met itself there), a factor is found. *)
Theorem C72_finds : forall f pf t n start offset max_iter d m l, valid_ity t -> in_range t n -> 2 <= n -> 0 <= start < n -> max_iter <= 2 ^ 62 ->
  1 < d -> (d | n) -> 0 <= m -> 1 <= l -> (d | walk n offset start (m + l) - walk n offset start m) ->
  let k := 5 * Z.max (m + 128) l + l in k <= max_iter -> (forall u, 0 <= u < k -> walk n offset start u <> walk n offset start k) ->
  exists g i, pollard_rho pf (uops f pf t) n start offset max_iter = Ret (Some g, i) /\ i <= k /\ 1 < g < n /\ (g | n).
Proof.
  intros f pf t n start c mi d m l Ht Hn H2 Hs Hmi Hd Dn Hm Hl Hc k Hk Hnew. destruct (rho_run n c start H2 Hs d m l Hd Dn Hm Hl Hc f pf t mi Ht Hn ltac:(lia)) as [o [i [E [Bi [_ H]]]]]. specialize (H Hk). destruct H as [Hi HC].
  destruct o as [g|].
  - exists g, i. split; [exact E|]. split; [exact Hi|]. destruct (C25_pollard_rho f pf t n start c mi Ht Hn ltac:(lia) ltac:(eapply in_range_le; [|exact Hn]; lia) ltac:(lia)) as [o [i' [E' [_ G]]]]. rewrite E in E'. injection E' as <- <-. specialize (G g eq_refl). lia || (split; [lia | apply G]).
  - exfalso. destruct (HC eq_refl) as [u [v [Huv [Hv Ew]]]]. apply (Hnew (u + (k - v)) ltac:(lia)). unfold walk. replace (Z.to_nat (u + (k - v))) with (Z.to_nat (k - v) + Z.to_nat u)%nat by lia.
    replace (Z.to_nat k) with (Z.to_nat (k - v) + Z.to_nat v)%nat by lia. rewrite !walk_add. rewrite Ew. reflexivity.
Qed.
(** In any case a larger max_iter than 6 n + 640 is of no use. *)
Theorem C72_bound : forall f pf t n start offset max_iter, valid_ity t -> in_range t n -> 2 <= n -> 0 <= start < n -> 0 <= max_iter <= 2 ^ 62 ->
  exists o i, pollard_rho pf (uops f pf t) n start offset max_iter = Ret (o, i) /\ i <= 6 * n + 640.
Proof.
  intros f pf t n start c mi Ht Hn H2 Hs Hmi. destruct (orbit_repeats n c start H2 Hs) as [u [v [Huv [Hv Ew]]]].
  destruct (rho_run n c start H2 Hs n u (v - u) ltac:(lia) (Z.divide_refl n) ltac:(lia) ltac:(lia) ltac:(replace (u + (v - u)) with v by lia; rewrite Ew, Z.sub_diag; apply Z.divide_0_r) f pf t mi Ht Hn Hmi) as [o [i [E [Bi [_ H]]]]].
  exists o, i. split; [exact E|]. destruct (Z.le_gt_cases (5 * Z.max (u + 128) (v - u) + (v - u)) mi) as [C|C]; [specialize (H C); lia | lia].
Qed.
(** A factor can be missed: the differences are only looked at in batches, and a run that meets itself within the
    batch returns nothing although one of them shares the factor 3 with the target 15. *)
Theorem C72_missed_refuted : forall f pf, pollard_rho pf (uops f pf u64) 15 0 4 1000 = Ret (None, 4) /\ Z.gcd (walk 15 4 0 3 - walk 15 4 0 2) 15 = 3.
Proof. destruct f, pf; vm_compute; split; reflexivity. Qed.

Lemma iter_S : forall (A : Type) (g : A -> A) k x, Nat.iter (S k) g x = g (Nat.iter k g x).
Proof. reflexivity. Qed.
(** 101 * 1000003 with start 2 and offset 1: modulo 101 the walk has period 9 from step 8 on, and step 689 is new. *)
Example C72_case : (forall f pf, pollard_rho pf (uops f pf u64) (101 * 1000003) 2 1 1000 = Ret (Some 101, 32)) /\
  (101 | walk (101 * 1000003) 1 2 (8 + 9) - walk (101 * 1000003) 1 2 8) /\ 5 * Z.max (8 + 128) 9 + 9 = 689 /\
  (forall u, 0 <= u < 689 -> walk (101 * 1000003) 1 2 u <> walk (101 * 1000003) 1 2 689).
Proof.
  split; [destruct f, pf; vm_compute; reflexivity|]. split; [apply Z.mod_divide; [lia | vm_compute; reflexivity]|]. split; [reflexivity|].
  assert (Ew : walk (101 * 1000003) 1 2 689 = 90021271) by (vm_compute; reflexivity). rewrite Ew. clear Ew.
  assert (E : fst (Nat.iter 689 (fun '(ok, x) => (ok && negb (x =? 90021271), (x * x + 1) mod (101 * 1000003))) (true, 2)) = true) by (vm_compute; reflexivity).
  assert (G : forall k, fst (Nat.iter k (fun '(ok, x) => (ok && negb (x =? 90021271), (x * x + 1) mod (101 * 1000003))) (true, 2)) = true ->
    snd (Nat.iter k (fun '(ok, x) => (ok && negb (x =? 90021271), (x * x + 1) mod (101 * 1000003))) (true, 2)) = Nat.iter k (fun x => (x * x + 1) mod (101 * 1000003)) 2 /\
    forall j, (j < k)%nat -> Nat.iter j (fun x => (x * x + 1) mod (101 * 1000003)) 2 <> 90021271).
  { induction k as [|k IH]; [intros _; split; [reflexivity | intros j Hj; lia]|]. rewrite !iter_S. destruct (Nat.iter k (fun '(ok, x) => (ok && negb (x =? 90021271), (x * x + 1) mod (101 * 1000003))) (true, 2)) as [ok x].
    cbn [fst snd] in *. intros H. apply andb_true_iff in H. destruct H as [H1 H2]. destruct (IH H1) as [I1 I2]. split; [rewrite I1; reflexivity|]. intros j Hj. destruct (Nat.eq_dec j k) as [->|]; [|apply I2; lia].
    rewrite <- I1. apply negb_true_iff, Z.eqb_neq in H2. exact H2. }
  destruct (G 689%nat E) as [_ K]. intros u Hu. unfold walk. apply K. lia.
Qed.

Print Assumptions C72_none.
Print Assumptions C72_ends.
Print Assumptions C72_finds.
Print Assumptions C72_bound.
Print Assumptions C72_missed_refuted.
