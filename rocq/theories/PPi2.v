(** * nth_prime, prime_phi, prime_pi: the recursion closed, and termination. *)
From Coq Require Import ZArith Znumtheory List Lia Bool Sorted.
From Verif Require Import Base Tables Spec Ext NT PBase PTables MInteger PInteger MSieve MIsPrime PSieve PBuffer PIsPrime NTPhi MPi PPi.
Import ListNotations.
Local Open Scope Z_scope.

Section Pi2.
Variables (f : feature) (pf : profile) (bounds : Z -> option (Z * Z)) (est : Z -> res (option Z)) (fuel_next fuel_walk : Z).
Hypothesis (Hfn : 2 ^ 64 <= fuel_next).
Hypothesis (Hfw : 2 ^ 64 <= fuel_walk).
Notation PIs := (PIs f pf bounds est fuel_next fuel_walk).
Notation NTHs := (NTHs f pf bounds est fuel_next fuel_walk).
Notation PHIs := (PHIs f pf bounds est fuel_next fuel_walk).
Notation nth_ok := (nth_ok f bounds est).

(** the first N primes can be found, and the search for them stays among those *)
Variable N : Z.
Definition reach : Prop := forall n, 1 <= n <= N -> nth_ok n /\ (forall e, 4096 < n -> est n = Ret (Some e) -> prime_count (Z.sqrt e) <= N).
Hypothesis (HN : reach).

Lemma pc_sqrt_mono : forall x y, 0 <= x <= y -> prime_count (Z.sqrt x) <= prime_count (Z.sqrt y).
Proof. intros x y H. apply pc_mono, Z.sqrt_le_mono. lia. Qed.
Lemma est_range : forall n e, nth_ok n -> 4096 < n -> est n = Ret (Some e) -> 3 <= e < 2 ^ 64.
Proof. intros n e [_ H] Hn E. destruct (H Hn) as [e' [p [a [E' [B _]]]]]. rewrite E in E'. injection E' as <-. exact B. Qed.
Lemma root4 : forall x, 38873 < x -> 1 <= prime_count (Z.sqrt (Z.sqrt x)) <= prime_count (Z.sqrt x).
Proof.
  intros x Hx. assert (197 <= Z.sqrt x) by (apply Z.sqrt_le_square; lia). assert (14 <= Z.sqrt (Z.sqrt x)) by (apply Z.sqrt_le_square; lia). split.
  - pose proof (pc_mono 2 (Z.sqrt (Z.sqrt x)) ltac:(lia)) as M. rewrite pc_2 in M. exact M.
  - apply pc_mono, Z.sqrt_le_lin. lia.
Qed.
Lemma pc_sqrt64 : forall x, 0 <= x < 2 ^ 64 -> prime_count (Z.sqrt x) < 2 ^ 32.
Proof.
  intros x Hx. pose proof (Z.sqrt_nonneg x). pose proof (pc_lt_self (Z.sqrt x) ltac:(lia)). assert (Z.sqrt x < 2 ^ 32) by (apply Z.sqrt_lt_square; lia). lia.
Qed.

(** ** Partial correctness for any fuel *)
Theorem all_partial : forall k,
  (forall limit, 0 <= limit < 2 ^ 64 - 1 -> prime_count (Z.sqrt limit) <= N -> PIs True k limit) /\
  (forall n, 1 <= n <= N -> NTHs True k n) /\
  (forall x a, 0 <= x < 2 ^ 64 - 1 -> 1 <= a <= N -> a < 2 ^ 64 -> PHIs True k x a).
Proof.
  induction k as [|k [IHpi [IHnth IHphi]]].
  { split; [|split]; [intros limit _ _ b Hb | intros n _ b Hb | intros x a _ _ _ b cap c Hb Hc]; exact I. }
  split; [|split].
  - intros limit Hl HlN b Hb. destruct (Z.le_gt_cases limit 38873) as [L|L].
    + destruct (pi_small f pf bounds est fuel_next fuel_walk k limit b Hb ltac:(lia) ltac:(left; exact L)) as [b' [-> Hb']]. cbn [run]. auto.
    + pose proof (root4 limit L) as Hr. apply pi_step; auto; try lia.
      * intros l Hl'. apply IHpi; [lia|]. pose proof (pc_sqrt_mono l limit ltac:(lia)). lia.
      * intros i Hi. apply IHnth. lia.
      * apply IHphi; [lia | lia|]. pose proof (pc_sqrt64 limit ltac:(lia)). lia.
  - intros n Hn. destruct (HN n Hn) as [Hok He]. apply nth_step; auto; try lia.
    intros e x Hn2 E Hx. pose proof (est_range n e Hok Hn2 E). specialize (He e Hn2 E). apply IHpi; [lia|]. pose proof (pc_sqrt_mono x e ltac:(lia)). lia.
  - intros x a Hx Ha Ha2. destruct (Z.eq_dec a 1) as [->|N1]; [apply phi_step_1; exact Hx|].
    apply phi_step; auto; try lia. intros y Hy. apply IHphi; lia.
Qed.

(** ** Termination: enough fuel exists when the estimate for the n-th prime is at most n^2 *)
Hypothesis (Hsq : forall n e, 4096 < n <= N -> est n = Ret (Some e) -> e <= n * n).

Lemma all_total : forall L : nat, exists k0, forall k, (k0 <= k)%nat ->
  forall limit, 0 <= limit <= Z.of_nat L -> limit < 2 ^ 64 - 1 -> prime_count (Z.sqrt limit) <= N -> PIs False k limit.
Proof.
  induction L as [|L [k0 IH]].
  - exists 1%nat. intros k Hk limit Hl _ _ b Hb. destruct k as [|k]; [lia|].
    destruct (pi_small f pf bounds est fuel_next fuel_walk k limit b Hb ltac:(lia) ltac:(left; lia)) as [b' [-> Hb']]. cbn [run]. auto.
  - set (x := Z.of_nat (S L)). exists (k0 + Z.to_nat (prime_count (Z.sqrt (Z.sqrt x))) + 3)%nat. intros k Hk limit Hl H64 HlN.
    destruct (Z.eq_dec limit x) as [->|Nx]; [|apply IH; lia]. intros b Hb. destruct k as [|k]; [lia|].
    destruct (Z.le_gt_cases x 38873) as [L1|L1].
    { destruct (pi_small f pf bounds est fuel_next fuel_walk k x b Hb ltac:(lia) ltac:(left; exact L1)) as [b' [-> Hb']]. cbn [run]. auto. }
    pose proof (root4 x L1) as Hr.
    assert (Hnth : forall k i, (k0 + 1 <= k)%nat -> 1 <= i <= prime_count (Z.sqrt x) -> NTHs False k i).
    { intros k' i Hk' Hi. destruct k' as [|k']; [lia|]. destruct (HN i ltac:(lia)) as [Hok He]. apply nth_step; auto; try lia.
      intros e y Hn2 E Hy. pose proof (est_range i e Hok Hn2 E). specialize (He e Hn2 E). specialize (Hsq i e ltac:(lia) E).
      assert (e <= x). { pose proof (Z.sqrt_spec x ltac:(lia)) as Hs. cbv zeta in Hs. pose proof (pc_lt_self (Z.sqrt x) (Z.sqrt_nonneg x)). pose proof (sq_le i (Z.sqrt x) ltac:(lia)). lia. }
      apply IH; [lia | lia | lia|]. pose proof (pc_sqrt_mono y e ltac:(lia)). lia. }
    assert (Hphi : forall (a : nat) k y, (k0 + a + 2 <= k)%nat -> 1 <= Z.of_nat a <= prime_count (Z.sqrt x) -> 0 <= y <= x -> PHIs False k y (Z.of_nat a)).
    { induction a as [|a IHa]; intros k' y Hk' Ha Hy; [lia|]. destruct k' as [|k']; [lia|]. destruct (Z.eq_dec (Z.of_nat (S a)) 1) as [E1|N1]; [rewrite E1; apply phi_step_1; lia|].
      pose proof (pc_sqrt64 x ltac:(lia)). apply phi_step; try lia; [apply Hnth; lia|]. intros z Hz. replace (Z.of_nat (S a) - 1) with (Z.of_nat a) by lia. apply IHa; lia. }
    apply pi_step; auto; try lia.
    + intros l Hl'. apply IH; [lia | lia | lia|]. pose proof (pc_sqrt_mono l x ltac:(lia)). lia.
    + intros i Hi. apply Hnth; lia.
    + rewrite <- (Z2Nat.id (prime_count (Z.sqrt (Z.sqrt x)))) by lia. apply Hphi; lia.
Qed.
Theorem pi_total : forall limit, 0 <= limit < 2 ^ 64 - 1 -> prime_count (Z.sqrt limit) <= N -> exists k0, forall k, (k0 <= k)%nat -> PIs False k limit.
Proof.
  intros limit Hl HlN. destruct (all_total (Z.to_nat limit)) as [k0 H]. exists k0. intros k Hk. apply H; lia.
Qed.
(** one index, also beyond N *)
Theorem nth_total_at : forall n, 1 <= n -> nth_ok n -> (forall e, 4096 < n -> est n = Ret (Some e) -> prime_count (Z.sqrt e) <= N) -> exists k0, forall k, (k0 <= k)%nat -> NTHs False k n.
Proof.
  intros n Hn Hok He.
  destruct (Z.le_gt_cases n 4096) as [L|L].
  - exists 1%nat. intros k Hk. destruct k as [|k]; [lia|]. apply nth_step; auto; lia.
  - destruct (proj2 Hok L) as [e [p [a [E [Be _]]]]]. destruct (all_total (Z.to_nat e)) as [k0 H]. exists (S k0). intros k Hk. destruct k as [|k]; [lia|].
    apply nth_step; auto; try lia. intros e' y Hn2 E' Hy. rewrite E in E'. injection E' as <-. specialize (He e L E). apply H; [lia | lia | lia|]. pose proof (pc_sqrt_mono y e ltac:(lia)). lia.
Qed.
Theorem nth_total : forall n, 1 <= n <= N -> exists k0, forall k, (k0 <= k)%nat -> NTHs False k n.
Proof. intros n Hn. destruct (HN n Hn) as [Hok He]. apply nth_total_at; [lia | exact Hok | exact He]. Qed.
Theorem phi_total : forall x a, 0 <= x < 2 ^ 64 - 1 -> 1 <= a <= N -> a < 2 ^ 64 -> exists k0, forall k, (k0 <= k)%nat -> PHIs False k x a.
Proof.
  intros x a Hx Ha Ha2. assert (G : forall m : nat, Z.of_nat m < a -> exists k0, forall k y, (k0 <= k)%nat -> 0 <= y <= x -> PHIs False k y (Z.of_nat m + 1)).
  { induction m as [|m IH]; intros Hm.
    - exists 1%nat. intros k y Hk Hy. destruct k as [|k]; [lia|]. apply phi_step_1. lia.
    - destruct (IH ltac:(lia)) as [k1 H1]. destruct (nth_total (Z.of_nat (S m) + 1) ltac:(lia)) as [k2 H2]. exists (S (k1 + k2)). intros k y Hk Hy. destruct k as [|k]; [lia|].
      apply phi_step; try lia; [apply H2; lia|]. intros z Hz. replace (Z.of_nat (S m) + 1 - 1) with (Z.of_nat m + 1) by lia. apply H1; lia. }
  destruct (G (Z.to_nat (a - 1)) ltac:(lia)) as [k0 H]. exists k0. intros k Hk. specialize (H k x Hk ltac:(lia)). replace (Z.of_nat (Z.to_nat (a - 1)) + 1) with a in H by lia. exact H.
Qed.
End Pi2.

(** ** Overflow at the top *)
Section Overflow.
Variables (f : feature) (bounds : Z -> option (Z * Z)) (est : Z -> res (option Z)) (fuel_next fuel_walk : Z).
Notation prime_phi := (prime_phi f Debug bounds est fuel_next fuel_walk).
Definition no_value {A} (m : res A) : Prop := m = Panic \/ m = NoFuel.

Lemma phi_overflow : forall k b a cap cache, (forall a' v, ~ In ((2 ^ 64 - 1, a'), v) cache) -> no_value (prime_phi k b (2 ^ 64 - 1) a cap cache).
Proof.
  induction k as [|k IH]; intros b a cap cache Hc; cbn [MPi.prime_phi]; [right; reflexivity|].
  destruct (Z.eqb_spec a 1) as [->|N1].
  - unfold add_. rewrite wrapz_debug by (rngs; lia). left. reflexivity.
  - unfold lru_get. destruct (lru_find cache (2 ^ 64 - 1, a)) as [v|] eqn:Ef.
    { exfalso. apply lru_find_in in Ef. exact (Hc _ _ Ef). }
    destruct (sub_ Debug usize a 1) as [a1| |]; cbn [bind]; [|left; reflexivity | right; reflexivity].
    destruct (IH b a1 cap cache Hc) as [E|E]; rewrite E; [left | right]; reflexivity.
Qed.
Lemma no_value_bind : forall A B (m : res A) (g : A -> res B), (forall x, no_value (g x)) -> no_value (bind m g).
Proof. intros A B m g H. destruct m; cbn [bind]; [apply H | left; reflexivity | right; reflexivity]. Qed.
Lemma no_value_bind_l : forall A B (m : res A) (g : A -> res B), no_value m -> no_value (bind m g).
Proof. intros A B m g [->| ->]; [left | right]; reflexivity. Qed.
Lemma pi_overflow : forall k b, inv b -> no_value (prime_pi f Debug bounds est fuel_next fuel_walk k b (2 ^ 64 - 1)).
Proof.
  intros k b [Hb Hn]. destruct k as [|k]; cbn [prime_pi]; [right; reflexivity|].
  destruct (buf_bound_spec b Hb) as [B [EB [HBp [HBn HBm]]]]. rewrite EB. cbn [bind].
  destruct (Z.leb_spec (2 ^ 64 - 1) B) as [L|L]; [lia|]. destruct (Z.leb_spec (2 ^ 64 - 1) 38873) as [L'|L']; [lia|]. cbn [orb].
  apply no_value_bind. intros b1. apply no_value_bind. intros [a b2]. apply no_value_bind. intros [bb b3]. apply no_value_bind. intros [c b4].
  destruct (a =? 0); [left; reflexivity|]. apply no_value_bind_l. apply phi_overflow. intros a' v [].
Qed.
End Overflow.

(** ** prime_pi_bounds, nth_prime_bounds, the estimates *)
Lemma pi_bounds_table : forall f t fl x, valid_ity t -> in_range t x -> x <= last (SMALL_PRIMES f) 0 -> prime_pi_bounds f t fl x = Ret (prime_count x, prime_count x).
Proof.
  intros f t fl x Ht Hx L. unfold prime_pi_bounds. replace (x <=? last (SMALL_PRIMES f) 0) with true by (symmetry; apply Z.leb_le; exact L).
  assert (E : last (SMALL_PRIMES f) 0 < SMALL_PRIMES_NEXT f) by (destruct f; vm_compute; reflexivity).
  rewrite (upto_count _ (SMALL_PRIMES_NEXT f)); [|apply small_primes_list | lia].
  assert (H0 : 0 <= x) by (destruct t; cbn [in_range] in Hx; lia). pose proof (pc_lt_self x H0). pose proof (pc_nonneg x).
  rewrite from_prim_ok; [reflexivity|]. destruct t; cbn [in_range] in *; lia.
Qed.
Lemma nth_bounds_table : forall f t fl n p, 1 <= n <= Z.of_nat (length (SMALL_PRIMES f)) -> nth_prime_is n p ->
  (in_range t p -> nth_prime_bounds f t fl n = Ret (Some (p, p))) /\ (~ in_range t p -> nth_prime_bounds f t fl n = Panic).
Proof.
  intros f t fl n p Hn Hp. destruct (nth_prime_bounds_table f t fl n Hn) as [q [Hq [_ E]]]. pose proof (nth_prime_unique n p q Hp Hq) as <-. rewrite E. split.
  - intros Hr. rewrite from_prim_ok by exact Hr. reflexivity.
  - intros Hr. destruct (from_prim t p) as [c|] eqn:Ec; [|reflexivity]. apply from_prim_inv in Ec. exfalso. apply Hr. destruct Ec as [_ Ec]. exact Ec.
Qed.
Lemma pi_est_table : forall f pf t fl fl2 x, valid_ity t -> in_range t x -> x <= last (SMALL_PRIMES f) 0 -> (f = SmallTable -> in_range t (2 * prime_count x)) ->
  prime_pi_est f pf t fl fl2 x = Ret (prime_count x).
Proof.
  intros f pf t fl fl2 x Ht Hx L H2. assert (H0 : 0 <= x) by (destruct t; cbn [in_range] in Hx; lia). pose proof (pc_lt_self x H0). pose proof (pc_nonneg x). unfold prime_pi_est. destruct f.
  - replace (x <=? last (SMALL_PRIMES BigTable) 0) with true by (symmetry; apply Z.leb_le; exact L).
    assert (last (SMALL_PRIMES BigTable) 0 = 8161) by (vm_compute; reflexivity).
    rewrite pi_bounds_table; [|cbn; lia | rng | exact L]. cbn [bind]. rewrite from_prim_ok; [reflexivity|]. destruct t; cbn [in_range] in *; lia.
  - rewrite pi_bounds_table by assumption. cbn [bind]. rewrite add_ok by (replace (prime_count x + prime_count x) with (2 * prime_count x) by lia; auto). cbn [bind].
    rewrite div_ok by lia. f_equal. replace (prime_count x + prime_count x) with (prime_count x * 2) by lia. apply Z.div_mul. lia.
Qed.

Lemma nth_est_bracket : forall f pf t fuel bounds pi_est target lo hi, nth_prime_bounds f t bounds target = Ret (Some (lo, hi)) ->
  0 <= lo <= hi -> in_range t (2 * hi) -> (forall x, lo <= x <= hi -> exists v, pi_est x = Ret v) -> hi - lo < fuel ->
  exists r, nth_prime_est f pf t fuel bounds pi_est target = Ret (Some r) /\ lo <= r <= hi.
Proof.
  intros f pf t fuel bounds pi_est target lo hi Hb Hle Hs Hest Hf. unfold nth_prime_est. rewrite Hb. cbn [bind]. destruct (Z.eqb_spec lo hi) as [<-|Ne]; [exists lo; split; [reflexivity | lia]|].
  assert (R : run False False (fun o => exists r, o = Some r /\ lo <= r <= hi) (loop fuel (fun '(lo, hi) =>
          hi1 <- sub_ pf t hi 1 ;;
          if lo =? hi1 then Ret (Done (Some lo))
          else
            s <- add_ pf t lo hi ;; x <- div_ s 2 ;;
            mid <- pi_est x ;;
            if mid <? target then Ret (Next (x, hi))
            else if target <? mid then Ret (Next (lo, x))
            else Ret (Done (Some x))) (lo, hi))).
  { apply (run_loop_measure _ _ False False (fun '(l, h) => lo <= l /\ l < h /\ h <= hi) (fun o => exists r, o = Some r /\ lo <= r <= hi) (fun '(l, h) => h - l)); [lia | lia |].
    intros [l h] [H1 [H2 H3]].
    rewrite sub_ok by (destruct t; cbn [in_range] in *; lia). cbn [bind]. destruct (Z.eqb_spec l (h - 1)) as [E|E]; [cbn [run]; exists l; split; [reflexivity | lia]|].
    rewrite add_ok by (destruct t; cbn [in_range] in *; lia). cbn [bind]. rewrite div_ok by lia. cbn [bind].
    pose proof (Z.div_mod (l + h) 2 ltac:(lia)). pose proof (Z.mod_pos_bound (l + h) 2 ltac:(lia)).
    destruct (Hest ((l + h) / 2) ltac:(lia)) as [v ->]. cbn [bind]. destruct (v <? target); [cbn [run]; lia|]. destruct (target <? v); [cbn [run]; lia|]. cbn [run]. exists ((l + h) / 2). split; [reflexivity | lia]. }
  apply run_total in R. destruct R as [o [E [r [-> Hr]]]]. exists r. split; [exact E | exact Hr].
Qed.
