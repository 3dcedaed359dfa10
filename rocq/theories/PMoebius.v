(** * Proofs about moebius_factorized, moebius and is_square_free (src/nt_funcs.rs:577-636). *)
From Coq Require Import ZArith Znumtheory List Lia Bool Sorted.
From Verif Require Import Base Tables Spec Ext NT PBase PTables MInteger PInteger Ops POps MPrimality MTraits PSprp PropSprp MFactor MSieve MIsPrime NTLucas NTResidue PLucas PLucas2 PLucas3 PropMint PIsPrime PIsPrime2 MFactorize PFactor PFactor2 PFactorize PFactorize2 PFactorize3 PFactorize4.
Import ListNotations.
Local Open Scope Z_scope.

(** ** The number of prime divisors *)
Lemma count_list : forall P n, exists l, NoDup l /\ (forall x, In x l <-> 1 <= x <= Z.of_nat n /\ P x = true) /\ Z.of_nat (length l) = count P n.
Proof.
  intros P. induction n as [|n [l [N [H E]]]]; [exists []; split; [constructor|]; split; [intros x; split; [intros [] | lia] | reflexivity]|].
  cbn [count]. destruct (P (Z.of_nat (S n))) eqn:EP.
  - exists (Z.of_nat (S n) :: l). split; [constructor; [|exact N]; intros C; apply H in C; lia|]. split.
    + intros x. cbn [In]. rewrite H. split; [intros [<-|[A B]]; [split; [lia | exact EP] | split; [lia | exact B]]|].
      intros [A B]. destruct (Z.eq_dec x (Z.of_nat (S n))) as [->|D]; [left; reflexivity | right; split; [lia | exact B]].
    + cbn [length]. lia.
  - exists l. split; [exact N|]. split; [|lia]. intros x. rewrite H. split; [intros [A B]; split; [lia | exact B]|].
    intros [A B]. split; [|exact B]. destruct (Z.eq_dec x (Z.of_nat (S n))) as [->|D]; [congruence | lia].
Qed.
Lemma nodup_same_length : forall (l l' : list Z), NoDup l -> NoDup l' -> (forall x, In x l <-> In x l') -> length l = length l'.
Proof. intros l l' N N' H. apply Nat.le_antisymm; apply NoDup_incl_length; try assumption; intros x Hx; apply H, Hx. Qed.
Lemma sorted_nodup : forall l, StronglySorted Z.lt l -> NoDup l.
Proof.
  induction l as [|x l IH]; intros H; [constructor|]. inversion H as [|a b Hs Hf]; subst. constructor; [|apply IH, Hs]. intros C. rewrite Forall_forall in Hf. specialize (Hf x C). lia.
Qed.
(** a list of the prime divisors has [omega n] elements *)
Lemma omega_list : forall n l, 1 <= n -> NoDup l -> (forall p, In p l <-> prime p /\ (p | n)) -> omega n = Z.of_nat (length l).
Proof.
  intros n l Hn N H. unfold omega. destruct (count_list (fun q => primeb q && (n mod q =? 0)) (Z.to_nat n)) as [l' [N' [H' <-]]]. f_equal. apply nodup_same_length; try assumption.
  intros x. rewrite H, H', Z2Nat.id by lia. split.
  - intros [Hx B]. apply andb_true_iff in B. destruct B as [B1 B2]. apply Z.eqb_eq in B2. split; [apply primeb_spec, B1 | apply Z.mod_divide; [lia | exact B2]].
  - intros [Px D]. pose proof (prime_ge2 x Px). pose proof (Z.divide_pos_le x n ltac:(lia) D). split; [lia|]. apply andb_true_iff. split; [apply primeb_spec, Px|]. apply Z.eqb_eq, Z.mod_divide; [lia | exact D].
Qed.
Lemma omega_factorization : forall n m, 1 <= n -> prime_factorization n m -> omega n = Z.of_nat (length m).
Proof.
  intros n m Hn [[S E] [P F]]. rewrite (omega_list n (map fst m)); [rewrite map_length; reflexivity | exact Hn | apply sorted_nodup, S|].
  intros p. split.
  - intros Hp. apply in_map_iff in Hp. destruct Hp as [[q e] [<- Hin]]. cbn [fst]. rewrite Forall_forall in P, E. split; [exact (P _ Hin)|]. rewrite <- F. clear F Hn. specialize (E _ Hin). cbn [snd] in E.
    clear S P. induction m as [|[a b] m IH]; [destruct Hin|]. cbn [prod_powers]. destruct Hin as [Eq|Hin]; [injection Eq as -> ->; apply Z.divide_mul_l; exists (q ^ (e - 1)); replace e with (e - 1 + 1) at 1 by lia; rewrite Z.pow_add_r, Z.pow_1_r by lia; reflexivity|].
    apply Z.divide_mul_r, IH, Hin.
  - intros [Pp D]. rewrite <- F in D. apply (prime_divides_map m p); assumption.
Qed.

(** ** Squares *)
Lemma square_free_prime : forall n, (forall p, prime p -> ~ (p * p | n)) -> square_free n.
Proof.
  intros n H d Hd D. destruct (prime_divisor_exists d ltac:(lia)) as [p [Pp Dp]]. apply (H p Pp). eapply Z.divide_trans; [|exact D]. apply Z.mul_divide_mono_l with (p := p) in Dp as D1. 
  eapply Z.divide_trans; [exact D1|]. apply Z.mul_divide_mono_r. exact Dp.
Qed.
Lemma square_in_map : forall m p, prime p -> wf_map m -> Forall (fun pe => prime (fst pe)) m -> ((p * p | prod_powers m)) -> exists e, In (p, e) m /\ 1 < e.
Proof.
  induction m as [|[q e] m IH]; intros p Pp W P D.
  - exfalso. cbn [prod_powers] in D. pose proof (prime_ge2 p Pp). apply Z.divide_pos_le in D; [nia | lia].
  - cbn [prod_powers] in D. pose proof (wf_map_tail _ _ W) as W'. inversion P as [|a b Pq P']; subst a b. cbn [fst] in Pq. destruct (Z.eq_dec p q) as [<-|Nq].
    + pose proof (not_key_not_div p e m Pp W P') as Nd. exists e. split; [left; reflexivity|]. destruct W as [_ E]. inversion E as [|a b E1 _]; subst a b. cbn [snd] in E1.
      destruct (Z.eq_dec e 1) as [->|]; [|lia]. exfalso. rewrite Z.pow_1_r in D. pose proof (prime_ge2 p Pp). apply Z.mul_divide_cancel_l in D; [|lia]. contradiction.
    + destruct (IH p Pp W' P') as [x [Hx1 Hx2]]; [|exists x; split; [right; exact Hx1 | exact Hx2]].
      apply (Gauss (p * p) (q ^ e) (prod_powers m) D). destruct W as [_ E]. inversion E as [|a b E1 _]; subst a b. cbn [snd] in E1.
      apply rel_prime_sym, rel_prime_mult; apply rel_prime_sym.
      * apply prime_rel_prime; [exact Pp|]. intros C. apply prime_div_pow in C; [|exact Pp | lia]. apply prime_div_prime in C; [lia | exact Pp | exact Pq].
      * apply prime_rel_prime; [exact Pp|]. intros C. apply prime_div_pow in C; [|exact Pp | lia]. apply prime_div_prime in C; [lia | exact Pp | exact Pq].
Qed.
Lemma square_free_factorization : forall n m, 1 <= n -> prime_factorization n m -> (square_free n <-> forall p e, In (p, e) m -> e = 1).
Proof.
  intros n m Hn [W [P F]]. split.
  - intros S p e Hin. destruct W as [Ws We]. rewrite Forall_forall in We, P. specialize (We _ Hin). specialize (P _ Hin). cbn [fst snd] in *. destruct (Z.eq_dec e 1) as [|Ne]; [assumption|]. exfalso.
    apply (S p); [pose proof (prime_ge2 p P); lia|]. rewrite <- F. clear - Hin We Ne. induction m as [|[a b] m IH]; [destruct Hin|]. cbn [prod_powers].
    destruct Hin as [Eq|Hin]; [injection Eq as -> ->; apply Z.divide_mul_l; exists (p ^ (e - 2)); replace e with (e - 2 + 2) at 1 by lia; rewrite Z.pow_add_r by lia; ring | apply Z.divide_mul_r, IH, Hin].
  - intros H. apply square_free_prime. intros p Pp D. rewrite <- F in D. destruct (square_in_map m p Pp W P D) as [e [Hin He]]. specialize (H p e Hin). lia.
Qed.

Lemma neg1_pow_even : forall k, 0 <= k -> (-1) ^ k = if k mod 2 =? 0 then 1 else -1.
Proof.
  intros k Hk. pose proof (Z.div_mod k 2 ltac:(lia)) as E. pose proof (Z.mod_pos_bound k 2 ltac:(lia)) as B. rewrite E at 1. rewrite Z.pow_add_r, Z.pow_mul_r by (try apply Z.div_pos; lia).
  replace ((-1) ^ 2) with 1 by reflexivity. rewrite Z.pow_1_l by (apply Z.div_pos; lia). destruct (Z.eqb_spec (k mod 2) 0) as [->|N]; [reflexivity|]. replace (k mod 2) with 1 by lia. reflexivity.
Qed.

Theorem moebius_factorized_spec : forall n m, 1 <= n -> prime_factorization n m -> moebius_is n (moebius_factorized m).
Proof.
  intros n m Hn F. pose proof (omega_factorization n m Hn F) as O. pose proof (square_free_factorization n m Hn F) as S. unfold moebius_factorized.
  destruct (existsb (fun pe => 1 <? snd pe) m) eqn:Ex.
  - right. split; [|reflexivity]. intros C. apply existsb_exists in Ex. destruct Ex as [[p e] [Hin He]]. cbn [snd] in He. apply Z.ltb_lt in He. rewrite (proj1 S C p e Hin) in He. lia.
  - left. split.
    + apply S. intros p e Hin. destruct F as [[_ E] _]. rewrite Forall_forall in E. specialize (E _ Hin). cbn [snd] in E. destruct (Z.eq_dec e 1) as [|Ne]; [assumption|]. exfalso.
      assert (existsb (fun pe => 1 <? snd pe) m = true) by (apply existsb_exists; exists (p, e); split; [exact Hin | apply Z.ltb_lt; cbn [snd]; lia]). congruence.
    + rewrite O, neg1_pow_even by lia. reflexivity.
Qed.

Lemma moebius_is_unique : forall n v v', moebius_is n v -> moebius_is n v' -> v = v'.
Proof. intros n v v' [[A ->]|[A ->]] [[B ->]|[B ->]]; try reflexivity; contradiction. Qed.

Lemma moebius_double : forall n v, 1 <= n -> Z.odd n = true -> moebius_is n v -> moebius_is (2 * n) (- v).
Proof.
  intros n v Hn Ho H. assert (N2 : ~ (2 | n)) by (intros [c C]; subst; rewrite Z.odd_mul, andb_false_r in Ho; discriminate).
  assert (S : square_free n <-> square_free (2 * n)).
  { split; intros S.
    - apply square_free_prime. intros p Pp D. destruct (Z.eq_dec p 2) as [->|Np].
      + apply Z.mul_divide_cancel_l in D; [contradiction | lia].
      + apply (S p); [pose proof (prime_ge2 p Pp); lia|]. apply (Gauss (p * p) 2 n D).
        assert (rel_prime 2 p) by (apply rel_prime_sym, prime_rel_prime; [exact Pp|]; intros C; apply prime_div_prime in C; [lia | exact Pp | apply prime_2]).
        apply rel_prime_sym, rel_prime_mult; assumption.
    - intros d Hd D. apply (S d Hd). apply Z.divide_mul_r, D. }
  destruct H as [[A ->]|[A ->]]; [left | right].
  - split; [apply S, A|]. destruct (count_list (fun q => primeb q && (n mod q =? 0)) (Z.to_nat n)) as [l [N [H _]]].
    assert (Hl : forall p, In p l <-> prime p /\ (p | n)).
    { intros p. rewrite H, Z2Nat.id by lia. split.
      - intros [_ B]. apply andb_true_iff in B. destruct B as [B1 B2]. apply Z.eqb_eq in B2. pose proof (proj1 (primeb_spec p) B1) as Pp. pose proof (prime_ge2 p Pp). split; [exact Pp | apply Z.mod_divide; [lia | exact B2]].
      - intros [Pp D]. pose proof (prime_ge2 p Pp). pose proof (Z.divide_pos_le p n ltac:(lia) D). split; [lia|]. apply andb_true_iff. split; [apply primeb_spec, Pp|]. apply Z.eqb_eq, Z.mod_divide; [lia | exact D]. }
    rewrite (omega_list n l Hn N Hl). rewrite (omega_list (2 * n) (2 :: l)).
    + cbn [length]. rewrite Nat2Z.inj_succ, Z.pow_succ_r by lia. ring.
    + lia.
    + constructor; [|exact N]. intros C. apply Hl in C. apply N2, C.
    + intros p. cbn [In]. rewrite Hl. split.
      * intros [<-|[Pp D]]; [split; [apply prime_2 | apply Z.divide_factor_l] | split; [exact Pp | apply Z.divide_mul_r, D]].
      * intros [Pp D]. apply prime_mult in D; [|exact Pp]. destruct D as [D|D]; [left; symmetry; apply prime_div_prime; [exact Pp | apply prime_2 | exact D] | right; auto].
  - split; [intros C; apply A, S, C | reflexivity].
Qed.

(** ** The table of odd numbers up to 255 *)
Definition moebius_brute (n : Z) : Z :=
  if forallb (fun d => negb (n mod (Z.of_nat d * Z.of_nat d) =? 0)) (seq 2 14) then (-1) ^ omega n else 0.
Lemma moebius_brute_spec : forall n, 1 <= n < 256 -> moebius_is n (moebius_brute n).
Proof.
  intros n Hn. unfold moebius_brute. destruct (forallb _ (seq 2 14)) eqn:E; [left | right]; (split; [|reflexivity]).
  - intros d Hd D. pose proof (Z.divide_pos_le (d * d) n ltac:(lia) D) as L. assert (d < 16) by nia. rewrite forallb_forall in E. specialize (E (Z.to_nat d)). rewrite Z2Nat.id in E by lia.
    specialize (E ltac:(apply in_seq; lia)). apply negb_true_iff, Z.eqb_neq in E. apply E, Z.mod_divide; [nia | exact D].
  - intros S. assert (F : forallb (fun d => negb (n mod (Z.of_nat d * Z.of_nat d) =? 0)) (seq 2 14) = true); [|congruence]. apply forallb_forall. intros d Hd. apply in_seq in Hd. assert (H2 : 2 <= Z.of_nat d) by lia.
    apply negb_true_iff, Z.eqb_neq. intros C. apply Z.mod_divide in C; [|nia]. apply (S (Z.of_nat d)); [lia | exact C].
Qed.
Definition tab_lookup (pf : profile) (v : Z) : res Z :=
  m <- index MOEBIUS_ODD (Z.shiftr v 6) ;; mask <- shl_ pf u64 3 (Z.land v 63) ;; m' <- shr_ pf u64 (Z.land m mask) (Z.land v 63) ;; Ret (m' - 1).
Lemma moebius_table : forallb (fun i => let n := 2 * Z.of_nat i + 1 in let b := moebius_brute n in
  forallb (fun pf => match tab_lookup pf (n - 1) with Ret v => v =? b | _ => false end) [Debug; Release]) (seq 0 128) = true.
Proof. vm_compute. reflexivity. Qed.
Lemma tab_lookup_spec : forall pf n, 1 <= n < 257 -> Z.odd n = true -> exists v, tab_lookup pf (n - 1) = Ret v /\ moebius_is n v.
Proof.
  intros pf n Hn Ho. apply Z.odd_spec in Ho. destruct Ho as [k Ek]. pose proof moebius_table as T. rewrite forallb_forall in T. specialize (T (Z.to_nat k) ltac:(apply in_seq; lia)).
  cbv zeta in T. rewrite Z2Nat.id, <- Ek in T by lia. rewrite forallb_forall in T. specialize (T pf ltac:(destruct pf; [left | right; left]; reflexivity)).
  destruct (tab_lookup pf (n - 1)) as [v| |]; try discriminate. apply Z.eqb_eq in T. exists v. split; [reflexivity|]. rewrite T. apply moebius_brute_spec. lia.
Qed.

(** ** moebius *)
Lemma not_sqf_div : forall n d, 1 < d -> n mod (d * d) = 0 -> moebius_is n 0.
Proof. intros n d Hd H. right. split; [|reflexivity]. intros S. apply (S d Hd). apply Z.mod_divide; [nia | exact H]. Qed.

Lemma half_odd : forall n, Z.even n = true -> n mod 4 <> 0 -> exists h, n / 2 = h /\ n = 2 * h /\ Z.odd h = true.
Proof.
  intros n Ev H4. apply Z.even_spec in Ev. destruct Ev as [h ->]. exists h. split; [rewrite Z.mul_comm; apply Z.div_mul; lia|]. split; [reflexivity|].
  rewrite <- Z.negb_even. apply negb_true_iff. destruct (Z.even h) eqn:E; [|reflexivity]. exfalso. apply Z.even_spec in E. destruct E as [c ->]. apply H4. replace (2 * (2 * c)) with (c * 4) by ring. apply Z.mod_mul. lia.
Qed.
Section Moebius.
Variables (f : feature) (pf : profile) (lf : nat) (fuel : Z) (t : ity).
Hypothesis (Ht : valid_ity t).
Hypothesis (Hlf : Z.of_nat lf <= 2 ^ 61).
Hypothesis (Hfuel : 129 < fuel).

Lemma new_buf_lists : exists B, B <= 2 ^ 64 /\ lists_primes (buf_iter (buf_new f)) (fun p => p < B).
Proof.
  exists (SMALL_PRIMES_NEXT f). split; [rewrite small_next; destruct f; lia|]. apply small_primes_list.
Qed.

Lemma is_prime_one : forall buf c d, is_prime f pf (uops f pf t) no_probs lf buf 1 c d = Ret (No, d).
Proof.
  intros buf c d. unfold is_prime. cbn [uops o_is_even]. change (Z.even 1) with false. cbn [uops o_to_z]. change (1 <? 2 ^ 64) with true. cbv iota.
  rewrite is_prime64_law by lia. reflexivity.
Qed.
Lemma map_zero : forall n m, 1 <= n -> wf_map m -> prod_powers m = n -> (forall k, In k (map fst m) -> 1 < k) -> moebius_factorized m = 0 -> ~ square_free n.
Proof.
  intros n m Hn W P K E S. unfold moebius_factorized in E. destruct (existsb (fun pe => 1 <? snd pe) m) eqn:Ex; [|destruct (_ =? 0); discriminate].
  apply existsb_exists in Ex. destruct Ex as [[p e] [Hin He]]. cbn [snd] in He. apply Z.ltb_lt in He. specialize (K p (in_map fst _ _ Hin)). apply (S p K). rewrite <- P. clear - Hin He.
  induction m as [|[a b] m IH]; [destruct Hin|]. cbn [prod_powers].
  destruct Hin as [Eq|Hin]; [injection Eq as -> ->; apply Z.divide_mul_l; exists (p ^ (e - 2)); replace e with (e - 2 + 2) at 1 by lia; rewrite Z.pow_add_r by lia; ring | apply Z.divide_mul_r, IH, Hin].
Qed.
Lemma factorize_keys_gt1 : forall n dr m dr', in_range t n -> 1 <= n -> Z.log2 n + 1 < fuel -> nt_factorize f pf lf fuel t n dr = Ret (m, dr') -> forall k, In k (map fst m) -> 1 < k.
Proof.
  intros n dr m dr' Hn H1 Hlog E k Hk. destruct new_buf_lists as [B [HB Hl]].
  pose proof (factorize_spec f pf lf fuel t (buf_iter (buf_new f)) B Ht Hl HB Hlf Hfuel n dr Hn H1 Hlog) as R. unfold nt_factorize in E. rewrite E in R. cbn [run] in R. destruct R as [_ [_ K]].
  destruct (K k Hk) as [K1 K2]. destruct (Z.eq_dec k 1) as [->|]; [exfalso | lia]. destruct (n <? 2 ^ 128).
  - destruct K2 as [A _]. specialize (A []). unfold prime_probably, nt_is_prime, is_prime in A. cbn [uops o_is_even] in A. change (Z.even 1) with false in A. cbn [uops o_to_z] in A. change (1 <? 2 ^ 64) with true in A. cbv iota in A.
    rewrite is_prime64_law in A by lia. discriminate.
  - destruct K2 as [A|[d [p [d' [A1 A2]]]]]; [apply not_prime_1, A|]. rewrite is_prime_one in A1. injection A1 as <- _. discriminate.
Qed.

Lemma moebius_odd_spec : forall n dr, in_range t n -> 1 <= n -> Z.odd n = true -> Z.log2 n + 1 < fuel ->
  run True True (fun '(v, dr') => moebius_is n v \/ exists m, nt_factorize f pf lf fuel t n dr = Ret (m, dr') /\ ((forall k, In k (map fst m) -> prime k) -> moebius_is n v) /\ (v = 0 -> ~ square_free n)) (moebius_odd f pf lf fuel t n dr).
Proof.
  intros n dr Hn H1 Ho Hlog. unfold moebius_odd. rewrite sub_ok by (try (eapply in_range_le; [|exact Hn]); lia). cbn [bind]. destruct (Z.ltb_spec (n - 1) 256) as [L|L].
  - assert (n <> 257) by (intros ->; discriminate || lia). destruct (tab_lookup_spec pf n) as [v [E Hv]]; [lia | exact Ho|]. unfold tab_lookup in E.
    destruct (index MOEBIUS_ODD (Z.shiftr (n - 1) 6)) as [m| |]; try discriminate. cbn [bind] in *. destruct (shl_ pf u64 3 (Z.land (n - 1) 63)) as [mask| |]; try discriminate. cbn [bind] in *.
    destruct (shr_ pf u64 (Z.land m mask) (Z.land (n - 1) 63)) as [m'| |]; try discriminate. cbn [bind run] in *. injection E as ->. left. exact Hv.
  - assert (Hr : forall c, 0 <= c < 64 -> in_range t c) by (intros c Hc; eapply in_range_le; [|exact Hn]; lia).
    rewrite !from_prim_ok by (apply Hr; lia). cbn [unwrap bind].
    destruct (Z.eqb_spec (n mod 9) 0) as [E|_]; [cbn [orb run]; left; apply (not_sqf_div n 3); [lia | exact E]|].
    destruct (Z.eqb_spec (n mod 25) 0) as [E|_]; [cbn [orb run]; left; apply (not_sqf_div n 5); [lia | exact E]|].
    destruct (Z.eqb_spec (n mod 49) 0) as [E|_]; [cbn [orb run]; left; apply (not_sqf_div n 7); [lia | exact E]|]. cbn [orb].
    destruct new_buf_lists as [B [HB Hl]]. destruct (nt_factorize f pf lf fuel t n dr) as [[m dr']| |] eqn:E; cbn [bind run]; try exact I.
    right. exists m. split; [reflexivity|]. pose proof (factorize_keys_gt1 n dr m dr' Hn H1 Hlog E) as K1. pose proof (factorize_spec f pf lf fuel t (buf_iter (buf_new f)) B Ht Hl HB Hlf Hfuel n dr Hn H1 Hlog) as R.
    unfold nt_factorize in E. rewrite E in R. cbn [run] in R. destruct R as [W [P _]]. split; [|intros Ez; apply (map_zero n m H1 W P K1 Ez)]. intros Hk. apply moebius_factorized_spec; [exact H1|]. split; [exact W|]. split; [|exact P].
    apply Forall_forall. intros pe Hpe. apply Hk, in_map, Hpe.
Qed.
Theorem moebius_spec : forall n dr, in_range t n -> 1 <= n -> Z.log2 n + 1 < fuel ->
  run True True (fun '(v, dr') => moebius_is n v \/ exists h m, (h = n /\ Z.odd n = true \/ n = 2 * h /\ Z.odd h = true) /\ nt_factorize f pf lf fuel t h dr = Ret (m, dr') /\ ((forall k, In k (map fst m) -> prime k) -> moebius_is n v) /\ (v = 0 -> ~ square_free n)) (moebius f pf lf fuel t n dr).
Proof.
  intros n dr Hn H1 Hlog. unfold moebius. destruct (Z.even n) eqn:Ev.
  - destruct (Z.eqb_spec (n mod 4) 0) as [E4|E4]; [cbn [run]; left; apply (not_sqf_div n 2); [lia | exact E4]|].
    destruct (half_odd n Ev E4) as [h [Eh [En Ho]]]. rewrite div_ok by lia. cbn [bind]. rewrite Eh.
    apply run_bind. eapply run_mono; [apply (moebius_odd_spec h dr); [eapply in_range_le; [|exact Hn]; lia | lia | exact Ho | pose proof (Z.log2_le_mono h n ltac:(lia)); lia] | auto | auto |].
    intros [v dr'] [Hv|[m [Hm [Hv Hz]]]]; cbn [run].
    + left. rewrite En. apply moebius_double; [lia | exact Ho | exact Hv].
    + right. exists h, m. split; [right; auto|]. split; [exact Hm|]. split; [intros Hk; rewrite En; apply moebius_double; [lia | exact Ho | apply Hv, Hk]|].
      intros Ez S. apply Hz; [lia|]. intros d Hd D. apply (S d Hd). rewrite En. apply Z.divide_mul_r, D.
  - assert (Ho : Z.odd n = true) by (rewrite <- Z.negb_even, Ev; reflexivity). eapply run_mono; [apply (moebius_odd_spec n dr Hn H1 Ho Hlog) | auto | auto |].
    intros [v dr'] [Hv|[m [Hm Hv]]]; [left; exact Hv | right]. exists n, m. split; [left; auto | split; [exact Hm | exact Hv]].
Qed.
(** below 2^128 the keys are accepted by the primality test with the BPSW settings *)
Theorem moebius_small : forall n dr v dr', in_range t n -> 1 <= n < 2 ^ 128 -> (forall k, 1 <= k <= n -> accepted f pf lf k -> prime k) -> moebius f pf lf fuel t n dr = Ret (v, dr') -> moebius_is n v.
Proof.
  intros n dr v dr' Hn H1 Hs E. pose proof (moebius_spec n dr Hn ltac:(lia)) as R. rewrite E in R. cbn [run] in R.
  assert (Hlog : Z.log2 n < 128) by (apply Z.log2_lt_pow2; lia). destruct R as [R|[h [m [Hh [Em [R _]]]]]]; [lia | exact R|]. apply R. intros k Hk.
  destruct new_buf_lists as [B [HB Hl]]. assert (Hhn : 1 <= h <= n) by (destruct Hh as [[-> _]|[-> _]]; lia).
  pose proof (factorize_spec f pf lf fuel t (buf_iter (buf_new f)) B Ht Hl HB Hlf Hfuel h dr) as F. unfold nt_factorize in Em. rewrite Em in F. cbn [run] in F.
  destruct F as [W [P K]]; [eapply in_range_le; [|exact Hn]; lia | lia | pose proof (Z.log2_le_mono h n ltac:(lia)); lia |].
  replace (h <? 2 ^ 128) with true in K by (symmetry; apply Z.ltb_lt; lia). destruct (K k Hk) as [K1 [K2 _]]. apply Hs; [|exact K2]. split; [exact K1|].
  assert (Hent : forall p e, In (p, e) m -> 1 <= p /\ 1 <= e).
  { intros p e Hin. split; [apply K, (in_map fst _ _ Hin)|]. destruct W as [_ W]. rewrite Forall_forall in W. exact (W _ Hin). }
  pose proof (key_le_prod m k Hent Hk). lia.
Qed.
End Moebius.
