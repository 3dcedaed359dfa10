(** * C35-C37: is_safe_prime, next_prime, prev_prime. *)
From Coq Require Import ZArith Znumtheory List Lia Bool Sorted.
From Verif Require Import Base Tables Spec Ext NT PBase PTables MInteger PInteger Ops POps MPrimality MTraits PSprp MFactor MSieve MIsPrime PBuffer PIsPrime PIsPrime2 PropIsPrime PNext.
Import ListNotations.
Local Open Scope Z_scope.

Lemma shr1 : forall pf t n, valid_ity t -> in_range t n -> shr_ pf t n 1 = Ret (n / 2).
Proof. intros pf t n Ht Hn. rewrite shr_ok; [rewrite Z.shiftr_div_pow2 by lia; reflexivity | exact Hn | lia|]. destruct t as [w|]; [cbn [valid_ity] in Ht; lia | exact I]. Qed.

(** C35: up to 64 bits the answer is definite, and positive iff both n and (n-1)/2 (n/2 rounded down)
    are accepted by is_prime64. *)
Theorem C35_is_safe_prime64 : forall A (PR : probs A) f pf t lf n dr, valid_ity t -> in_range t n -> n < 2 ^ 64 ->
  exists b1 b2, is_prime64 f pf (n / 2) = Ret b1 /\ is_prime64 f pf n = Ret b2 /\
    is_safe_prime f pf t PR lf n dr = Ret (if b1 && b2 then Yes else No, dr).
Proof.
  intros A PR f pf t lf n dr Ht Hn Hs. pose proof (in_range_nonneg _ _ Hn) as H0. assert (Hh : 0 <= n / 2 <= n) by (split; [apply Z.div_pos; lia | apply Z.div_le_upper_bound; lia]).
  assert (Hr : in_range t (n / 2)) by (eapply in_range_le; [|exact Hn]; lia).
  exists (z_is_prime64 f (n / 2)), (z_is_prime64 f n). split; [apply is_prime64_law; lia|]. split; [apply is_prime64_law; lia|].
  unfold is_safe_prime. rewrite (shr1 pf t n Ht Hn). cbn [bind]. unfold nt_is_prime.
  rewrite (is_prime_small f pf _ PR t _ _ _ (uops_lawful f pf t) Ht lf _ (n / 2) (n / 2) _ dr ltac:(split; auto) ltac:(lia)). cbn [bind].
  rewrite (is_prime_small f pf _ PR t _ _ _ (uops_lawful f pf t) Ht lf _ n n _ dr ltac:(split; auto) Hs). 
  destruct (z_is_prime64 f (n / 2)); cbn [bind andb]; [|reflexivity]. destruct (z_is_prime64 f n); reflexivity.
Qed.
(** Any size: the answer combines the two strict primality tests, the smaller number first; it is positive
    iff both are. *)
Theorem C35_is_safe_prime : forall A (PR : probs A) f pf t lf n dr r dr', valid_ity t -> in_range t n ->
  is_safe_prime f pf t PR lf n dr = Ret (r, dr') ->
  exists p1 d1, nt_is_prime f pf (uops f pf t) PR lf (n / 2) (Some pc_strict) dr = Ret (p1, d1) /\
    (probably p1 = false -> r = No) /\
    (probably p1 = true -> exists p2, nt_is_prime f pf (uops f pf t) PR lf n (Some pc_strict) d1 = Ret (p2, dr') /\ probably r = probably p2 /\ (r = Yes <-> p1 = Yes /\ p2 = Yes)).
Proof.
  intros A PR f pf t lf n dr r dr' Ht Hn E. unfold is_safe_prime in E. rewrite (shr1 pf t n Ht Hn) in E. cbn [bind] in E.
  destruct (nt_is_prime f pf (uops f pf t) PR lf (n / 2) (Some pc_strict) dr) as [[p1 d1]| |] eqn:E1; try discriminate. cbn [bind] in E. exists p1, d1. split; [reflexivity|]. destruct p1 as [| |a]; cbn [probably].
  - split; [discriminate|]. intros _. destruct (nt_is_prime f pf (uops f pf t) PR lf n (Some pc_strict) d1) as [[p2 d2]| |]; try discriminate. cbn [bind] in E. injection E as <- <-. exists p2. split; [reflexivity|]. destruct p2; cbn; split; try reflexivity; split; intros C; try discriminate; try tauto; destruct C; discriminate.
  - injection E as <- _. split; [reflexivity | discriminate].
  - split; [discriminate|]. intros _. destruct (nt_is_prime f pf (uops f pf t) PR lf n (Some pc_strict) d1) as [[p2 d2]| |]; try discriminate. cbn [bind] in E. injection E as <- <-. exists p2. split; [reflexivity|]. destruct p2; cbn; split; try reflexivity; split; intros C; try discriminate; try tauto; destruct C; discriminate.
Qed.
(** A safe prime is never answered No. *)
Theorem C35_never_rejects : forall A (PR : probs A) f pf t lf n dr r dr', valid_ity t -> in_range t n -> safe_prime n ->
  (forall x, In x dr -> x mod 2 ^ 64 <> 0) -> Z.of_nat lf <= 2 ^ 31 -> Z.log2 (n + 1) < 2 ^ 64 ->
  is_safe_prime f pf t PR lf n dr = Ret (r, dr') -> probably r = true.
Proof.
  intros A PR f pf t lf n dr r dr' Ht Hn [Pn Ph] Hdr Hlf Hlog E. pose proof (prime_ge2 n Pn) as H2. pose proof (prime_ge2 _ Ph) as H2h.
  assert (Hodd : Z.odd n = true). { destruct (Z.odd n) eqn:O; [reflexivity|]. exfalso. rewrite <- Z.negb_even in O. apply negb_false_iff in O. rewrite (even_prime n Pn O) in H2h. cbn in H2h. lia. }
  assert (Eh : n / 2 = (n - 1) / 2). { apply Z.odd_spec in Hodd. destruct Hodd as [k ->]. replace (2 * k + 1 - 1) with (k * 2) by ring. rewrite Z.div_mul by lia. symmetry. apply (Z.div_unique _ _ _ 1); lia. }
  assert (Hle : (n - 1) / 2 <= n) by (apply Z.div_le_upper_bound; lia). assert (Hrh : in_range t ((n - 1) / 2)) by (eapply in_range_le; [|exact Hn]; lia).
  destruct (C35_is_safe_prime A PR f pf t lf n dr r dr' Ht Hn E) as [p1 [d1 [E1 [_ H]]]]. rewrite Eh in E1.
  pose proof (C13_is_prime_never_rejects f pf t ((n - 1) / 2) A PR lf (buf_iter (buf_new f)) (Some pc_strict) dr Ht Hrh Ph (new_buf_range f) Hdr Hlf) as G1. unfold nt_is_prime in E1. rewrite E1 in G1.
  specialize (G1 ltac:(pose proof (Z.log2_le_mono ((n - 1) / 2 + 1) (n + 1) ltac:(lia)); lia)). destruct (H G1) as [p2 [E2 [-> _]]].
  pose proof (C13_is_prime_never_rejects f pf t n A PR lf (buf_iter (buf_new f)) (Some pc_strict) d1 Ht Hn Pn (new_buf_range f) ltac:(eapply nonzero_incl; [eapply is_prime_draws, E1 | exact Hdr]) Hlf Hlog) as G2.
  unfold nt_is_prime in E2. rewrite E2 in G2. exact G2.
Qed.
Example C35_case : is_safe_prime BigTable Debug (U 32) no_probs 50 23 [] = Ret (Yes, []) /\ is_safe_prime BigTable Debug (U 32) no_probs 50 13 [] = Ret (No, [])
  /\ is_safe_prime SmallTable Debug u64 no_probs 50 4294967087 [] = Ret (Yes, []) /\ is_safe_prime BigTable Debug u64 no_probs 50 2147483579 [] = Ret (Yes, []) /\ safe_prime 23.
Proof. split; [vmc|]. split; [vmc|]. split; [vmc|]. split; [vmc|]. split; apply fast_primeb_spec; vm_compute; reflexivity. Qed.

(** C36: a returned number is above the target, fits the type, is accepted by the primality test, and no
    prime was skipped; None means that no prime above the target fits the type. Types above 64 bits need
    random witnesses different from 0 (see C13); the bound on log2 is the size limit of a big integer. *)
Theorem C36_next_prime : forall f pf t lf config fuel n dr o dr', valid_ity t -> in_range t n -> Z.of_nat lf <= 2 ^ 31 ->
  (forall x, In x dr -> x mod 2 ^ 64 <> 0) \/ (forall y, in_range t y -> y < 2 ^ 64) ->
  next_prime f pf t lf fuel n config dr = Ret (o, dr') ->
  match o with
  | Some p => n < p /\ in_range t p /\ (exists d d', prime_probably f pf t lf p config d = Ret (true, d')) /\
              (Z.log2 (p + 1) < 2 ^ 64 -> forall q, prime q -> ~ (n < q < p))
  | None => forall q, prime q -> n < q -> Z.log2 (q + 1) < 2 ^ 64 -> ~ in_range t q
  end.
Proof.
  intros f pf t lf config fuel n dr o dr' Ht Hn Hlf Hdr E. pose proof (next_prime_spec f pf t lf config Ht Hlf fuel n dr Hn Hdr) as R. rewrite E in R. cbn [run] in R. unfold next_post in R. cbn [fst] in R. destruct o as [p|].
  - destruct R as [A [B [C D]]]. split; [exact A|]. split; [exact B|]. split; [exact C|]. intros Hl q Pq Hq. specialize (D q Pq Hq). pose proof (prime_ge2 q Pq). pose proof (Z.log2_le_mono (q + 1) (p + 1) ltac:(lia)). lia.
  - intros q Pq Hq Hl Hr. specialize (R q Pq Hq Hr). lia.
Qed.
(** Up to 64 bits it always returns, without using randomness; the result is the next number accepted by
    is_prime64 among those coprime to the wheel, and no prime was skipped. *)
Theorem C36_next_prime64 : forall f pf w lf config fuel n dr, valid_ity (U w) -> w <= 64 -> 0 <= n < 2 ^ w -> Z.of_nat lf <= 2 ^ 31 -> ~ (f = SmallTable /\ 252 <= n <= 255) -> 2 ^ w - n < fuel ->
  exists o, next_prime f pf (U w) lf fuel n config dr = Ret (o, dr) /\
    match o with
    | Some p => n < p < 2 ^ w /\ is_prime64 f pf p = Ret true /\ (forall q, prime q -> ~ (n < q < p))
    | None => forall q, prime q -> n < q -> 2 ^ w <= q
    end.
Proof.
  intros f pf w lf config fuel n dr Hw Hw64 Hn Hlf Hg Hfuel. assert (Hp : 2 ^ w <= 2 ^ 64) by (apply Z.pow_le_mono_r; lia).
  assert (Hs : forall y, in_range (U w) y -> y < 2 ^ 64) by (intros y Hy; cbn [in_range] in Hy; lia).
  assert (Hlog : forall q, 0 <= q < 2 ^ w -> Z.log2 (q + 1) < 2 ^ 64).
  { intros q Hq. assert (Z.log2 (q + 1) < 65); [|lia]. apply Z.log2_lt_pow2; [lia|]. change (2 ^ 65) with (2 * 2 ^ 64). lia. }
  destruct (next_returns_small f pf (U w) lf config Hw w fuel n dr eq_refl Hw64 Hn Hg Hfuel) as [o E]. exists o. split; [exact E|].
  pose proof (C36_next_prime f pf (U w) lf config fuel n dr o dr Hw Hn Hlf (or_intror Hs) E) as H. destruct o as [p|].
  - destruct H as [A [B [[d [d' C]] D]]]. cbn [in_range] in B. split; [lia|]. split; [|apply D, Hlog, B].
    rewrite (probably_small f pf (U w) lf config Hw p d B (Hs p B)) in C. injection C as C _. rewrite is_prime64_law, C by (apply Hs, B). reflexivity.
  - intros q Pq Hq. pose proof (prime_ge2 q Pq). destruct (Z.le_gt_cases (2 ^ w) q) as [|L]; [assumption|]. exfalso. apply (H q Pq Hq); [apply Hlog; lia | cbn [in_range]; lia].
Qed.
(** It is the least prime above the target when is_prime64 does not mistake it for a prime. *)
Theorem C36_least : forall f pf w lf config fuel n dr p dr', valid_ity (U w) -> w <= 64 -> 0 <= n < 2 ^ w -> Z.of_nat lf <= 2 ^ 31 ->
  next_prime f pf (U w) lf fuel n config dr = Ret (Some p, dr') -> (is_prime64 f pf p = Ret true -> prime p) -> least_prime_above n p.
Proof.
  intros f pf w lf config fuel n dr p dr' Hw Hw64 Hn Hlf E Hex. assert (Hp : 2 ^ w <= 2 ^ 64) by (apply Z.pow_le_mono_r; lia).
  assert (Hs : forall y, in_range (U w) y -> y < 2 ^ 64) by (intros y Hy; cbn [in_range] in Hy; lia).
  pose proof (C36_next_prime f pf (U w) lf config fuel n dr _ dr' Hw Hn Hlf (or_intror Hs) E) as [A [B [[d [d' C]] D]]].
  rewrite (probably_small f pf (U w) lf config Hw p d B (Hs p B)) in C. injection C as C _.
  assert (Pp : prime p) by (apply Hex; rewrite is_prime64_law, C by (apply Hs, B); reflexivity). split; [exact Pp|]. split; [exact A|]. intros q Pq Hq. destruct (Z.le_gt_cases p q) as [|L]; [assumption|]. exfalso.
  cbn [in_range] in B. assert (Z.log2 (p + 1) < 65) by (apply Z.log2_lt_pow2; [lia|]; change (2 ^ 65) with (2 * 2 ^ 64); lia). apply (D ltac:(lia) q Pq). lia.
Qed.
(** Any type, wider than 64 bits too: it returns at the latest at the first prime below 2^64 ahead. *)
Theorem C36_returns : forall f pf t lf config fuel n q dr, valid_ity t -> in_range t n -> ~ (f = SmallTable /\ 252 <= n <= 255) -> prime q -> n < q -> in_range t q -> q < 2 ^ 64 -> q - n < fuel ->
  exists p, next_prime f pf t lf fuel n config dr = Ret (Some p, dr) /\ n < p <= q.
Proof. intros. eapply next_returns_prime; eassumption. Qed.
(** A big integer search never answers None. *)
Theorem C36_big_some : forall f pf lf config fuel n dr dr', 0 <= n -> next_prime f pf Big lf fuel n config dr <> Ret (None, dr').
Proof.
  intros f pf lf config fuel n dr dr' Hn E. assert (Hg : ~ (f = SmallTable /\ 252 <= n <= 255)).
  { intros [-> Hg]. assert (H : n = 252 \/ n = 253 \/ n = 254 \/ n = 255) by lia. destruct H as [->|[->|[->| ->]]]; vm_compute in E; discriminate. }
  destruct (next_prime_cases f pf Big lf config I fuel n dr Hn Hg) as [[p [[Pp _] [_ H]]]|[_ [_ H]]]; rewrite H in E; clear H.
  - pose proof (prime_ge2 p Pp). rewrite from_prim_ok in E by (cbn [in_range]; lia). discriminate.
  - assert (W : run True True (fun x : option Z * draws => fst x <> None) (loop fuel (next_step f pf Big lf config) (n mod WHEEL_SIZE f, n, dr))).
    { apply (run_loop _ _ True True (fun '(_, x, _) => 0 <= x)); [exact Hn | exact I |]. intros [[j x] d] Hx. unfold next_step. destruct (index (WHEEL_NEXT f) j) as [off| |]; cbn [bind run]; try exact I.
      destruct (from_prim Big off) as [o2|] eqn:Eo; cbn [unwrap bind run]; [|exact I]. apply from_prim_inv in Eo. destruct Eo as [-> Ho]. cbn [in_range] in Ho. destruct (checked Big (x + off)) as [x'|] eqn:Ec.
      - apply checked_inv in Ec. destruct Ec as [-> Hc]. cbn [in_range] in Hc. destruct (ext_addm j off (WHEEL_SIZE f)) as [j'| |]; cbn [bind run]; try exact I. destruct (prime_probably f pf Big lf (x + off) config d) as [[[|] d']| |]; cbn [bind run]; try exact I; [discriminate | exact Hc].
      - exfalso. apply checked_none in Ec. apply Ec. cbn [in_range]. lia. }
    rewrite E in W. cbn [run fst] in W. congruence.
Qed.
(** Without the big-table feature the search panics just below 256. *)
Theorem C36_table_gap_refuted : forall pf t lf config fuel n dr, 252 <= n <= 255 -> next_prime SmallTable pf t lf fuel n config dr = Panic.
Proof. intros pf t lf config fuel n dr H. assert (C : n = 252 \/ n = 253 \/ n = 254 \/ n = 255) by lia. destruct C as [->|[->|[->| ->]]]; vm_compute; reflexivity. Qed.
Example C36_case : next_prime BigTable Debug (U 8) 50 300 250 None [] = Ret (Some 251, []) /\ next_prime BigTable Debug (U 8) 50 300 251 None [] = Ret (None, [])
  /\ next_prime BigTable Debug u64 50 300 1000000 None [] = Ret (Some 1000003, []) /\ next_prime SmallTable Debug (U 16) 50 300 65521 None [] = Ret (None, [])
  /\ next_prime SmallTable Debug (U 32) 50 300 251 None [] = Ret (Some 257, []) /\ next_prime BigTable Debug u64 50 1000 (2 ^ 64 - 60) None [] = Ret (Some (2 ^ 64 - 59), [])
  /\ next_prime BigTable Debug u64 50 1000 (2 ^ 64 - 59) None [] = Ret (None, []).
Proof. repeat split; vmc. Qed.

(** C37: the largest accepted number below the target, no prime being skipped; None iff the target is at
    most 2. *)
Theorem C37_prev_prime : forall f pf t lf config fuel n dr o dr', valid_ity t -> in_range t n -> Z.of_nat lf <= 2 ^ 31 ->
  (forall x, In x dr -> x mod 2 ^ 64 <> 0) \/ (forall y, in_range t y -> y < 2 ^ 64) ->
  prev_prime f pf t lf fuel n config dr = Ret (o, dr') ->
  match o with
  | Some p => 2 <= p < n /\ (exists d d', prime_probably f pf t lf p config d = Ret (true, d')) /\
              (Z.log2 n < 2 ^ 64 -> forall q, prime q -> ~ (p < q < n))
  | None => n <= 2
  end.
Proof.
  intros f pf t lf config fuel n dr o dr' Ht Hn Hlf Hdr E. pose proof (prev_prime_spec f pf t lf config Ht Hlf fuel n dr Hn Hdr) as R. rewrite E in R. cbn [run] in R. unfold prev_post in R. cbn [fst] in R. destruct o as [p|]; [|exact R].
  destruct R as [A [B C]]. split; [exact A|]. split; [exact B|]. intros Hl q Pq Hq. specialize (C q Pq Hq). pose proof (Z.log2_le_mono (q + 1) n ltac:(lia)). lia.
Qed.
Theorem C37_none : forall f pf t lf config fuel n dr, n <= 2 -> prev_prime f pf t lf fuel n config dr = Ret (None, dr).
Proof. intros f pf t lf config fuel n dr H. unfold prev_prime. apply Z.leb_le in H. rewrite H. reflexivity. Qed.
(** Below 2^64, at every type, it returns, without using randomness, a number is_prime64 accepts. *)
Theorem C37_prev_prime64 : forall f pf t lf config fuel n dr, valid_ity t -> in_range t n -> 2 < n < 2 ^ 64 -> Z.of_nat lf <= 2 ^ 31 -> n < fuel ->
  exists p, prev_prime f pf t lf fuel n config dr = Ret (Some p, dr) /\ 2 <= p < n /\ is_prime64 f pf p = Ret true /\ (forall q, prime q -> ~ (p < q < n)).
Proof.
  intros f pf t lf config fuel n dr Ht Hn Hb Hlf Hfuel. destruct (prev_returns f pf t lf config Ht fuel n dr Hn Hb Hfuel) as [p [E [Hp [Hz Hno]]]]. exists p. split; [exact E|].
  split; [exact Hp|]. split; [rewrite is_prime64_law, Hz by lia; reflexivity|]. exact Hno.
Qed.
Theorem C37_greatest : forall f pf t lf config fuel n dr p dr', valid_ity t -> in_range t n -> 2 < n < 2 ^ 64 -> Z.of_nat lf <= 2 ^ 31 -> n < fuel ->
  prev_prime f pf t lf fuel n config dr = Ret (Some p, dr') -> (is_prime64 f pf p = Ret true -> prime p) -> greatest_prime_below n p.
Proof.
  intros f pf t lf config fuel n dr p dr' Ht Hn Hb Hlf Hfuel E Hex. destruct (C37_prev_prime64 f pf t lf config fuel n dr Ht Hn Hb Hlf Hfuel) as [p' [E' [A [B C]]]]. rewrite E in E'. injection E' as <- _.
  split; [apply Hex, B|]. split; [lia|]. intros q Pq Hq. destruct (Z.le_gt_cases q p) as [|L]; [assumption|]. exfalso. apply (C q Pq). lia.
Qed.
Example C37_case : prev_prime BigTable Debug (U 8) 50 300 255 None [] = Ret (Some 251, []) /\ prev_prime SmallTable Debug (U 8) 50 300 3 None [] = Ret (Some 2, [])
  /\ prev_prime BigTable Debug u64 50 300 1000003 None [] = Ret (Some 999983, []) /\ prev_prime SmallTable Debug u64 50 1000 (2 ^ 64 - 1) None [] = Ret (Some (2 ^ 64 - 59), []).
Proof. repeat split; vmc. Qed.

Print Assumptions C35_is_safe_prime64.
Print Assumptions C35_is_safe_prime.
Print Assumptions C35_never_rejects.
Print Assumptions C36_next_prime.
Print Assumptions C36_next_prime64.
Print Assumptions C36_least.
Print Assumptions C36_returns.
Print Assumptions C36_big_some.
Print Assumptions C36_table_gap_refuted.
Print Assumptions C37_prev_prime.
Print Assumptions C37_none.
Print Assumptions C37_prev_prime64.
Print Assumptions C37_greatest.
