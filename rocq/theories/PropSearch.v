(** * C80: how long the search for a divisor can go on. *)
From Coq Require Import ZArith Znumtheory List Lia Bool Sorted.
From Verif Require Import Base Tables Spec Ext NT PBase PTables MInteger PInteger Ops POps MPrimality MTraits PSprp MFactor MSieve MIsPrime PIsPrime PIsPrime2 MFactorize PFactor PFactor2 PFactorize PFactorize2 PFactorize3 PFactorize4 PDraws PHart2 PSearch PSearch2.
Import ListNotations.
Local Open Scope Z_scope.

(** The loop of methods of factorize64 (w = 64) and factorize128 (w = 128), run for any number of passes: if it
    finds a divisor at all, it does so within its first 189 passes. The iteration budget, which doubles every
    three passes, has then left the 64 bits of usize. *)
Theorem C80_pass_limit : forall f pf fuel w target n dr r, w = 64 \/ w = 128 -> 32 <= target < 2 ^ w -> Z.gcd target (3 * 5 * 7 * 11 * 13 * 17 * 19) = 1 -> (~ exists s, s * s = target) ->
  loop n (method_step f pf fuel w target) (0, 1, dr) = Ret r -> loop 189 (method_step f pf fuel w target) (0, 1, dr) = Ret r.
Proof. intros f pf fuel w target n dr r Hw Ht Hg Hsq. apply search_limit; try assumption. destruct Hw as [-> | ->]; cbn; lia. Qed.
(** Debug builds: the search ends, with a proper divisor or a panic, whatever is drawn. *)
Theorem C80_debug_search_ends : forall f fuel w target n dr, w = 64 \/ w = 128 -> 32 <= target < 2 ^ w -> Z.odd target = true -> Z.gcd target (3 * 5 * 7 * 11 * 13 * 17 * 19) = 1 -> (~ exists s, s * s = target) ->
  2 ^ (w + 1) <= fuel -> 192 <= n -> (130 <= length dr)%nat ->
  loop n (method_step f Debug fuel w target) (0, 1, dr) = Panic \/
  exists d dr', loop n (method_step f Debug fuel w target) (0, 1, dr) = Ret (d, dr') /\ 1 < d < target /\ (d | target).
Proof.
  intros f fuel w target n dr Hw Ht Ho Hg Hsq Hf Hn Hdr.
  pose proof (search_ends f Debug fuel w target ltac:(destruct Hw as [-> | ->]; cbn; lia) Ht Hg Hsq Ho Hf eq_refl n dr Hn Hdr) as R.
  destruct (loop n (method_step f Debug fuel w target) (0, 1, dr)) as [[d dr']| |]; cbn [run] in R; [|left; reflexivity | contradiction].
  right. exists d, dr'. destruct R as [[A [B C]] _]. cbn [fst] in A, B, C. split; [reflexivity|]. split; [lia | exact C].
Qed.
(** Release builds: once the budget has wrapped around to 0 the loop goes on forever, whatever is drawn. *)
Theorem C80_release_forever : forall f fuel w target n i dr, w = 64 \/ w = 128 -> 32 <= target < 2 ^ w -> (forall p, prime p -> p < SMALL_PRIMES_NEXT f -> ~ (p | target)) -> (~ exists s, s * s = target) ->
  0 <= i -> loop n (method_step f Release fuel w target) (i, 0, dr) = NoFuel.
Proof.
  intros f fuel w target n i dr Hw Ht Hp Hsq Hi. assert (Hv : valid_ity (U w)) by (destruct Hw as [-> | ->]; cbn; lia).
  assert (Hc : cofactor f w target) by (split; [lia | exact Hp]).
  pose (J := fun st : Z * Z * draws => 0 <= fst (fst st) /\ snd (fst st) = 0).
  assert (Hs : forall st, J st -> run False True (fun r => match r with Next st' => J st' | Done _ => False end) (method_step f Release fuel w target st)).
  { intros [[i0 r0] d0] [H1 H2]. cbn [fst snd] in H1, H2. subst r0.
    pose proof (spent_step f Release fuel w target Hv Ht (cofactor_lcm f w target Hc) Hsq (i0, 0, d0) (conj H1 (or_introl eq_refl))) as A.
    pose proof (method_step_spec f Release fuel w Hv target Hc Hsq (i0, 0, d0) H1 ltac:(cbn; lia)) as B.
    pose proof (zero_stays f fuel w target i0 d0) as C.
    destruct (method_step f Release fuel w target (i0, 0, d0)) as [[[[i' r'] d']|x]| |]; cbn [run fst snd] in *; [| exact A | discriminate | exact I].
    destruct A as [A _]. split; [exact A | apply (C i' r' d' eq_refl)]. }
  pose proof (run_loop _ _ False True J (fun _ => False) (method_step f Release fuel w target) n (i, 0, dr) (conj Hi eq_refl) I Hs) as R.
  destruct (loop n (method_step f Release fuel w target) (i, 0, dr)); cbn [run] in R; [contradiction | contradiction | reflexivity].
Qed.
(** So factorize64 always ends in a debug build, with its result or a panic. *)
Theorem C80_debug_factorize64_ends : forall f fuel n dr, 2 ^ 65 <= fuel -> 1 <= n < 2 ^ 64 -> 16640 <= Z.of_nat (length dr) -> factorize64 f Debug fuel n dr <> NoFuel.
Proof. exact factorize64_ends. Qed.

(** ... and so does factorize128 below 2^122; [lf] bounds the search for the Lucas parameters in its primality
    test, which needs at most about sqrt n trials (C20) and is asked to stay below 2^61. *)
Theorem C80_debug_factorize128_ends : forall f lf fuel n dr, 2 ^ 129 <= fuel -> 6 + Z.sqrt n <= Z.of_nat lf <= 2 ^ 61 -> 1 <= n < 2 ^ 128 -> 66300 <= Z.of_nat (length dr) -> factorize128 f Debug lf fuel n dr <> NoFuel.
Proof. exact factorize128_ends. Qed.
(** In a debug build factorize, at every type, gives a factorization into accepted numbers or panics. *)
Theorem C80_debug_factorize : forall f lf fuel t n dr, valid_ity t -> in_range t n -> 2 ^ 129 <= fuel -> 6 + Z.sqrt n <= Z.of_nat lf <= 2 ^ 61 -> 1 <= n < 2 ^ 128 -> 66300 <= Z.of_nat (length dr) ->
  nt_factorize f Debug lf fuel t n dr = Panic \/
  exists m dr', nt_factorize f Debug lf fuel t n dr = Ret (m, dr') /\ wf_map m /\ prod_powers m = n /\ forall k, In k (map fst m) -> forall d, prime_probably f Debug u128 lf k (Some pc_bpsw) d = Ret (true, d).
Proof.
  intros f lf fuel t n dr Ht Hn Hf Hlf H1 Hdr. assert (Hf' : 129 < fuel) by (change (2 ^ 129) with (2 ^ 64 * 2 ^ 65) in Hf; lia).
  pose proof (factorize128_ends f lf fuel n dr Hf Hlf H1 Hdr) as N. pose proof (factorize128_spec f Debug lf fuel ltac:(lia) Hf' n dr H1) as R.
  unfold nt_factorize. rewrite (factorize_small f Debug lf fuel t (buf_iter (buf_new f)) ltac:(lia) n dr ltac:(lia)).
  destruct (factorize128 f Debug lf fuel n dr) as [[m dr']| |]; cbn [run fst bind] in R |- *; [|left; reflexivity | contradiction]. right. destruct R as [W [P K]].
  assert (Hk : collect_map f Debug t m = Ret m).
  { apply collect_map_id; [apply W|]. intros k Hk. assert (Hb : 1 <= k <= prod_powers m); [|eapply in_range_le; [|exact Hn]; lia].
    apply key_le_prod; [|exact Hk]. intros p e Hin. split; [|destruct W as [_ W]; rewrite Forall_forall in W; exact (W _ Hin)].
    exact (accepted_pos f Debug lf p (proj1 (K p (in_map fst _ _ Hin)))). }
  exists m, dr'. rewrite Hk. split; [reflexivity|]. split; [exact W|]. split; [exact P|]. intros k Hin. apply (K k Hin).
Qed.
Example C80_case : loop 1 (method_step BigTable Release 200 64 (10007 * 10009)) (0, 1, [0; 10009]) = Ret (10009, [])
  /\ loop 3 (method_step BigTable Release 10000 64 (10007 * 10009)) (0, 1, [0; 0]) = Ret (10007, [])
  /\ loop 12 (method_step BigTable Release 10000 64 (10007 * 10009)) (192, 0, repeat 5 20) = NoFuel
  /\ loop 1000 (method_step BigTable Debug 10000 64 (10007 * 10009)) (190, 2 ^ 63, repeat 5 20) = Panic
  /\ Z.gcd (10007 * 10009) (3 * 5 * 7 * 11 * 13 * 17 * 19) = 1 /\ Z.odd (10007 * 10009) = true.
Proof. vm_compute. repeat split. Qed.
Example C80_case_square : ~ exists s, s * s = 10007 * 10009.
Proof. intros [s Hs]. assert (10007 < Z.abs s < 10009) by (rewrite <- (Z.abs_square s) in Hs; nia). assert (E : Z.abs s = 10008) by lia. rewrite <- (Z.abs_square s), E in Hs. lia. Qed.
Print Assumptions C80_pass_limit.
Print Assumptions C80_debug_search_ends.
Print Assumptions C80_release_forever.
Print Assumptions C80_debug_factorize64_ends.
Print Assumptions C80_debug_factorize128_ends.
Print Assumptions C80_debug_factorize.
