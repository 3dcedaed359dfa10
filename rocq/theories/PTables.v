(** * Facts about the constant tables, each checked over the whole table. *)
From Coq Require Import ZArith Znumtheory List Lia Bool Sorted.
From Verif Require Import Base Spec Ext NT PBase Tables MInteger MSieve.
Import ListNotations.
Local Open Scope Z_scope.

(** A primality test by trial division up to the square root. *)
Definition fast_primeb (n : Z) : bool :=
  (2 <=? n) && forallb (fun d => negb (n mod d =? 0)) (range_step 2 (Z.sqrt n + 1) 1).

Lemma fast_primeb_spec : forall n, fast_primeb n = true <-> prime n.
Proof.
  intros n. unfold fast_primeb. rewrite andb_true_iff, Z.leb_le, forallb_forall. split.
  - intros [H2 H]. apply prime_no_small_divisor; [exact H2|].
    intros p Hp Hpp Hd. assert (2 <= p) by (apply prime_ge2, Hp).
    assert (Hle : p <= Z.sqrt n) by (apply Z.sqrt_le_square; lia).
    assert (Hin : In p (range_step 2 (Z.sqrt n + 1) 1)).
    { apply range_step_in; [lia|]. exists (p - 2). lia. }
    specialize (H p Hin). apply negb_true_iff, Z.eqb_neq in H. apply H. apply mod0_divide; [lia | exact Hd].
  - intros Hp. pose proof (prime_ge2 n Hp) as H2. split; [exact H2|].
    intros d Hd. apply range_step_in in Hd; [|lia]. destruct Hd as [k [Hk [E Hlt]]].
    apply negb_true_iff, Z.eqb_neq. intros C. apply mod0_divide in C; [|lia].
    assert (d * d <= n).
    { assert (Z.sqrt n * Z.sqrt n <= n) by (apply Z.sqrt_spec; lia). nia. }
    destruct (prime_divisors n Hp d C) as [X|[X|[X|X]]]; try lia. subst d. nia.
Qed.

Lemma small_primes_table : forall f,
  SMALL_PRIMES f = filter fast_primeb (range_from (Z.to_nat (SMALL_PRIMES_NEXT f - 2)) 2 1).
Proof. intros [|]; vm_compute; reflexivity. Qed.

Lemma sorted_filter : forall g l, StronglySorted Z.lt l -> StronglySorted Z.lt (filter g l).
Proof.
  intros g l H. induction H as [|a l Hs IH Hall]; simpl; [constructor|].
  destruct (g a); [|exact IH]. constructor; [exact IH|].
  apply Forall_forall. intros x Hx. apply filter_In in Hx. rewrite Forall_forall in Hall. apply Hall. tauto.
Qed.

Lemma filter_range_primes : forall N, lists_primes (filter fast_primeb (range_from (Z.to_nat (N - 2)) 2 1)) (fun p => p < N).
Proof.
  intros N. split; [apply sorted_filter, range_from_sorted; lia|].
  intros p. rewrite filter_In, fast_primeb_spec, range_from_in. split.
  - intros [[k [Hk E]] Hp]. split; [exact Hp | lia].
  - intros [Hp Hlt]. split; [|exact Hp]. pose proof (prime_ge2 p Hp). exists (p - 2). lia.
Qed.

Lemma small_primes_list : forall f, lists_primes (SMALL_PRIMES f) (fun p => p < SMALL_PRIMES_NEXT f).
Proof. intros f. rewrite small_primes_table. apply filter_range_primes. Qed.

Definition first16 : list Z := [2; 3; 5; 7; 11; 13; 17; 19; 23; 29; 31; 37; 41; 43; 47; 53].
Lemma first16_list : lists_primes first16 (fun p => p < 55).
Proof.
  replace first16 with (filter fast_primeb (range_from (Z.to_nat (55 - 2)) 2 1)) by (vm_compute; reflexivity).
  apply filter_range_primes.
Qed.
