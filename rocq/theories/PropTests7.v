(** * The assertions of the crate's own unit tests, continued (C66): the large primes. *)
From Coq Require Import ZArith Znumtheory Zpow_facts List Lia Bool.
From Verif Require Import Base MInteger Spec Ext NT PBase Ops MPrimality MTraits PSprp MSieve MIsPrime PIsPrime PIsPrime2 NTRecip NTResidue PLucas PLucas2 PLucas3 PTests PBig NTPock PCerts2.
Import ListNotations.
Local Open Scope Z_scope.

(** src/buffer.rs:607-633: those of the list whose primality is proved here (PCerts2.v): the first two and the five
    primes of elliptic curves *)
Definition large_primes : list Z := [98920366548084643601728869055592650835572950932266967461790948584315647051443; 94560208308847015747498523884063394671606671904944666360068158221458669711639;
  2 ^ 251 - 9; 2 ^ 255 - 19; 2 ^ 382 - 105; 2 ^ 414 - 17; 2 ^ 521 - 1].
Lemma large_primes_prime : Forall prime large_primes.
Proof.
  constructor; [exact p_256_647051443|]. constructor; [exact p_256_669711639|]. constructor; [exact p_251_285301239|]. constructor; [exact p_255_564819949|]. constructor; [exact p_382_997576599|]. constructor; [exact p_414_931472367|]. constructor; [exact p_521_115057151 | constructor].
Qed.
Lemma large_primes_range : forall p, In p large_primes -> in_range Big p /\ 2 ^ 64 <= p /\ Z.odd p = true /\ Z.log2 (p + 1) < 2 ^ 64.
Proof. intros p Hp. cbn [large_primes In] in Hp. repeat (destruct Hp as [<-|Hp]; [repeat split; vm_compute; congruence|]). destruct Hp. Qed.
(** the test: whatever the three random witnesses (not 0 modulo 2^64), the default configuration accepts them *)
Theorem C66_large_primes_default : forall f pf lf p dr, In p large_primes -> Z.of_nat lf <= 2 ^ 31 -> (forall x, In x dr -> x mod 2 ^ 64 <> 0) ->
  nt_is_prime f pf (uops f pf Big) no_probs lf p None dr <> Panic /\
  forall r dr', nt_is_prime f pf (uops f pf Big) no_probs lf p None dr = Ret (r, dr') -> r = Probable tt.
Proof.
  intros f pf lf p dr Hp Hlf Hd. destruct (large_primes_range p Hp) as [A [B [C D]]]. apply default_on_prime; try assumption; [exact I|]. exact (proj1 (Forall_forall _ _) large_primes_prime p Hp).
Qed.
(** the smallest discriminant of symbol -1 *)
Lemma large_primes_symbol : forall p, In p large_primes -> exists a d, Z.odd d = true /\ 5 <= d <= 21 /\ star d =[p]= a /\ Zpow_mod a ((p - 1) / 2) p = p - 1.
Proof.
  assert (C : forallb (fun '(p, d) => (1 <? p) && (1 <=? (p - 1) / 2) && (zbpow p (star d) ((p - 1) / 2) =? p - 1) && Z.odd d && (5 <=? d) && (d <=? 21)) (combine large_primes [5; 7; 13; 7; 17; 5; 7]) = true) by (vm_compute; reflexivity).
  intros p Hp. assert (Hd : exists d, In (p, d) (combine large_primes [5; 7; 13; 7; 17; 5; 7])) by (unfold large_primes in *; repeat (destruct Hp as [<-|Hp]; [eexists; repeat (left; reflexivity) || (do 1 right; left; reflexivity) || (do 2 right; left; reflexivity) || (do 3 right; left; reflexivity) || (do 4 right; left; reflexivity) || (do 5 right; left; reflexivity) || (do 6 right; left; reflexivity)|]); destruct Hp).
  destruct Hd as [d Hd]. rewrite forallb_forall in C. specialize (C _ Hd). cbv beta iota in C. rewrite !andb_true_iff in C. destruct C as [[[[[C1 C2] E] C3] C4] C5]. apply Z.ltb_lt in C1. apply Z.leb_le in C2, C4, C5. apply Z.eqb_eq in E.
  rewrite zbpow_spec in E by exact C2. exists (star d), d. split; [exact C3|]. split; [lia|]. split; [apply eqm_refl|]. rewrite Zpow_mod_correct by lia. exact E.
Qed.
Theorem C66_large_primes_bpsw : forall f pf lf p dr, In p large_primes -> 9 <= Z.of_nat lf <= 2 ^ 61 -> nt_is_prime f pf (uops f pf Big) no_probs lf p (Some pc_bpsw) dr = Ret (Probable tt, dr).
Proof.
  intros f pf lf p dr Hp Hlf. destruct (large_primes_range p Hp) as [A [B [C D]]]. destruct (large_primes_symbol p Hp) as [a [d [W1 [W2 [W3 W4]]]]].
  apply (bpsw_on_prime f pf Big p lf a d dr I A B (proj1 (Forall_forall _ _) large_primes_prime p Hp) C ltac:(lia) W1 ltac:(lia) W3 W4).
Qed.
Example C66_case_large_primes : nt_is_prime SmallTable Debug (uops SmallTable Debug Big) no_probs 9 (2 ^ 521 - 1) (Some pc_bpsw) [] = Ret (Probable tt, []) /\
  nt_is_prime SmallTable Debug (uops SmallTable Debug Big) no_probs 9 (2 ^ 521 - 1) None [5; 6; 7] <> Panic.
Proof.
  split; [apply C66_large_primes_bpsw; [do 6 right; left; reflexivity | cbn; lia]|]. apply C66_large_primes_default; [do 6 right; left; reflexivity | cbn; lia|]. intros x [<-|[<-|[<-|[]]]]; discriminate.
Qed.
Print Assumptions C66_large_primes_default.
Print Assumptions C66_large_primes_bpsw.
