(** * The assertions of the crate's own unit tests, continued (C66): the large composites. *)
From Coq Require Import ZArith Znumtheory List Lia Bool.
From Verif Require Import Base Spec Ext NT PBase Ops POps MPrimality MTraits PSprp MSieve MIsPrime PIsPrime PIsPrime2 PropHier NTRecip NTResidue PLucas PLucas2 PLucas3 PropLucas PDoc PTests PBig.
Import ListNotations.
Local Open Scope Z_scope.

(** src/buffer.rs:636-658: the composites in the order of the test. The last two are due to Arnault: strong pseudoprimes to every prime base up to
    29 and up to 200. *)
Definition large_composites : list Z := [21284175091214687912771199898307297748211672914763848041968395774954376176754; 6084766654921918907427900243509372380954290099172559290432744450051395395951;
  84594350493221918389213352992032324280367711247940675652888030554255915464401; 82793403787388584738507275144194252681; 1195068768795265792518361315725116351898245581;
  8038374574536394912570796143419421081388376882875581458374889175222974273765333652186502336163960045457915042023603208766569966760987284043965408232928738791850869166857328267761771029389697739470167082304286871099974399765441448453411558724506334092790222752962294149842306881685404326457534018329786111298960644845216191652872597534901].

(** A composite that is no Fermat pseudoprime to the base 2, or no Lucas pseudoprime, is rejected. *)
Definition fermat_fails (n : Z) : bool := negb (zbpow n 2 (n - 1) =? 1).
(** the Lucas test for the first discriminant 5, -7, 9, ... of symbol -1, which is -7 or 5 here; [m] is a divisor of n *)
Definition lucas_fails (n e m : Z) : bool :=
  (15 <? n) && (1 <? m) && (n mod m =? 0) && (fast_jacobi (star e) n =? -1) && negb (zbluc m 1 ((1 - star e) / 4) (n + 1) =? 0) &&
  ((e =? 5) || ((e =? 7) && (fast_jacobi 5 n =? 1))).
Lemma fermat_fails_ok : forall n, 3 <= n -> Z.odd n = true -> fermat_fails n = true -> z_sprp n 2 = false.
Proof.
  intros n Hn Ho H. apply negb_true_iff in H. apply Z.eqb_neq in H. rewrite zbpow_spec in H by lia.
  destruct (z_sprp n 2) eqn:E; [|reflexivity]. exfalso. apply H. apply z_sprp_spec in E; [|exact Hn | exact Ho]. apply strong_is_fermat in E; [|exact Hn]. unfold fermat_prp in E. rewrite E. apply Z.mod_1_l. lia.
Qed.
Lemma lucas_fails_ok : forall f pf t fuel n e m, valid_ity t -> in_range t n -> Z.odd n = true -> 2 <= Z.of_nat fuel <= 2 ^ 61 -> lucas_fails n e m = true ->
  is_slprp pf (uops f pf t) fuel n None None = Ret false.
Proof.
  intros f pf t fuel n e m Ht Hn Ho Hf H. unfold lucas_fails in H. rewrite !fast_jacobi_eq in H.
  repeat match goal with X : _ && _ = true |- _ => apply andb_true_iff in X; destruct X end. rewrite negb_true_iff in *.
  match goal with X : (15 <? n) = true |- _ => apply Z.ltb_lt in X; rename X into H15 end.
  match goal with X : (1 <? m) = true |- _ => apply Z.ltb_lt in X; rename X into Hm end.
  match goal with X : (n mod m =? 0) = true |- _ => apply Z.eqb_eq in X; rename X into Hd end.
  match goal with X : (jacobi (star e) n =? -1) = true |- _ => rename X into HJ end.
  match goal with X : (zbluc _ _ _ _ =? 0) = false |- _ => apply Z.eqb_neq in X; rename X into HU end. rewrite zbluc_spec in HU by lia.
  assert (He : e = 5 \/ e = 7 /\ jacobi 5 n = 1).
  { match goal with X : _ || _ = true |- _ => apply orb_true_iff in X; destruct X as [X|X] end; [left; apply Z.eqb_eq; assumption | right].
    match goal with X : (e =? 7) && _ = true |- _ => apply andb_true_iff in X; destruct X as [X1 X2] end. split; apply Z.eqb_eq; assumption. }
  assert (Ha : self_at n e).
  { split; [destruct He as [->|[-> _]]; reflexivity|]. split; [pose proof (Z.sqrt_nonneg n); lia|].
    split; [unfold self_stop; rewrite HJ; apply orb_true_r|]. intros x Ox Hx. destruct He as [->|[-> J5]]; [lia|].
    assert (x = 5) as -> by (assert (x <> 6) by (intros ->; discriminate Ox); lia). unfold self_stop. change (star 5) with 5. rewrite J5. reflexivity. }
  assert (HV : UV t n n) by (split; auto).
  rewrite (is_slprp_auto pf _ t _ _ _ (uops_lawful f pf t) Ht fuel n n e None None HV ltac:(cbv beta; lia) Ho ltac:(lia) Ha (or_introl (proj2 Hf)) (or_introl eq_refl)).
  replace (Z.of_nat fuel <=? (e - 5) / 2) with false.
  2:{ symmetry. apply Z.leb_gt. destruct He as [->|[-> _]]; [change ((5 - 5) / 2) with 0 | change ((7 - 5) / 2) with 1]; lia. }
  unfold z_auto. destruct (usable n e); [|reflexivity]. f_equal.
  assert (Oe : Z.odd e = true) by (destruct He as [->|[-> _]]; reflexivity).
  destruct (z_slprp n 1 (self_Q e)) eqn:E; [|reflexivity]. exfalso. apply HU.
  apply z_slprp_spec in E; [|lia | exact Ho | rewrite (self_Q_D e Oe); apply Z.eqb_eq in HJ; rewrite HJ; lia].
  apply strong_is_lucas in E; [|lia]. unfold lucas_prp in E. rewrite (self_Q_D e Oe) in E. apply Z.eqb_eq in HJ. rewrite HJ in E.
  replace (n - -1) with (n + 1) in E by ring. change ((1 - star e) / 4) with (self_Q e).
  apply Z.mod_divide; [lia|]. apply Z.mod_divide in E; [|lia]. apply Z.mod_divide in Hd; [|lia]. exact (Z.divide_trans _ _ _ Hd E).
Qed.
Theorem C66_large_composites : forall f pf n dr, In n large_composites -> nt_is_prime f pf (uops f pf Big) no_probs 50 n (Some pc_bpsw) dr = Ret (No, dr).
Proof.
  intros f pf n dr Hn. destruct Hn as [<-|Hn]; [destruct f, pf; vmc|].
  assert (C : forallb (fun n => (2 ^ 64 <=? n) && Z.odd n && (fermat_fails n || lucas_fails n 7 n || lucas_fails n 7 2004791083197498027091532260422734265025940830205662543872531023690016085350598121358111595798609866791081582542679083484572616906958584643763990222898400226296015918301)) (tl large_composites) = true) by (vm_compute; reflexivity).
  rewrite forallb_forall in C. specialize (C n Hn). cbv beta in C. apply andb_true_iff in C. destruct C as [C C3]. apply andb_true_iff in C. destruct C as [C1 C2]. apply Z.leb_le in C1.
  clear Hn. assert (Hin : in_range Big n) by (cbn [in_range]; lia). unfold nt_is_prime. assert (HV : UV Big n n) by (split; auto).
  rewrite (is_prime_large f pf _ no_probs Big _ _ _ (uops_lawful f pf Big) I 50 _ n n (Some pc_bpsw) dr HV ltac:(cbv beta; lia) C2 C1) by (intros w Hw; apply new_buf_range in Hw; lia).
  unfold draw_witnesses. replace (fixed_witnesses (the_config (Some pc_bpsw)) (buf_iter (buf_new f))) with [2] by (destruct f; reflexivity).
  cbn [the_config pc_bpsw sprp_random_trials slprp_test eslprp_test forallb]. change (0 <? 0) with false. cbn iota. cbn [bind].
  cbn [forallb]. destruct (z_sprp n 2) eqn:E2; cbn [negb andb]; [|reflexivity].
  assert (S : is_slprp pf (uops f pf Big) 50 n None None = Ret false).
  { apply orb_true_iff in C3. destruct C3 as [C3|C3]; [apply orb_true_iff in C3; destruct C3 as [C3|C3]|].
    - exfalso. rewrite (fermat_fails_ok n ltac:(lia) C2 C3) in E2. discriminate E2.
    - apply (lucas_fails_ok f pf Big 50 n 7 n); try assumption; [exact I | cbn; lia].
    - eapply (lucas_fails_ok f pf Big 50 n 7); [exact I | exact Hin | exact C2 | cbn; lia | exact C3]. }
  rewrite S. reflexivity.
Qed.
(** the last one passes the Fermat test, so that the Lucas test has to reject it *)
Example C66_case_composites : let n := nth 5 large_composites 0 in In n large_composites /\ 2 ^ 1119 < n /\ 2 ^ (n - 1) mod n = 1.
Proof. cbv zeta. split; [cbn; tauto|]. split; [vm_compute; reflexivity|]. rewrite <- zbpow_spec by (cbn; lia). vm_compute. reflexivity. Qed.

Print Assumptions C66_large_composites.
