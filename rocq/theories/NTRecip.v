(** * Quadratic reciprocity: Gauss's lemma, Eisenstein's lattice count, and the Jacobi symbol by the Euclidean
    algorithm. No code is modelled here; the result makes the Jacobi symbol of Spec.v computable. *)
From Coq Require Import ZArith Znumtheory List Lia Bool Permutation.
From Verif Require Import Base Spec NT PBase NTLegendre NTResidue PExamples.
Import ListNotations.
Local Open Scope Z_scope.

(** ** Sums and signs *)
Definition upto (n : Z) : list Z := map Z.of_nat (seq 1 (Z.to_nat n)).
Lemma upto_in : forall n x, In x (upto n) <-> 1 <= x <= n.
Proof.
  intros n x. unfold upto. rewrite in_map_iff. split.
  - intros [k [<- Hk]]. apply in_seq in Hk. lia.
  - intros H. exists (Z.to_nat x). split; [lia|]. apply in_seq. lia.
Qed.
Lemma upto_nodup : forall n, NoDup (upto n).
Proof. intros n. unfold upto. apply NoDup_map_in; [intros; lia | apply seq_NoDup]. Qed.
Lemma upto_length : forall n, 0 <= n -> Z.of_nat (length (upto n)) = n.
Proof. intros n H. unfold upto. rewrite map_length, seq_length. lia. Qed.

Lemma zsum_add : forall A (f g : A -> Z) l, zsum (map (fun x => f x + g x) l) = zsum (map f l) + zsum (map g l).
Proof. intros A f g l. unfold zsum. induction l as [|x l IH]; cbn [map fold_right]; lia. Qed.
Lemma zsum_scale : forall A c (f : A -> Z) l, zsum (map (fun x => c * f x) l) = c * zsum (map f l).
Proof. intros A c f l. unfold zsum. induction l as [|x l IH]; cbn [map fold_right]; [lia|]. rewrite IH. ring. Qed.
Lemma zsum_ext : forall A (f g : A -> Z) l, (forall x, In x l -> f x = g x) -> zsum (map f l) = zsum (map g l).
Proof. intros A f g l H. f_equal. apply map_ext_in, H. Qed.
Lemma zsum_const : forall A c (l : list A), zsum (map (fun _ => c) l) = c * Z.of_nat (length l).
Proof. intros A c l. unfold zsum. induction l as [|x l IH]; cbn [map fold_right length]; lia. Qed.
Lemma zsum_swap : forall A B (f : A -> B -> Z) l m, zsum (map (fun x => zsum (map (f x) m)) l) = zsum (map (fun y => zsum (map (fun x => f x y) l)) m).
Proof.
  intros A B f l m. induction l as [|x l IH]; cbn [map].
  - change (0 = zsum (map (fun _ : B => 0) m)). rewrite zsum_const. lia.
  - change (zsum (map (f x) m) + zsum (map (fun x => zsum (map (f x) m)) l) = zsum (map (fun y => f x y + zsum (map (fun x => f x y) l)) m)).
    rewrite zsum_add, IH. reflexivity.
Qed.
Lemma zsum_mod2 : forall A (f g : A -> Z) l, (forall x, In x l -> f x =[2]= g x) -> zsum (map f l) =[2]= zsum (map g l).
Proof.
  intros A f g l H. unfold zsum. induction l as [|x l IH]; cbn [map fold_right]; [apply eqm_refl|].
  apply eqm_add; [apply H; left; reflexivity | apply IH; intros y Hy; apply H; right; exact Hy].
Qed.

Definition sgn (z : Z) : Z := if Z.even z then 1 else -1.
Lemma sgn_add : forall a b, sgn (a + b) = sgn a * sgn b.
Proof. intros a b. unfold sgn. rewrite Z.even_add. destruct (Z.even a), (Z.even b); reflexivity. Qed.
Lemma sgn_eqm : forall a b, a =[2]= b -> sgn a = sgn b.
Proof.
  intros a b [k H]. assert (a = b + 2 * k) as -> by lia. rewrite sgn_add. unfold sgn at 2. rewrite Z.even_mul. cbn [Z.even orb]. ring.
Qed.
Lemma sgn_zsum : forall A (f : A -> Z) l, sgn (zsum (map f l)) = prod (map (fun x => sgn (f x)) l).
Proof. intros A f l. induction l as [|x l IH]; [reflexivity|]. change (sgn (f x + zsum (map f l)) = sgn (f x) * prod (map (fun x => sgn (f x)) l)). rewrite sgn_add, IH. reflexivity. Qed.
Lemma prod_map_pair : forall A (f g : A -> Z) l, prod (map (fun x => f x * g x) l) = prod (map f l) * prod (map g l).
Proof. intros A f g l. induction l as [|x l IH]; cbn [map prod]; [reflexivity|]. rewrite IH. ring. Qed.

(** ** Gauss's lemma *)
Section Gauss.
Variables (p h a : Z).
Hypothesis (Pp : prime p).
Hypothesis (Ep : p = 2 * h + 1).
Hypothesis (Ha : ~ (p | a)).
Definition ind (k : Z) : Z := if (a * k) mod p <=? h then 0 else 1.
Definition lar (k : Z) : Z := if (a * k) mod p <=? h then (a * k) mod p else p - (a * k) mod p.

Lemma h_pos : 1 <= h.
Proof. pose proof (prime_ge2 p Pp). lia. Qed.
Lemma ak_nonzero : forall k, 1 <= k <= h -> 1 <= (a * k) mod p < p.
Proof.
  intros k Hk. pose proof h_pos. pose proof (Z.mod_pos_bound (a * k) p ltac:(lia)). destruct (Z.eq_dec ((a * k) mod p) 0) as [E|E]; [|lia]. exfalso.
  apply Z.mod_divide in E; [|lia]. apply prime_div_mul in E; [|exact Pp]. destruct E as [E|E]; [exact (Ha E)|]. apply Z.divide_pos_le in E; lia.
Qed.
Lemma lar_range : forall k, 1 <= k <= h -> 1 <= lar k <= h.
Proof. intros k Hk. pose proof (ak_nonzero k Hk). unfold lar. destruct (Z.leb_spec ((a * k) mod p) h); lia. Qed.
Lemma ak_sign : forall k, a * k =[p]= sgn (ind k) * lar k.
Proof.
  intros k. pose proof h_pos. unfold ind, lar. destruct ((a * k) mod p <=? h); unfold sgn; cbn [Z.even].
  - rewrite Z.mul_1_l. apply eqm_sym, eqm_mod. lia.
  - replace (-1 * (p - (a * k) mod p)) with ((a * k) mod p + -1 * p) by ring. apply eqm_mod_eq; [lia|]. rewrite Z.mod_add, Z.mod_mod by lia. reflexivity.
Qed.
Lemma lar_inj : forall k l, 1 <= k <= h -> 1 <= l <= h -> lar k = lar l -> k = l.
Proof.
  intros k l Hk Hl E. pose proof (ak_sign k) as A. pose proof (ak_sign l) as B. rewrite E in A.
  assert (C : a * k =[p]= a * l \/ a * k =[p]= - (a * l)).
  { unfold sgn in A, B. destruct (Z.even (ind k)), (Z.even (ind l)).
    - left. eapply eqm_trans; [exact A | apply eqm_sym, B].
    - right. eapply eqm_trans; [exact A|]. replace (1 * lar l) with (- (-1 * lar l)) by ring. apply eqm_opp, eqm_sym, B.
    - right. eapply eqm_trans; [exact A|]. replace (-1 * lar l) with (- (1 * lar l)) by ring. apply eqm_opp, eqm_sym, B.
    - left. eapply eqm_trans; [exact A | apply eqm_sym, B]. }
  destruct C as [C|C]; unfold eqm in C.
  - replace (a * k - a * l) with (a * (k - l)) in C by ring. apply prime_div_mul in C; [|exact Pp]. destruct C as [C|C]; [contradiction|].
    destruct (Z.eq_dec k l) as [|N]; [assumption|]. exfalso. apply Z.divide_abs_r in C. apply Z.divide_pos_le in C; lia.
  - replace (a * k - - (a * l)) with (a * (k + l)) in C by ring. apply prime_div_mul in C; [|exact Pp]. destruct C as [C|C]; [contradiction|].
    exfalso. apply Z.divide_pos_le in C; lia.
Qed.
Lemma lar_perm : Permutation (map lar (upto h)) (upto h).
Proof.
  apply NoDup_Permutation_bis.
  - apply NoDup_map_in; [|apply upto_nodup]. intros x y Hx Hy. apply upto_in in Hx, Hy. apply lar_inj; assumption.
  - rewrite map_length. lia.
  - intros x Hx. apply in_map_iff in Hx. destruct Hx as [k [<- Hk]]. apply upto_in in Hk. apply upto_in, lar_range, Hk.
Qed.
Lemma gauss_lemma : legendre a p = sgn (zsum (map ind (upto h))).
Proof.
  pose proof h_pos as Hh. assert (Ho : Z.odd p = true) by (rewrite Ep, Z.odd_add, Z.odd_mul; reflexivity).
  assert (Hq : (p - 1) / 2 = h) by (rewrite Ep; replace (2 * h + 1 - 1) with (h * 2) by ring; apply Z.div_mul; lia).
  pose proof (euler_criterion p a Pp Ho) as C. rewrite Hq in C.
  assert (E : a ^ h * prod (upto h) =[p]= sgn (zsum (map ind (upto h))) * prod (upto h)).
  { replace h with (Z.of_nat (length (upto h))) at 1 by (apply upto_length; lia). rewrite <- prod_map_mul.
    rewrite sgn_zsum. rewrite <- (prod_permutation _ _ lar_perm). rewrite <- prod_map_pair.
    apply prod_eqm. generalize (upto h). intros l. induction l as [|x l IH]; cbn [map]; constructor; [apply ak_sign | exact IH]. }
  assert (R : rel_prime p (prod (upto h))).
  { apply prime_rel_prime; [exact Pp|]. intros D. assert (F : forall l, (forall x, In x l -> 1 <= x <= h) -> (p | prod l) -> False).
    { induction l as [|x l IH]; cbn [prod]; intros Hl Dl; [apply Z.divide_pos_le in Dl; lia|]. apply prime_div_mul in Dl; [|exact Pp].
      destruct Dl as [Dl|Dl]; [specialize (Hl x (or_introl eq_refl)); apply Z.divide_pos_le in Dl; lia|]. apply IH; [|exact Dl]. intros y Hy. apply Hl. right. exact Hy. }
    apply (F (upto h)); [|exact D]. intros x Hx. apply upto_in, Hx. }
  apply (small_eqm p); [lia | apply legendre_range; lia | unfold sgn; destruct (Z.even _); lia|].
  apply eqm_trans with (a ^ h); [apply eqm_sym, C|]. apply (eqm_cancel_l p (prod (upto h))); [exact R|]. rewrite !(Z.mul_comm (prod (upto h))). exact E.
Qed.
(** parity of the count by floors *)
Lemma gauss_floor : (a - 1) * zsum (upto h) =[2]= zsum (map (fun k => a * k / p) (upto h)) + zsum (map ind (upto h)).
Proof.
  pose proof h_pos as Hh.
  assert (E : a * zsum (upto h) = p * zsum (map (fun k => a * k / p) (upto h)) + zsum (map (fun k => (a * k) mod p) (upto h))).
  { rewrite <- !zsum_scale, <- zsum_add. rewrite <- (map_id (upto h)) at 1. rewrite <- zsum_scale. apply zsum_ext. intros k _. apply Z.div_mod. lia. }
  assert (M : zsum (map (fun k => (a * k) mod p) (upto h)) =[2]= zsum (upto h) + zsum (map ind (upto h))).
  { rewrite <- (zsum_perm _ _ lar_perm). rewrite <- zsum_add. apply zsum_mod2. intros k _. unfold lar, ind. destruct (_ <=? h).
    - apply eqm_mod_eq; [lia | f_equal; ring].
    - exists ((a * k) mod p - h - 1). lia. }
  destruct M as [m M]. unfold eqm. exists (h * zsum (map (fun k => a * k / p) (upto h)) + m). 
  replace ((a - 1) * zsum (upto h)) with (a * zsum (upto h) - zsum (upto h)) by ring. rewrite E. rewrite Ep at 1. lia.
Qed.
End Gauss.

(** ** The symbol of 2 and the law of reciprocity for primes *)
Lemma upto_succ : forall n, 0 <= n -> upto (n + 1) = upto n ++ [n + 1].
Proof.
  intros n H. unfold upto. replace (Z.to_nat (n + 1)) with (S (Z.to_nat n)) by lia. rewrite seq_S, map_app. cbn [map]. f_equal. f_equal. lia.
Qed.
Lemma zsum_app : forall l m, zsum (l ++ m) = zsum l + zsum m.
Proof. intros l m. unfold zsum. induction l as [|x l IH]; cbn [app fold_right]; lia. Qed.
Lemma zsum_upto : forall n, 0 <= n -> 2 * zsum (upto n) = n * (n + 1).
Proof. intros n H. pattern n. apply natlike_ind; [reflexivity | | exact H]. intros x Hx IH. unfold Z.succ. rewrite upto_succ, zsum_app by lia. unfold zsum at 2. cbn [fold_right]. lia. Qed.
Lemma count_upto : forall j m, 0 <= m <= j -> zsum (map (fun l => if l <=? m then 1 else 0) (upto j)) = m.
Proof.
  intros j m H. assert (G : forall x, 0 <= x -> zsum (map (fun l => if l <=? m then 1 else 0) (upto x)) = Z.min x m).
  { intros x Hx. pattern x. apply natlike_ind; [cbn; lia | | exact Hx]. intros y Hy IH. unfold Z.succ. rewrite upto_succ, map_app, zsum_app, IH by lia. unfold zsum. cbn [map fold_right].
    destruct (Z.leb_spec (y + 1) m); lia. }
  rewrite G; lia.
Qed.
Definition two_sym (n : Z) : Z := if (n mod 8 =? 1) || (n mod 8 =? 7) then 1 else -1.
Lemma sgn_two : forall h, 0 <= h -> sgn (zsum (upto h)) = two_sym (2 * h + 1).
Proof.
  intros h H. pose proof (zsum_upto h H) as E. unfold two_sym. set (S := zsum (upto h)) in *. clearbody S.
  pose proof (Z.div_mod h 4 ltac:(lia)) as D. pose proof (Z.mod_pos_bound h 4 ltac:(lia)) as B. set (q := h / 4) in *. set (r := h mod 4) in *. clearbody q r.
  assert (R : r = 0 \/ r = 1 \/ r = 2 \/ r = 3) by lia.
  destruct R as [-> | [-> | [-> | ->]]]; rewrite D.
  - replace ((2 * (4 * q + 0) + 1) mod 8) with 1 by (replace (2 * (4 * q + 0) + 1) with (1 + q * 8) by ring; rewrite Z.mod_add by lia; reflexivity). cbn.
    rewrite (sgn_eqm _ 0); [reflexivity|]. exists (q * (4 * q + 1)). rewrite D in E. lia.
  - replace ((2 * (4 * q + 1) + 1) mod 8) with 3 by (replace (2 * (4 * q + 1) + 1) with (3 + q * 8) by ring; rewrite Z.mod_add by lia; reflexivity). cbn.
    rewrite (sgn_eqm _ 1); [reflexivity|]. exists (4 * q * q + 3 * q). rewrite D in E. lia.
  - replace ((2 * (4 * q + 2) + 1) mod 8) with 5 by (replace (2 * (4 * q + 2) + 1) with (5 + q * 8) by ring; rewrite Z.mod_add by lia; reflexivity). cbn.
    rewrite (sgn_eqm _ 1); [reflexivity|]. exists (4 * q * q + 5 * q + 1). rewrite D in E. lia.
  - replace ((2 * (4 * q + 3) + 1) mod 8) with 7 by (replace (2 * (4 * q + 3) + 1) with (7 + q * 8) by ring; rewrite Z.mod_add by lia; reflexivity). cbn.
    rewrite (sgn_eqm _ 0); [reflexivity|]. exists (4 * q * q + 7 * q + 3). rewrite D in E. lia.
Qed.
Lemma odd_half : forall p, Z.odd p = true -> exists h, p = 2 * h + 1.
Proof. intros p H. apply Z.odd_spec in H. exact H. Qed.
Lemma legendre_2 : forall p, prime p -> Z.odd p = true -> legendre 2 p = two_sym p.
Proof.
  intros p Pp Ho. destruct (odd_half p Ho) as [h E]. pose proof (odd_prime_3 p Pp Ho).
  assert (N : ~ (p | 2)) by (intros D; apply Z.divide_pos_le in D; lia).
  rewrite (gauss_lemma p h 2 Pp E N). rewrite E at 2. rewrite <- sgn_two by lia. apply sgn_eqm, eqm_sym.
  pose proof (gauss_floor p h 2 Pp E N) as G.
  assert (F : zsum (map (fun k => 2 * k / p) (upto h)) = 0).
  { rewrite (zsum_ext _ _ (fun _ => 0)); [rewrite zsum_const; lia|]. intros k Hk. apply upto_in in Hk. apply Z.div_small. lia. }
  rewrite F in G. replace ((2 - 1) * zsum (upto h)) with (zsum (upto h)) in G by ring. exact G.
Qed.
Definition recip (m n : Z) : Z := if (m mod 4 =? 3) && (n mod 4 =? 3) then -1 else 1.
Lemma lattice : forall p q h j, prime p -> prime q -> p <> q -> p = 2 * h + 1 -> q = 2 * j + 1 ->
  zsum (map (fun k => q * k / p) (upto h)) + zsum (map (fun l => p * l / q) (upto j)) = h * j.
Proof.
  intros p q h j Pp Pq N Ep Eq. pose proof (prime_ge2 p Pp). pose proof (prime_ge2 q Pq).
  rewrite (zsum_ext _ (fun k => q * k / p) (fun k => zsum (map (fun l => if p * l <? q * k then 1 else 0) (upto j)))).
  2:{ intros k Hk. apply upto_in in Hk. rewrite <- (count_upto j (q * k / p)).
      - apply zsum_ext. intros l Hl. apply upto_in in Hl. destruct (Z.leb_spec l (q * k / p)) as [L|L].
        + replace (p * l <? q * k) with true; [reflexivity|]. symmetry. apply Z.ltb_lt. assert (p * l <= q * k) by (apply Z.le_trans with (p * (q * k / p)); [apply Z.mul_le_mono_nonneg_l; lia | apply Z.mul_div_le; lia]).
          destruct (Z.eq_dec (p * l) (q * k)) as [E|]; [|lia]. exfalso. assert (D : (p | q * k)) by (exists l; lia). apply prime_div_mul in D; [|exact Pp].
          destruct D as [D|D]; [apply N, prime_divides_prime; assumption | apply Z.divide_pos_le in D; lia].
        + replace (p * l <? q * k) with false; [reflexivity|]. symmetry. apply Z.ltb_ge. apply Z.lt_le_incl. apply Z.lt_le_trans with (p * (q * k / p + 1)); [|apply Z.mul_le_mono_nonneg_l; lia].
          pose proof (Z.div_mod (q * k) p ltac:(lia)). pose proof (Z.mod_pos_bound (q * k) p ltac:(lia)). lia.
      - split; [apply Z.div_pos; nia|]. apply Z.lt_succ_r. apply Z.div_lt_upper_bound; [lia|]. unfold Z.succ. nia. }
  rewrite zsum_swap, <- zsum_add. rewrite (zsum_ext _ _ (fun _ => h)); [rewrite zsum_const, upto_length by lia; reflexivity|].
  intros l Hl. apply upto_in in Hl.
  rewrite <- (count_upto h (p * l / q)).
  2:{ split; [apply Z.div_pos; nia|]. apply Z.lt_succ_r. apply Z.div_lt_upper_bound; [lia|]. unfold Z.succ. nia. }
  rewrite <- zsum_add. rewrite (zsum_ext _ _ (fun _ => 1)); [rewrite zsum_const, upto_length by lia; lia|].
  intros k Hk. apply upto_in in Hk. destruct (Z.leb_spec k (p * l / q)) as [L|L].
  - replace (p * l <? q * k) with false; [reflexivity|]. symmetry. apply Z.ltb_ge. apply Z.le_trans with (q * (p * l / q)); [apply Z.mul_le_mono_nonneg_l; lia | apply Z.mul_div_le; lia].
  - replace (p * l <? q * k) with true; [reflexivity|]. symmetry. apply Z.ltb_lt. apply Z.lt_le_trans with (q * (p * l / q + 1)); [|apply Z.mul_le_mono_nonneg_l; lia].
    pose proof (Z.div_mod (p * l) q ltac:(lia)). pose proof (Z.mod_pos_bound (p * l) q ltac:(lia)). lia.
Qed.
Lemma sgn_half : forall h j, sgn (h * j) = recip (2 * h + 1) (2 * j + 1).
Proof.
  assert (M : forall h, (2 * h + 1) mod 4 = if Z.even h then 1 else 3).
  { intros h. rewrite (Z.div2_odd h) at 1. rewrite <- Z.negb_odd. destruct (Z.odd h); cbn [Z.b2z negb].
    - replace (2 * (2 * Z.div2 h + 1) + 1) with (3 + Z.div2 h * 4) by ring. rewrite Z.mod_add by lia. reflexivity.
    - replace (2 * (2 * Z.div2 h + 0) + 1) with (1 + Z.div2 h * 4) by ring. rewrite Z.mod_add by lia. reflexivity. }
  intros h j. unfold sgn, recip. rewrite Z.even_mul, !M. destruct (Z.even h), (Z.even j); reflexivity.
Qed.
Lemma recip_values : forall m n, recip m n = 1 \/ recip m n = -1.
Proof. intros m n. unfold recip. destruct (_ && _); auto. Qed.
Lemma recip_sq : forall m n, recip m n * recip m n = 1.
Proof. intros m n. destruct (recip_values m n) as [-> | ->]; reflexivity. Qed.
Theorem quadratic_reciprocity : forall p q, prime p -> prime q -> Z.odd p = true -> Z.odd q = true -> legendre q p = recip q p * legendre p q.
Proof.
  intros p q Pp Pq Op Oq. pose proof (odd_prime_3 p Pp Op). pose proof (odd_prime_3 q Pq Oq). destruct (Z.eq_dec p q) as [->|N].
  { assert (E : legendre q q = 0) by (apply legendre_0; [lia | apply Z.divide_refl]). rewrite E. ring. }
  destruct (odd_half p Op) as [h Ep]. destruct (odd_half q Oq) as [j Eq].
  assert (N1 : ~ (p | q)) by (intros D; apply N, prime_divides_prime; assumption).
  assert (N2 : ~ (q | p)) by (intros D; apply N; symmetry; apply prime_divides_prime; assumption).
  pose proof (gauss_floor p h q Pp Ep N1) as G1. pose proof (gauss_floor q j p Pq Eq N2) as G2.
  rewrite (gauss_lemma p h q Pp Ep N1), (gauss_lemma q j p Pq Eq N2).
  assert (S1 : sgn (zsum (map (ind p h q) (upto h))) = sgn (zsum (map (fun k => q * k / p) (upto h)))).
  { apply sgn_eqm. destruct G1 as [c G1]. exists (j * zsum (upto h) - c - zsum (map (fun k => q * k / p) (upto h))). rewrite Eq in G1 at 1. lia. }
  assert (S2 : sgn (zsum (map (ind q j p) (upto j))) = sgn (zsum (map (fun l => p * l / q) (upto j)))).
  { apply sgn_eqm. destruct G2 as [c G2]. exists (h * zsum (upto j) - c - zsum (map (fun l => p * l / q) (upto j))). rewrite Ep in G2 at 1. lia. }
  rewrite S1, S2. replace (recip q p) with (sgn (h * j)) by (rewrite Z.mul_comm, sgn_half, <- Eq, <- Ep; reflexivity). rewrite <- (lattice p q h j Pp Pq N Ep Eq), sgn_add.
  rewrite <- Z.mul_assoc. replace (sgn _ * sgn _) with 1; [ring|]. unfold sgn. destruct (Z.even _); reflexivity.
Qed.

(** ** The Jacobi symbol *)
Lemma jacobi_list : forall a l, Forall prime l -> jacobi a (prod l) = prod (map (legendre a) l).
Proof.
  intros a l P. assert (1 <= prod l). { clear - P. induction P as [|x l Px _ IH]; cbn [prod]; [lia|]. pose proof (prime_ge2 x Px). nia. }
  destruct (factor_list_spec (prod l) H) as [A B]. assert (Pm : Permutation (factor_list (prod l)) l) by (apply (prime_product_perm _ (prod l)); split; auto).
  unfold jacobi. rewrite <- (prod_permutation _ _ (Permutation_map (legendre a) Pm)). generalize (factor_list (prod l)). intros m. induction m as [|x m IH]; cbn [fold_right map prod]; [reflexivity | rewrite IH; reflexivity].
Qed.
Lemma odd_factors : forall l, Z.odd (prod l) = true -> Forall (fun p => Z.odd p = true) l.
Proof. induction l as [|x l IH]; cbn [prod]; intros H; constructor; rewrite Z.odd_mul in H; apply andb_prop in H; [apply H | apply IH, H]. Qed.
Lemma primes_of : forall n, 1 <= n -> exists l, Forall prime l /\ prod l = n.
Proof. intros n H. destruct (factor_list_spec n H) as [A B]. eauto. Qed.
Lemma odd_mod4 : forall n, Z.odd n = true -> n mod 4 = 1 \/ n mod 4 = 3.
Proof. intros n H. destruct (odd_half n H) as [h ->]. pose proof (Z.div_mod (2 * h + 1) 4 ltac:(lia)). pose proof (Z.mod_pos_bound (2 * h + 1) 4 ltac:(lia)). lia. Qed.
Lemma odd_mod8 : forall n, Z.odd n = true -> n mod 8 = 1 \/ n mod 8 = 3 \/ n mod 8 = 5 \/ n mod 8 = 7.
Proof. intros n H. destruct (odd_half n H) as [h ->]. pose proof (Z.div_mod (2 * h + 1) 8 ltac:(lia)). pose proof (Z.mod_pos_bound (2 * h + 1) 8 ltac:(lia)). lia. Qed.
Lemma two_sym_mul : forall m n, Z.odd m = true -> Z.odd n = true -> two_sym (m * n) = two_sym m * two_sym n.
Proof.
  intros m n Hm Hn. unfold two_sym. rewrite Z.mul_mod by lia. destruct (odd_mod8 m Hm) as [-> | [-> | [-> | ->]]], (odd_mod8 n Hn) as [-> | [-> | [-> | ->]]]; reflexivity.
Qed.
Lemma recip_mul_l : forall m m' n, Z.odd m = true -> Z.odd m' = true -> recip (m * m') n = recip m n * recip m' n.
Proof.
  intros m m' n Hm Hn. unfold recip. rewrite Z.mul_mod by lia. destruct (odd_mod4 m Hm) as [-> | ->], (odd_mod4 m' Hn) as [-> | ->]; destruct (n mod 4 =? 3); reflexivity.
Qed.
Lemma recip_sym : forall m n, recip m n = recip n m.
Proof. intros m n. unfold recip. rewrite andb_comm. reflexivity. Qed.
Theorem jacobi_2 : forall n, 1 <= n -> Z.odd n = true -> jacobi 2 n = two_sym n.
Proof.
  intros n Hn Ho. destruct (primes_of n Hn) as [l [P <-]]. apply odd_factors in Ho. clear Hn. rewrite jacobi_list by exact P. revert Ho. induction P as [|p l Pp P IH]; intros Ho; cbn [map prod]; [reflexivity|].
  inversion Ho as [|? ? O1 O2]; subst. rewrite IH, legendre_2 by assumption. symmetry. apply two_sym_mul; [exact O1|].
  clear - O2. induction O2 as [|x l Hx _ IH]; cbn [prod]; [reflexivity|]. rewrite Z.odd_mul, Hx, IH. reflexivity.
Qed.
Theorem jacobi_mul : forall a b n, 1 <= n -> Z.odd n = true -> jacobi (a * b) n = jacobi a n * jacobi b n.
Proof.
  intros a b n Hn Ho. destruct (primes_of n Hn) as [l [P <-]]. apply odd_factors in Ho. clear Hn. rewrite !jacobi_list by exact P. rewrite <- prod_map_pair. f_equal. apply map_ext_in.
  intros p Hp. rewrite Forall_forall in P, Ho. apply legendre_mul; [apply P, Hp | apply Ho, Hp].
Qed.
Theorem jacobi_mul_r : forall a m n, 1 <= m -> 1 <= n -> jacobi a (m * n) = jacobi a m * jacobi a n.
Proof.
  intros a m n Hm Hn. destruct (primes_of m Hm) as [l [P <-]]. destruct (primes_of n Hn) as [l' [P' <-]]. rewrite <- prod_app, !jacobi_list by (try apply Forall_app; auto). rewrite map_app, prod_app. reflexivity.
Qed.
Lemma recip_list : forall p l, prime p -> Z.odd p = true -> Forall prime l -> Forall (fun q => Z.odd q = true) l -> legendre (prod l) p = recip (prod l) p * prod (map (legendre p) l).
Proof.
  intros p l Pp Op P O. pose proof (odd_prime_3 p Pp Op). induction P as [|q l Pq P IH]; cbn [map prod].
  - rewrite legendre_1 by lia. reflexivity.
  - inversion O as [|? ? O1 O2]; subst. rewrite legendre_mul, IH by assumption. rewrite recip_mul_l; [|exact O1|]. 2:{ clear - O2. induction O2 as [|x l Hx _ IH]; cbn [prod]; [reflexivity|]. rewrite Z.odd_mul, Hx, IH. reflexivity. }
    rewrite (quadratic_reciprocity p q) by assumption. ring.
Qed.
Theorem jacobi_reciprocity : forall m n, 1 <= m -> 1 <= n -> Z.odd m = true -> Z.odd n = true -> jacobi m n = recip m n * jacobi n m.
Proof.
  intros m n Hm Hn Om On. destruct (primes_of n Hn) as [l [P El]]. assert (Ol : Forall (fun p => Z.odd p = true) l) by (apply odd_factors; rewrite El; exact On). subst n.
  destruct (primes_of m Hm) as [l' [P' El']]. assert (Ol' : Forall (fun p => Z.odd p = true) l') by (apply odd_factors; rewrite El'; exact Om). subst m. clear Hm Hn.
  rewrite (jacobi_list _ l) by exact P. revert On. induction P as [|p l Pp P IH]; cbn [map prod]; intros On.
  - rewrite recip_sym. change (recip 1 (prod l')) with 1. rewrite jacobi_list by exact P'. clear - P' Ol'. induction P' as [|q l Pq P IH]; cbn [map prod]; [reflexivity|]. inversion Ol' as [|? ? O1 O2]; subst. rewrite legendre_1 by (apply prime_ge2, Pq). specialize (IH O2). lia.
  - inversion Ol as [|? ? O1 O2]; subst. rewrite Z.odd_mul in On. apply andb_prop in On. destruct On as [_ On]. rewrite IH by assumption.
    rewrite (recip_sym _ (p * prod l)), recip_mul_l by assumption. rewrite jacobi_mul.
    + rewrite (recip_list p l') by assumption. rewrite <- (jacobi_list p l') by exact P'. rewrite (recip_sym p), (recip_sym (prod l)). ring.
    + clear - P'. induction P' as [|x l Px _ IH]; cbn [prod]; [lia|]. pose proof (prime_ge2 x Px). nia.
    + exact Om.
Qed.

(** ** The Euclidean algorithm for the Jacobi symbol *)
Fixpoint halve (p : positive) (s t : Z) : positive * Z := match p with xO q => halve q s (s * t) | _ => (p, t) end.
Fixpoint euclid_jacobi (fuel : nat) (a n acc : Z) : option Z :=
  match fuel with
  | O => None
  | S k => match a mod n with
           | Zpos p => let '(m, acc') := halve p (two_sym n) acc in
                       euclid_jacobi k n (Zpos m) (recip (Zpos m) n * acc')
           | _ => Some (if n =? 1 then acc else 0)
           end
  end.
Lemma jacobi_m1 : forall a, jacobi a 1 = 1.
Proof. reflexivity. Qed.
Lemma halve_spec : forall p n t m t', 1 <= n -> Z.odd n = true -> halve p (two_sym n) t = (m, t') -> t * jacobi (Zpos p) n = t' * jacobi (Zpos m) n /\ Z.odd (Zpos m) = true.
Proof.
  intros p n t m t' Hn Ho. revert t. induction p as [p _|p IH|]; intros t E; cbn [halve] in E; try (injection E as <- <-; auto).
  apply IH in E. destruct E as [E O]. split; [|exact O]. rewrite <- E. change (Zpos p~0) with (2 * Zpos p). rewrite jacobi_mul, jacobi_2 by assumption. ring.
Qed.
Lemma euclid_jacobi_spec : forall fuel a n acc j, 1 <= n -> Z.odd n = true -> euclid_jacobi fuel a n acc = Some j -> j = acc * jacobi a n.
Proof.
  induction fuel as [|k IH]; intros a n acc j Hn Ho E; cbn [euclid_jacobi] in E; [discriminate|].
  assert (Em : jacobi a n = jacobi (a mod n) n) by (apply jacobi_eqm; [lia | apply eqm_sym, eqm_mod; lia]). rewrite Em.
  pose proof (Z.mod_pos_bound a n ltac:(lia)) as B. destruct (a mod n) as [|p|p] eqn:Ea; [| |lia].
  - injection E as <-. destruct (Z.eqb_spec n 1) as [->|N]; [rewrite jacobi_m1; ring|].
    destruct (primes_of n Hn) as [l [P El]]. destruct l as [|q l]; [cbn in El; lia|]. inversion P as [|? ? Pq _]; subst.
    assert (Z0' : jacobi 0 (prod (q :: l)) = 0) by (apply (jacobi_zero_prime q); [lia | exact Pq | apply Z.divide_factor_l | apply Z.divide_0_r]). rewrite Z0'. ring.
  - destruct (halve p (two_sym n) acc) as [m acc'] eqn:Eh. apply (halve_spec p n acc m acc' Hn Ho) in Eh. destruct Eh as [Eh Om].
    apply IH in E; [|lia | exact Om]. rewrite Eh, E. rewrite (jacobi_reciprocity (Zpos m) n) by (lia || assumption). ring.
Qed.
(** the Jacobi symbol of Spec.v, computed by the Euclidean algorithm *)
Definition fast_jacobi (a n : Z) : Z :=
  if (1 <=? n) && Z.odd n then match euclid_jacobi (Pos.to_nat (Pos.size (Z.to_pos n)~0~0~0) * 2) a n 1 with Some j => j | None => jacobi a n end else jacobi a n.
Theorem fast_jacobi_eq : forall a n, fast_jacobi a n = jacobi a n.
Proof.
  intros a n. unfold fast_jacobi. destruct ((1 <=? n) && Z.odd n) eqn:E; [|reflexivity]. apply andb_prop in E. destruct E as [E1 E2]. apply Z.leb_le in E1.
  destruct (euclid_jacobi _ a n 1) as [j|] eqn:Ej; [|reflexivity]. apply euclid_jacobi_spec in Ej; [lia | exact E1 | exact E2].
Qed.
