(** * C08, C54: the cache of prime_phi and the table of logarithms of zeta, by themselves. *)
From Coq Require Import ZArith List Lia Bool.
From Verif Require Import Base MPi MFloat.
Import ListNotations.
Local Open Scope Z_scope.

Lemma key_eqb_spec : forall a b, key_eqb a b = true <-> a = b.
Proof. intros [a1 a2] [b1 b2]. unfold key_eqb. cbn [fst snd]. rewrite andb_true_iff, !Z.eqb_eq. split; [intros [-> ->]; reflexivity | intros E; injection E; auto]. Qed.
Lemma remove_absent : forall c k, ~ In k (map fst c) -> lru_remove c k = c.
Proof.
  induction c as [|[k' v'] c IH]; intros k H; [reflexivity|]. unfold lru_remove in *. cbn [filter fst map In] in *. destruct (key_eqb k' k) eqn:E; [apply key_eqb_spec in E; tauto|]. cbn [negb]. rewrite IH by tauto. reflexivity.
Qed.
Lemma remove_middle : forall c1 c2 k v, NoDup (map fst (c1 ++ (k, v) :: c2)) -> lru_remove (c1 ++ (k, v) :: c2) k = c1 ++ c2.
Proof.
  intros c1 c2 k v ND. rewrite map_app in ND. cbn [map fst] in ND. apply NoDup_remove_2 in ND. rewrite in_app_iff in ND. unfold lru_remove. rewrite filter_app. cbn [filter fst].
  replace (key_eqb k k) with true by (symmetry; apply key_eqb_spec; reflexivity). cbn [negb]. pose proof (remove_absent c1 k ltac:(tauto)) as E1. pose proof (remove_absent c2 k ltac:(tauto)) as E2. unfold lru_remove in E1, E2. rewrite E1, E2. reflexivity.
Qed.
Lemma find_absent : forall c k, ~ In k (map fst c) -> lru_find c k = None.
Proof. induction c as [|[k' v'] c IH]; intros k H; cbn [lru_find map fst In] in *; [reflexivity|]. destruct (key_eqb k' k) eqn:E; [apply key_eqb_spec in E; tauto | apply IH; tauto]. Qed.
Lemma find_middle : forall c1 c2 k v, ~ In k (map fst c1) -> lru_find (c1 ++ (k, v) :: c2) k = Some v.
Proof.
  induction c1 as [|[k' v'] c1 IH]; intros c2 k v H; cbn [app lru_find map fst In] in *; [replace (key_eqb k k) with true by (symmetry; apply key_eqb_spec; reflexivity); reflexivity|].
  destruct (key_eqb k' k) eqn:E; [apply key_eqb_spec in E; tauto | apply IH; tauto].
Qed.
(** A key that is present is found and moves to the front; a key that is absent changes nothing. *)
Theorem C08_cache_get : forall c1 c2 k v, NoDup (map fst (c1 ++ (k, v) :: c2)) -> lru_get (c1 ++ (k, v) :: c2) k = (Some v, (k, v) :: c1 ++ c2).
Proof.
  intros c1 c2 k v ND. unfold lru_get. rewrite find_middle, remove_middle; [reflexivity | exact ND|]. rewrite map_app in ND. cbn [map fst] in ND. apply NoDup_remove_2 in ND. rewrite in_app_iff in ND. tauto.
Qed.
Theorem C08_cache_get_absent : forall c k, ~ In k (map fst c) -> lru_get c k = (None, c).
Proof. intros c k H. unfold lru_get. rewrite find_absent by exact H. reflexivity. Qed.
(** Storing a key that is present replaces its value and moves it to the front; storing a new key puts it in front and,
    when the cache is full, drops the entry that was used the longest time ago. *)
Theorem C08_cache_put : forall cap c1 c2 k w v, NoDup (map fst (c1 ++ (k, w) :: c2)) -> Z.of_nat (length (c1 ++ (k, w) :: c2)) <= cap -> lru_put cap (c1 ++ (k, w) :: c2) k v = (k, v) :: c1 ++ c2.
Proof.
  intros cap c1 c2 k w v ND Hl. unfold lru_put. rewrite remove_middle by exact ND. apply firstn_all2. rewrite app_length in Hl. cbn [length] in *. rewrite app_length. lia.
Qed.
Theorem C08_cache_put_new : forall cap c k v, ~ In k (map fst c) -> 1 <= cap -> Z.of_nat (length c) <= cap ->
  lru_put cap c k v = (k, v) :: (if Z.of_nat (length c) <? cap then c else removelast c).
Proof.
  intros cap c k v H Hc Hl. unfold lru_put. rewrite remove_absent by exact H. destruct (Z.ltb_spec (Z.of_nat (length c)) cap); [apply firstn_all2; cbn [length]; lia|].
  replace (Z.to_nat cap) with (S (pred (length c))) by lia. cbn [firstn]. f_equal. symmetry. apply removelast_firstn_len.
Qed.
(** The table of ln zeta(k + 1): every entry is a binary64 number with a full significand, and the decimal literal of the
    source is within half a unit in the last place of it. *)
Theorem C54_table_literals : length ZETA_LOG_DECIMALS = 64%nat /\
  Forall2 (fun x y => 2 ^ 52 <= fst y < 2 ^ 53 /\ 2 * Z.abs (fst x * 2 ^ snd y - fst y * 10 ^ snd x) <= 10 ^ snd x) ZETA_LOG_DECIMALS ZETA_LOG_FLOATS.
Proof.
  assert (G : forall l m, length l = length m -> forallb (fun '((d, k), (a, e)) => (2 ^ 52 <=? a) && (a <? 2 ^ 53) && (2 * Z.abs (d * 2 ^ e - a * 10 ^ k) <=? 10 ^ k)) (combine l m) = true ->
    Forall2 (fun x y => 2 ^ 52 <= fst y < 2 ^ 53 /\ 2 * Z.abs (fst x * 2 ^ snd y - fst y * 10 ^ snd x) <= 10 ^ snd x) l m).
  { induction l as [|[d k] l IH]; intros [|[a e] m] HL H; try discriminate; [constructor|]. cbn [combine forallb] in H. rewrite !andb_true_iff, !Z.leb_le, Z.ltb_lt in H. constructor; [cbn [fst snd]; tauto | apply IH; [cbn in HL; lia | tauto]]. }
  split; [reflexivity|]. apply G; [reflexivity | vm_compute; reflexivity].
Qed.
Example C08_cache_case : lru_get [((5, 1), 3); ((7, 2), 2)] (7, 2) = (Some 2, [((7, 2), 2); ((5, 1), 3)]) /\ lru_put 2 [((5, 1), 3); ((7, 2), 2)] (9, 1) 5 = [((9, 1), 5); ((5, 1), 3)].
Proof. split; reflexivity. Qed.
Example C54_table_literals_case : nth 0 ZETA_LOG_DECIMALS (0, 0) = (4977003024707453704422733, 25) /\ nth 0 ZETA_LOG_FLOATS (0, 0) = (8965771586997728, 54).
Proof. split; reflexivity. Qed.
Print Assumptions C08_cache_get.
Print Assumptions C08_cache_get_absent.
Print Assumptions C08_cache_put.
Print Assumptions C08_cache_put_new.
Print Assumptions C54_table_literals.
