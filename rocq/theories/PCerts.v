(** * Primality certificates (Pocklington) for the primes that the crate's unit tests name (C66). *)
From Coq Require Import ZArith Znumtheory List.
From Verif Require Import NTPock.
Import ListNotations.
Local Open Scope Z_scope.
Lemma prime_114282372716711 : prime 114282372716711.
Proof. apply (pocklington _ [(227489, 1, 2); (167, 1, 2)]); [vm_compute; reflexivity | nodup|]. constructor; [small_prime|]. constructor; [small_prime|]. constructor. Qed.
Lemma prime_4114641232003272535381657 : prime 4114641232003272535381657.
Proof. apply (pocklington _ [(114282372716711, 1, 2)]); [vm_compute; reflexivity | nodup|]. constructor; [exact prime_114282372716711|]. constructor. Qed.
Lemma prime_10350794431055162386718619237468234569 : prime 10350794431055162386718619237468234569.
Proof. apply (pocklington _ [(4114641232003272535381657, 1, 3)]); [vm_compute; reflexivity | nodup|]. constructor; [exact prime_4114641232003272535381657|]. constructor. Qed.
Lemma prime_35532364099 : prime 35532364099.
Proof. apply (pocklington _ [(1277, 1, 3); (263, 1, 3)]); [vm_compute; reflexivity | nodup|]. constructor; [small_prime|]. constructor; [small_prime|]. constructor. Qed.
Lemma prime_2417851639229258349412369 : prime 2417851639229258349412369.
Proof. apply (pocklington _ [(35532364099, 1, 2); (78233, 1, 2)]); [vm_compute; reflexivity | nodup|]. constructor; [exact prime_35532364099|]. constructor; [small_prime|]. constructor. Qed.
Lemma prime_5087388919 : prime 5087388919.
Proof. apply (pocklington _ [(1369787, 1, 2)]); [vm_compute; reflexivity | nodup|]. constructor; [small_prime|]. constructor. Qed.
Lemma prime_934959969241817833 : prime 934959969241817833.
Proof. apply (pocklington _ [(5087388919, 1, 2)]); [vm_compute; reflexivity | nodup|]. constructor; [exact prime_5087388919|]. constructor. Qed.
Lemma prime_9349599692418178331 : prime 9349599692418178331.
Proof. apply (pocklington _ [(934959969241817833, 1, 2)]); [vm_compute; reflexivity | nodup|]. constructor; [exact prime_934959969241817833|]. constructor. Qed.
Lemma prime_18699199384836356663 : prime 18699199384836356663.
Proof. apply (pocklington _ [(9349599692418178331, 1, 2)]); [vm_compute; reflexivity | nodup|]. constructor; [exact prime_9349599692418178331|]. constructor. Qed.
Lemma prime_76693073 : prime 76693073.
Proof. apply (pocklington _ [(4793317, 1, 2)]); [vm_compute; reflexivity | nodup|]. constructor; [small_prime|]. constructor. Qed.
Lemma prime_10541923042289 : prime 10541923042289.
Proof. apply (pocklington _ [(76693073, 1, 2)]); [vm_compute; reflexivity | nodup|]. constructor; [exact prime_76693073|]. constructor. Qed.
Lemma prime_2019922777445599503530083 : prime 2019922777445599503530083.
Proof. apply (pocklington _ [(10541923042289, 1, 2)]); [vm_compute; reflexivity | nodup|]. constructor; [exact prime_10541923042289|]. constructor. Qed.
Lemma prime_5363222357 : prime 5363222357.
Proof. apply (pocklington _ [(202753, 1, 2)]); [vm_compute; reflexivity | nodup|]. constructor; [small_prime|]. constructor. Qed.
