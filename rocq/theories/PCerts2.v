(** * Primality certificates for large primes of is_prime_test (C66). *)
From Coq Require Import ZArith Znumtheory List.
From Verif Require Import NTPock NTMorrison.
Import ListNotations.
Local Open Scope Z_scope.
Lemma p_9535433 : prime 9535433.
Proof. apply (bpocklington _ [(2, 3, 3); (23, 1, 2); (29, 1, 2)]); [vm_compute; reflexivity | nodup|]. constructor; [small_prime|]. constructor; [small_prime|]. constructor; [small_prime|]. constructor. Qed.
Lemma p_2661472846363 : prime 2661472846363.
Proof. apply (bpocklington _ [(9535433, 1, 2)]); [vm_compute; reflexivity | nodup|]. constructor; [exact p_9535433|]. constructor. Qed.
Lemma p_27022402228344498889 : prime 27022402228344498889.
Proof. apply (bpocklington _ [(2661472846363, 1, 2)]); [vm_compute; reflexivity | nodup|]. constructor; [exact p_2661472846363|]. constructor. Qed.
Lemma p_178285757226752957008953079 : prime 178285757226752957008953079.
Proof. apply (bpocklington _ [(27022402228344498889, 1, 2)]); [vm_compute; reflexivity | nodup|]. constructor; [exact p_27022402228344498889|]. constructor. Qed.
Lemma p_791588762086783129119751670761 : prime 791588762086783129119751670761.
Proof. apply (bpocklington _ [(178285757226752957008953079, 1, 2)]); [vm_compute; reflexivity | nodup|]. constructor; [exact p_178285757226752957008953079|]. constructor. Qed.
Lemma p_125_588917817 : prime 33027660567269946712744453615588917817.
Proof. apply (bpocklington _ [(791588762086783129119751670761, 1, 2)]); [vm_compute; reflexivity | nodup|]. constructor; [exact p_791588762086783129119751670761|]. constructor. Qed.
Lemma p_145_594291089 : prime 28815444849162606788787876979271169594291089.
Proof. apply (bpocklington _ [(33027660567269946712744453615588917817, 1, 2)]); [vm_compute; reflexivity | nodup|]. constructor; [exact p_125_588917817|]. constructor. Qed.
Lemma p_256_647051443 : prime 98920366548084643601728869055592650835572950932266967461790948584315647051443.
Proof. apply (bpocklington _ [(28815444849162606788787876979271169594291089, 1, 2)]); [vm_compute; reflexivity | nodup|]. constructor; [exact p_145_594291089|]. constructor. Qed.
Lemma p_5147135893 : prime 5147135893.
Proof. apply (bpocklington _ [(109897, 1, 2)]); [vm_compute; reflexivity | nodup|]. constructor; [small_prime|]. constructor. Qed.
Lemma p_15029636807561 : prime 15029636807561.
Proof. apply (bpocklington _ [(5147135893, 1, 2)]); [vm_compute; reflexivity | nodup|]. constructor; [exact p_5147135893|]. constructor. Qed.
Lemma p_541066925072197 : prime 541066925072197.
Proof. apply (bpocklington _ [(15029636807561, 1, 2)]); [vm_compute; reflexivity | nodup|]. constructor; [exact p_15029636807561|]. constructor. Qed.
Lemma p_75869508010150610621881 : prime 75869508010150610621881.
Proof. apply (bpocklington _ [(541066925072197, 1, 2)]); [vm_compute; reflexivity | nodup|]. constructor; [exact p_541066925072197|]. constructor. Qed.
Lemma p_145_448755439 : prime 23444086483142446281201593943035449448755439.
Proof. apply (bpocklington _ [(75869508010150610621881, 1, 2)]); [vm_compute; reflexivity | nodup|]. constructor; [exact p_75869508010150610621881|]. constructor. Qed.
Lemma p_214_341996477 : prime 20167192490332415639590726024874446962223109241630744360341996477.
Proof. apply (morrison _ 1 (-1) [(23444086483142446281201593943035449448755439, 1)]); [vm_compute; reflexivity | nodup|]. constructor; [exact p_145_448755439|]. constructor. Qed.
Lemma p_241_506253393 : prime 2426736342166170911756365135863660490468784886951307970026899302506253393.
Proof. apply (bpocklington _ [(20167192490332415639590726024874446962223109241630744360341996477, 1, 2)]); [vm_compute; reflexivity | nodup|]. constructor; [exact p_214_341996477|]. constructor. Qed.
Lemma p_256_669711639 : prime 94560208308847015747498523884063394671606671904944666360068158221458669711639.
Proof. apply (bpocklington _ [(2426736342166170911756365135863660490468784886951307970026899302506253393, 1, 2)]); [vm_compute; reflexivity | nodup|]. constructor; [exact p_241_506253393|]. constructor. Qed.
Lemma p_715827883 : prime 715827883.
Proof. apply (bpocklington _ [(11, 1, 5); (31, 1, 2); (151, 1, 3)]); [vm_compute; reflexivity | nodup|]. constructor; [small_prime|]. constructor; [small_prime|]. constructor; [small_prime|]. constructor. Qed.
Lemma p_2147483647 : prime 2147483647.
Proof. apply (bpocklington _ [(11, 1, 3); (31, 1, 2); (151, 1, 3)]); [vm_compute; reflexivity | nodup|]. constructor; [small_prime|]. constructor; [small_prime|]. constructor; [small_prime|]. constructor. Qed.
Lemma p_251_285301239 : prime 3618502788666131106986593281521497120414687020801267626233049500247285301239.
Proof. apply (morrison _ 3 (-1) [(8681, 1); (49477, 1); (290657, 1); (384773, 1); (715827883, 1); (2147483647, 1)]); [vm_compute; reflexivity | nodup|]. constructor; [small_prime|]. constructor; [small_prime|]. constructor; [small_prime|]. constructor; [small_prime|]. constructor; [exact p_715827883|]. constructor; [exact p_2147483647|]. constructor. Qed.
Lemma p_1923133 : prime 1923133.
Proof. apply (bpocklington _ [(3727, 1, 2)]); [vm_compute; reflexivity | nodup|]. constructor; [small_prime|]. constructor. Qed.
Lemma p_31757755568855353 : prime 31757755568855353.
Proof. apply (bpocklington _ [(31, 1, 2); (107, 1, 2); (223, 1, 2); (4153, 1, 2)]); [vm_compute; reflexivity | nodup|]. constructor; [small_prime|]. constructor; [small_prime|]. constructor; [small_prime|]. constructor; [small_prime|]. constructor. Qed.
Lemma p_236_754340907 : prime 74058212732561358302231226437062788676166966415465897661863160754340907.
Proof. apply (bpocklington _ [(3, 1, 2); (353, 1, 2); (57467, 1, 2); (132049, 1, 2); (1923133, 1, 2); (31757755568855353, 1, 2)]); [vm_compute; reflexivity | nodup|]. constructor; [small_prime|]. constructor; [small_prime|]. constructor; [small_prime|]. constructor; [small_prime|]. constructor; [exact p_1923133|]. constructor; [exact p_31757755568855353|]. constructor. Qed.
Lemma p_255_564819949 : prime 57896044618658097711785492504343953926634992332820282019728792003956564819949.
Proof. apply (bpocklington _ [(74058212732561358302231226437062788676166966415465897661863160754340907, 1, 2)]); [vm_compute; reflexivity | nodup|]. constructor; [exact p_236_754340907|]. constructor. Qed.
Lemma p_2850173 : prime 2850173.
Proof. apply (bpocklington _ [(2, 2, 2); (13, 1, 2); (59, 1, 2)]); [vm_compute; reflexivity | nodup|]. constructor; [small_prime|]. constructor; [small_prime|]. constructor; [small_prime|]. constructor. Qed.
Lemma p_5700347 : prime 5700347.
Proof. apply (bpocklington _ [(2850173, 1, 2)]); [vm_compute; reflexivity | nodup|]. constructor; [exact p_2850173|]. constructor. Qed.
Lemma p_45278351 : prime 45278351.
Proof. apply (bpocklington _ [(5, 2, 2); (13, 1, 2); (41, 1, 2)]); [vm_compute; reflexivity | nodup|]. constructor; [small_prime|]. constructor; [small_prime|]. constructor; [small_prime|]. constructor. Qed.
Lemma p_13613844119 : prime 13613844119.
Proof. apply (bpocklington _ [(983233, 1, 2)]); [vm_compute; reflexivity | nodup|]. constructor; [small_prime|]. constructor. Qed.
Lemma p_154_546137803 : prime 14133936265457239151185988243933396434546137803.
Proof. apply (morrison _ 1 (-1) [(5700347, 1); (45278351, 1); (13613844119, 1)]); [vm_compute; reflexivity | nodup|]. constructor; [exact p_5700347|]. constructor; [exact p_45278351|]. constructor; [exact p_13613844119|]. constructor. Qed.
Lemma p_203_605032877 : prime 9979652910506516194281768539460026990412783060843959605032877.
Proof. apply (bpocklington _ [(14133936265457239151185988243933396434546137803, 1, 2)]); [vm_compute; reflexivity | nodup|]. constructor; [exact p_154_546137803|]. constructor. Qed.
Lemma p_209_352301391 : prime 698575703735456133599723797762201889328894814259077172352301391.
Proof. apply (bpocklington _ [(9979652910506516194281768539460026990412783060843959605032877, 1, 2)]); [vm_compute; reflexivity | nodup|]. constructor; [exact p_203_605032877|]. constructor. Qed.
Lemma p_286_983688247 : prime 73772877462174271275190544236719752617642791980199852706432606976654958697962983688247.
Proof. apply (bpocklington _ [(698575703735456133599723797762201889328894814259077172352301391, 1, 2)]); [vm_compute; reflexivity | nodup|]. constructor; [exact p_209_352301391|]. constructor. Qed.
Lemma p_382_997576599 : prime 9850501549098619803069760025035903451269934817616361666987073351061430442874302652853566563721228910201656997576599.
Proof. apply (morrison _ 8 (-1) [(73772877462174271275190544236719752617642791980199852706432606976654958697962983688247, 1)]); [vm_compute; reflexivity | nodup|]. constructor; [exact p_286_983688247|]. constructor. Qed.
Lemma p_2940521 : prime 2940521.
Proof. apply (bpocklington _ [(5, 1, 2); (11, 1, 3); (41, 1, 2)]); [vm_compute; reflexivity | nodup|]. constructor; [small_prime|]. constructor; [small_prime|]. constructor; [small_prime|]. constructor. Qed.
Lemma p_164511353 : prime 164511353.
Proof. apply (bpocklington _ [(2, 3, 3); (41, 1, 2); (59, 1, 3)]); [vm_compute; reflexivity | nodup|]. constructor; [small_prime|]. constructor; [small_prime|]. constructor; [small_prime|]. constructor. Qed.
Lemma p_2991673 : prime 2991673.
Proof. apply (bpocklington _ [(2, 3, 5); (3, 2, 3); (37, 1, 2)]); [vm_compute; reflexivity | nodup|]. constructor; [small_prime|]. constructor; [small_prime|]. constructor; [small_prime|]. constructor. Qed.
Lemma p_8831418697 : prime 8831418697.
Proof. apply (bpocklington _ [(2991673, 1, 3)]); [vm_compute; reflexivity | nodup|]. constructor; [exact p_2991673|]. constructor. Qed.
Lemma p_70171342151 : prime 70171342151.
Proof. apply (bpocklington _ [(376153, 1, 3)]); [vm_compute; reflexivity | nodup|]. constructor; [small_prime|]. constructor. Qed.
Lemma p_281104709627422477 : prime 281104709627422477.
Proof. apply (bpocklington _ [(3, 4, 17); (137, 1, 2); (53549, 1, 2)]); [vm_compute; reflexivity | nodup|]. constructor; [small_prime|]. constructor; [small_prime|]. constructor; [small_prime|]. constructor. Qed.
Lemma p_9557560127332364219 : prime 9557560127332364219.
Proof. apply (bpocklington _ [(281104709627422477, 1, 2)]); [vm_compute; reflexivity | nodup|]. constructor; [exact p_281104709627422477|]. constructor. Qed.
Lemma p_3655725065508797181674078959681 : prime 3655725065508797181674078959681.
Proof. apply (bpocklington _ [(9557560127332364219, 1, 3)]); [vm_compute; reflexivity | nodup|]. constructor; [exact p_9557560127332364219|]. constructor. Qed.
Lemma p_414_931472367 : prime 42307582002575910332922579714097346549017899709713998034217522897561970639123926132812109468141778230245837569601494931472367.
Proof. apply (morrison _ 1 (-1) [(2940521, 1); (164511353, 1); (8831418697, 1); (70171342151, 1); (3655725065508797181674078959681, 1)]); [vm_compute; reflexivity | nodup|]. constructor; [exact p_2940521|]. constructor; [exact p_164511353|]. constructor; [exact p_8831418697|]. constructor; [exact p_70171342151|]. constructor; [exact p_3655725065508797181674078959681|]. constructor. Qed.
Lemma p_521_115057151 : prime 6864797660130609714981900799081393217269435300143305409394463459185543183397656052122559640661454554977296311391480858037121987999716643812574028291115057151.
Proof. apply (morrison _ 3 (-1) [(2, 521)]); [vm_compute; reflexivity | nodup|]. constructor; [small_prime|]. constructor. Qed.
