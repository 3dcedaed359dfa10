(** * The bounds of nth_prime_bounds up to n = 788060 and of prime_pi_bounds up to x = 12000000 bracket
    the true values.

    A block (a, b, A, K) stands for the numbers a..b and the line (A + K (x - a)) / 2^20, which lies
    below (or above) the formula of the code there, including its rounding error: an interval
    computation. That the lines bracket the primes is a computation over all of them. *)
From Coq Require Import Reals ZArith Znumtheory List Lia Lra Bool Uint63.
From Coquelicot Require Import Coquelicot.
From Interval Require Import Tactic.
From Verif Require Import Base Spec Ext NT NTPhi PBase PBuffer PExact PPiVals PSieveArr PFloat.
Import ListNotations.
Local Open Scope Z_scope.
Local Notation V := Uint63.to_Z.

Definition block : Type := Z * Z * Z * Z.
Definition pi_lo1 : list block := [
  (252,598,47788144,163985)].
Definition pi_lo2 : list block := [
  (599,807,113570007,159201); (808,1266,145462430,153728); (1267,1963,211984258,144262); (1964,3147,307407968,136344); (3148,5171,460702517,128653);
  (5172,5392,708390348,119460)].
Definition pi_lo3 : list block := [
  (5393,7292,744775030,121276); (7293,10553,968661707,117468); (10554,14241,1339100031,112584); (14242,19067,1743800268,109071);
  (19068,27380,2257765769,106065); (27381,39181,3114807007,102323); (39182,55992,4290457583,98873); (55993,83198,5910905325,95737);
  (83199,88788,8446176199,91812)].
Definition pi_lo4 : list block := [
  (88789,103937,9014153695,91952); (103938,119013,10392998324,90665); (119014,143456,11748159856,89706); (143457,166525,13915368155,88239);
  (166526,200765,15932477014,87207); (200766,237541,18885029774,85848); (237542,287653,22011042911,84717); (287654,360142,26209609204,83474);
  (360143,428999,32183772222,81947); (429000,468048,37772001421,80737)].
Definition pi_lo5 : list block := [
  (468049,503660,40967923239,80270); (503661,555654,43815244076,79853); (555655,628162,47945348008,79289); (628163,677855,53657163085,78509);
  (677856,744632,57543017724,78085); (744633,842039,62731903514,77574); (842040,949368,70240468342,76873); (949369,1052964,78440912017,76186);
  (1052965,1207858,86292550081,75651); (1207859,1349859,97930604138,74885); (1349860,1543611,108506469118,74318);
  (1543612,1724291,122811912398,73597); (1724292,1971086,136038919008,73050); (1971087,2250388,153952983345,72375);
  (2250389,2521667,174041985135,71704); (2521668,2895723,193391335766,71171); (2895724,3355597,219844247769,70516);
  (3355598,3823980,252056082060,69811); (3823981,4325012,284563503421,69204); (4325013,5023049,319048232293,68666);
  (5023050,5738440,366665231463,67988); (5738441,6515405,415023320722,67402); (6515406,7496422,467108201615,66865);
  (7496423,8646663,532314911171,66274); (8646664,9909131,608091037764,65678); (9909132,11378323,690539901303,65123);
  (11378324,12000000,785677294626,64519)].
Definition pi_hi1 : list block := [
  (252,365,58817714,166045); (366,480,79075738,161842); (481,660,98543015,154407); (661,886,127710959,148917); (887,1116,162784347,145281);
  (1117,1312,197229635,142989); (1313,1618,225832338,138851); (1619,1645,269411414,140160); (1646,2142,273202809,133765);
  (2143,2730,341721589,130149); (2731,3658,420293860,125529); (3659,4593,540345766,122751); (4594,5667,657716767,120035)].
Definition pi_hi2 : list block := [
  (5668,6980,789224682,117005); (6981,9162,945879152,113386); (9163,10655,1199374253,112134); (10656,13186,1369001756,109463);
  (13187,15682,1651055945,107715); (15683,18460,1923745620,106019); (18461,22267,2222114321,104015); (22268,24112,2623883261,103546);
  (24113,25052,2816093454,103285); (25053,29926,2913464147,101146)].
Definition pi_hi3 : list block := [
  (29927,35170,3412918763,99565); (35171,42406,3941236888,97785); (42407,51871,4658290893,95972); (51872,58216,5579412476,95184);
  (58217,59752,6188131015,95163); (59753,71880,6334561878,93264); (71881,82618,7479594625,92232); (82619,95254,8479012155,91098);
  (95255,106980,9640651855,90248); (106981,126341,10706679387,88893); (126342,141772,12445487219,88132); (141773,155447,13815046938,87501);
  (155448,180568,15018290999,86333); (180569,208524,17206365433,85340); (208525,229846,19612190908,84746); (229847,260180,21429329975,83872);
  (260181,293135,23991472392,83092); (293136,326148,26748129763,82417); (326149,353106,29485120675,81947); (353107,355110,31703921414,82010);
  (355111,396424,31868321800,81176); (396425,440078,35242106886,80536); (440079,467344,38777587236,80224)].
Definition pi_hi4 : list block := [
  (467345,521633,40972024764,79483); (521634,586978,45312197926,78771); (586979,622387,50491308791,78499); (622388,705180,53279361226,77697);
  (705181,792690,59753415592,77042); (792691,858933,66535370852,76633); (858934,913219,71632292854,76313); (913220,1021288,75787740051,75645);
  (1021289,1133511,84007890433,75091); (1133512,1190323,92477837581,74886); (1190324,1289008,96742422219,74433);
  (1289009,1399588,104116173532,73999); (1399589,1503982,112331387707,73637); (1503983,1648333,120045029851,73149);
  (1648334,1831876,130649885481,72603); (1831877,1948800,144041454357,72333); (1948801,2070479,152523409561,72035);
  (2070480,2198346,161313148056,71741); (2198347,2313328,170511779785,71500); (2313329,2567210,178752221324,70952);
  (2567211,2750463,196850668850,70653); (2750464,2930378,209838323107,70358); (2930379,3194566,222532778308,69935);
  (3194567,3279791,241079779427,69861); (3279792,3437430,247040662625,69627); (3437431,3446491,258039465654,69650);
  (3446492,3729462,258670638208,69228); (3729463,3991163,278328081874,68929); (3991164,4338523,296420283043,68542);
  (4338524,4699769,320315077264,68189); (4699770,4968882,345032830871,67961); (4968883,5250540,363365782154,67720);
  (5250541,5517998,382484616564,67508); (5517999,5958945,400578304167,67157); (5958946,6390658,430286971361,66863);
  (6390659,6881317,459237262199,66547); (6881318,7147248,491989784584,66412); (7147249,7660638,509678671033,66101);
  (7660639,8265697,543711505849,65782); (8265698,8756945,583637653484,65557); (8756946,9358960,615918420565,65280);
  (9358961,10079857,655324464106,64976); (10079858,10748886,702305824910,64725); (10748887,11543122,745720590053,64437);
  (11543123,12000000,797045032909,64304)].
Definition nth_lo1 : list block := [
  (55,90,253493515,6557152); (91,146,478757359,7142321); (147,213,862872574,7592614); (214,285,1356705951,7938711); (286,407,1915926910,8366425);
  (408,570,2911266742,8765842); (571,774,4308171095,9126775); (775,1092,6133782151,9533006); (1093,1429,9102409728,9846849);
  (1430,1844,12368411887,10144822); (1845,2458,16517483545,10480635); (2459,3055,22851746692,10732302); (3056,3519,29184213330,10895246)].
Definition nth_lo2 : list block := [
  (3520,4443,34201512123,11186317); (4444,5773,44412357547,11491982); (5774,7449,59495891399,11787892); (7450,9189,79006856207,12030268);
  (9190,11627,99728786745,12302799); (11628,13821,129394468714,12501148); (13822,16865,156603208584,12730880); (16866,19892,195008841302,12920156);
  (19893,23488,233830935350,13110997); (23489,27849,280635386745,13306351); (27850,30861,338239606842,13422965); (30862,36557,378491000160,13617754);
  (36558,42261,455507615241,13783087); (42262,48225,533653710551,13933603); (48226,56077,616303497026,14105879); (56078,64230,726388663960,14260305);
  (64231,72019,842022344168,14390294); (72020,83159,953599235985,14554219); (83160,91948,1114823881632,14667815);
  (91949,104485,1243235129619,14813273); (104486,114949,1428039259742,14921153); (114950,130977,1583604685617,15069556);
  (130978,145291,1823954607978,15186724); (145292,159979,2040493704318,15295663); (159980,177815,2264352282051,15415363);
  (177816,197950,2538231530603,15536668); (197951,222702,2849838862112,15669911); (222703,240729,3236053019788,15757366);
  (240730,266613,3519313739512,15872903); (266614,295217,3928672980382,15987860); (295218,317199,4384342403995,16068514)].
Definition nth_lo3 : list block := [
  (317200,346422,4736664440512,16169165); (346423,375382,5207712091155,16259544); (375383,414730,5677266130468,16372075);
  (414731,460569,6319252647488,16490158); (460570,494467,7072427462077,16569649); (494468,541160,7632737395145,16671378);
  (541161,585835,8408788942469,16760426); (585836,638660,9155552612057,16857531); (638661,702889,10043471763230,16965281);
  (702890,764154,11129660975167,17058966); (764155,788060,12171884885027,17092931)].
Definition nth_hi1 : list block := [
  (55,101,282329354,6409041); (102,221,604983490,7174033); (222,574,1533946090,8123304); (575,1585,4644688224,9268602);
  (1586,4522,14744939353,10470093); (4523,13145,47650834600,11694368); (13146,27075,154848605847,12930455)].
Definition nth_hi2 : list block := [
  (27076,31489,328789401145,13296755); (31490,34215,387883371613,13470616); (34216,38348,424739123258,13564972); (38349,39016,481085044990,13696735)].
Definition nth_hi3 : list block := [
  (39017,44971,490192168501,13710001); (44972,51284,572335750637,13871753); (51285,57954,660397360416,14021192); (57955,67017,754398582249,14159905);
  (67018,75677,883506592646,14325037); (75678,82983,1008179144840,14463112); (82984,95354,1114239621237,14567194);
  (95355,108264,1295460362228,14724687); (108265,122124,1486516268746,14868449); (122125,137778,1693568962626,15004691);
  (137779,160998,1929555020518,15140747); (160999,178973,2283245045494,15317005)].
Definition nth_hi4 : list block := [
  (178974,184341,2558412809413,15433074); (184342,199056,2641349565964,15465905); (199057,213907,2869590597875,15552738);
  (213908,221113,3101187745268,15634463); (221114,241033,3213988039900,15671246); (241034,252702,3527163108937,15769059);
  (252703,256213,3711492349300,15822785); (256214,280941,3767074097555,15837446); (280942,302292,4160033117664,15941564);
  (302293,326284,4501311500868,16024095); (326285,360932,4886827739212,16109875); (360933,391550,5447043927203,16223749);
  (391551,425163,5945232416634,16315393); (425164,463309,6495250813753,16408022); (463310,509923,7123056199278,16504550);
  (509924,562649,7894998978164,16612290); (562650,627503,8773915929298,16722737); (627504,678065,9862571229243,16845576);
  (678066,688382,10716585241960,16933200)].
Definition nth_hi5 : list block := [
  (688383,727714,10888689383639,16946135); (727715,774404,11556474290340,17008426); (774405,788060,12352272154572,17078634)].
Definition pi_lo_blocks : list block := pi_lo1 ++ pi_lo2 ++ pi_lo3 ++ pi_lo4 ++ pi_lo5.
Definition pi_hi_blocks : list block := pi_hi1 ++ pi_hi2 ++ pi_hi3 ++ pi_hi4.
Definition nth_lo_blocks : list block := nth_lo1 ++ nth_lo2 ++ nth_lo3.
Definition nth_hi_blocks : list block := nth_hi1 ++ nth_hi2 ++ nth_hi3 ++ nth_hi4 ++ nth_hi5.

(** ** Lines *)
Definition linez (t : block) (x : Z) : Z := let '(a, b, A, K) := t in A + K * (x - a).
Definition within (t : block) (x : Z) : Prop := let '(a, b, A, K) := t in a <= x <= b.
Definition sane (t : block) : bool := let '(a, b, A, K) := t in (0 <=? a) && (a <=? b) && (b <? 2 ^ 24) && (0 <=? A) && (A <? 2 ^ 50) && (0 <=? K) && (K <? 2 ^ 26).
Definition line (a A K x : int) : int := (A + K * (x - a))%uint63.
Definition scaled (x : int) : int := (x * 1048576)%uint63.
Definition cur (t : block) (a b A K : int) : Prop := t = (V a, V b, V A, V K) /\ sane t = true.
Lemma sane_spec : forall a b A K, sane (a, b, A, K) = true -> 0 <= a <= b /\ b < 2 ^ 24 /\ 0 <= A < 2 ^ 50 /\ 0 <= K < 2 ^ 26.
Proof. intros a b A K H. unfold sane in H. rewrite !andb_true_iff, !Z.leb_le, !Z.ltb_lt in H. lia. Qed.
Lemma cur_of : forall a b A K, sane (a, b, A, K) = true -> cur (a, b, A, K) (of_Z a) (of_Z b) (of_Z A) (of_Z K).
Proof. intros a b A K H. split; [|exact H]. apply sane_spec in H. rewrite !iof by lia. reflexivity. Qed.
Lemma line_spec : forall t a b A K x, cur t a b A K -> V a <= V x -> V x < 2 ^ 24 -> V (line a A K x) = linez t (V x).
Proof.
  intros t a b A K x [-> H] Ha Hx. apply sane_spec in H. unfold line, linez. assert (E : V (x - a)%uint63 = V x - V a) by (apply isub; exact Ha).
  assert (M : V (K * (x - a))%uint63 = V K * (V x - V a)) by (rewrite imul; rewrite ?E; lia).
  assert (B : 0 <= V K * (V x - V a) <= 2 ^ 26 * 2 ^ 24) by (split; [apply Z.mul_nonneg_nonneg | apply Z.mul_le_mono_nonneg]; lia).
  rewrite add_spec, M. apply Z.mod_small. change wB with (2 ^ 63). lia.
Qed.
Lemma scaled_spec : forall x, V x < 2 ^ 30 -> V (scaled x) = V x * 2 ^ 20.
Proof. intros x H. unfold scaled. rewrite imul; [reflexivity | lia | reflexivity]. Qed.
Lemma iadd1 : forall x, V x < 2 ^ 30 -> V (x + 1)%uint63 = V x + 1.
Proof. intros x H. pose proof (to_Z_bounded x). rewrite add_spec. change (V 1) with 1. apply Z.mod_small. change wB with (2 ^ 63). lia. Qed.
Lemma linez_mono : forall t x y, sane t = true -> x <= y -> linez t x <= linez t y.
Proof. intros [[[a b] A] K] x y H Hx. apply sane_spec in H. unfold linez. assert (K * (x - a) <= K * (y - a)) by (apply Z.mul_le_mono_nonneg_l; lia). lia. Qed.

Section Passes.
Context (ni : int) (ni_small : V ni < 2 ^ 24).
Local Notation top := (V ni).
Lemma pc_top : prime_count top < 2 ^ 24.
Proof. pose proof (to_Z_bounded ni). pose proof (pc_lt_self top ltac:(lia)). lia. Qed.

(** ** The n-th prime against the lines *)
Definition side (hi : bool) (p v : int) : bool := if hi then (scaled p <=? v)%uint63 else (v <=? scaled p)%uint63.
Fixpoint nth_pass (hi : bool) (l : list int) (n a b A K : int) (bs : list block) : bool :=
  match l with
  | [] => true
  | p :: l' =>
    if (n <=? b)%uint63 then side hi p (line a A K n) && nth_pass hi l' (n + 1)%uint63 a b A K bs
    else match bs with
         | [] => false
         | (a', b', A', K') :: bs' => let a := of_Z a' in let b := of_Z b' in let A := of_Z A' in let K := of_Z K' in
             (a =? n)%uint63 && (n <=? b)%uint63 && side hi p A && nth_pass hi l' (n + 1)%uint63 a b A K bs'
         end
  end.
Definition nth_in (hi : bool) (B : list block) (n p : Z) : Prop :=
  exists t, In t B /\ within t n /\ (if hi then p * 2 ^ 20 <= linez t n else linez t n <= p * 2 ^ 20).
Lemma side_spec : forall hi p v t n, V p < 2 ^ 30 -> V v = linez t n -> side hi p v = true -> if hi then V p * 2 ^ 20 <= linez t n else linez t n <= V p * 2 ^ 20.
Proof. intros hi p v t n Hp E H. unfold side in H. destruct hi; apply ileb in H; rewrite scaled_spec in H by exact Hp; lia. Qed.
Lemma nth_pass_spec : forall hi B l x n t a b A K bs, forallb sane B = true -> incl bs B -> cur t a b A K -> V a <= V n -> (V n <= V b -> In t B) ->
  primes_after top x l -> prime_count x + 1 = V n -> nth_pass hi l n a b A K bs = true ->
  forall m p, V n <= m <= prime_count top -> nth_prime_is m p -> nth_in hi B m p.
Proof.
  intros hi B. induction l as [|q l IH]; intros x n t a b A K bs HB Hbs Ht Ha Hin Hl Hx H m p Hm Hp; cbn [primes_after nth_pass] in *; [lia|].
  destruct Hl as [Q1 [Q2 [Q3 Q4]]].
  pose proof pc_top as T. assert (Hn : V n < 2 ^ 24) by (pose proof (pc_mono (V q) top ltac:(lia)); lia).
  assert (N1 : V (n + 1)%uint63 = V n + 1) by (apply iadd1; lia). assert (Hq : V q < 2 ^ 24) by lia.
  assert (Z1 : m = V n -> p = V q) by (intros ->; apply (nth_prime_unique (V n)); [exact Hp | split; [exact Q2 | lia]]).
  destruct (n <=? b)%uint63 eqn:E.
  - apply ileb in E. apply andb_true_iff in H. destruct H as [H1 H2]. destruct (Z.eq_dec m (V n)) as [D|D].
    + rewrite (Z1 D), D. exists t. split; [apply Hin; exact E|]. split; [destruct Ht as [-> _]; unfold within; lia|].
      apply (side_spec hi q (line a A K n)); [lia | apply (line_spec t a b); [exact Ht | exact Ha | lia] | exact H1].
    + apply (IH (V q) (n + 1)%uint63 t a b A K bs); auto; lia.
  - apply not_true_iff_false in E. rewrite ileb in E. destruct bs as [|[[[a' b'] A'] K'] bs]; [discriminate H|]. cbv zeta in H. apply andb_true_iff in H. destruct H as [H H4]. apply andb_true_iff in H. destruct H as [H H3]. apply andb_true_iff in H. destruct H as [H1 H2].
    apply ieqb in H1. apply ileb in H2. assert (I : In (a', b', A', K') B) by (apply Hbs; left; reflexivity).
    assert (C : cur (a', b', A', K') (of_Z a') (of_Z b') (of_Z A') (of_Z K')) by (apply cur_of; rewrite forallb_forall in HB; apply HB; exact I).
    destruct (Z.eq_dec m (V n)) as [D|D].
    + rewrite (Z1 D), D. exists (a', b', A', K'). split; [exact I|]. destruct C as [C _]. split; [rewrite C; unfold within; lia|].
      apply (side_spec hi q (of_Z A')); [lia | rewrite C; unfold linez; rewrite H1; lia | exact H3].
    + apply (IH (V q) (n + 1)%uint63 (a', b', A', K') (of_Z a') (of_Z b') (of_Z A') (of_Z K') bs); auto; try lia. intros y Hy. apply Hbs. right. exact Hy.
Qed.

(** ** The number of primes against the lines *)
Fixpoint hi_pass (l : list int) (c a b A K : int) (bs : list block) : bool :=
  match l with
  | [] => (ni <=? b)%uint63
  | p :: l' =>
    let c' := (c + 1)%uint63 in
    if (p <=? b)%uint63 then (scaled c' <=? line a A K p)%uint63 && hi_pass l' c' a b A K bs
    else match bs with
         | [] => false
         | (a', b', A', K') :: bs' => let a := of_Z a' in let b0 := b in let b := of_Z b' in let A := of_Z A' in let K := of_Z K' in
             (a =? b0 + 1)%uint63 && (p <=? b)%uint63 && (scaled c <=? A)%uint63 && (scaled c' <=? line a A K p)%uint63 && hi_pass l' c' a b A K bs'
         end
  end.
Fixpoint lo_pass (l : list int) (c a b A K : int) (bs : list block) : bool :=
  match l with
  | [] => (ni <=? b)%uint63 && (line a A K ni <? scaled (c + 1))%uint63
  | p :: l' =>
    let c' := (c + 1)%uint63 in
    if (p <=? b)%uint63 then (line a A K (p - 1) <? scaled c')%uint63 && lo_pass l' c' a b A K bs
    else match bs with
         | [] => false
         | (a', b', A', K') :: bs' => let s := (line a A K b <? scaled c')%uint63 in let a := of_Z a' in let b0 := b in let b := of_Z b' in let A := of_Z A' in let K := of_Z K' in
             s && (a =? b0 + 1)%uint63 && (p <=? b)%uint63 && ((p =? a)%uint63 || (line a A K (p - 1) <? scaled c')%uint63) && lo_pass l' c' a b A K bs'
         end
  end.
Definition hi_in (B : list block) (y : Z) : Prop := exists t, In t B /\ within t y /\ prime_count y * 2 ^ 20 <= linez t y.
Definition lo_in (B : list block) (y : Z) : Prop := exists t, In t B /\ within t y /\ linez t y < (prime_count y + 1) * 2 ^ 20.
Lemma pc_between : forall x y q, prime_count q = prime_count x + 1 -> prime q -> x <= y < q -> prime_count y = prime_count x.
Proof. intros x y q E P H. pose proof (pc_mono x y ltac:(lia)). pose proof (pc_prime_lt y q P ltac:(lia)). lia. Qed.
Lemma hi_pass_spec : forall B l x c t a b A K bs, forallb sane B = true -> incl bs B -> cur t a b A K -> V a <= x <= V b -> x <= top -> prime_count x * 2 ^ 20 <= linez t x ->
  primes_after top x l -> prime_count x = V c -> hi_pass l c a b A K bs = true ->
  forall y, x <= y <= top -> (y <= V b -> In t B) -> hi_in B y.
Proof.
  intros B. induction l as [|q l IH]; intros x c t a b A K bs HB Hbs Ht Hx Hxt Hc Hl Hpc H y Hy Hin; cbn [primes_after hi_pass] in *; cbv zeta in H.
  - apply ileb in H.  exists t. split; [apply Hin; lia|]. destruct Ht as [E Hs]. split; [rewrite E; unfold within; lia|].
    pose proof (pc_mono x y ltac:(lia)). pose proof (pc_mono y top ltac:(lia)). pose proof (linez_mono t x y Hs ltac:(lia)). lia.
  - destruct Hl as [Q1 [Q2 [Q3 Q4]]]. assert (T : prime_count x < 2 ^ 24) by (pose proof (pc_mono x top Hxt); pose proof pc_top; lia).
    assert (N1 : V (c + 1)%uint63 = V c + 1) by (apply iadd1; lia). assert (Hq : V q < 2 ^ 24) by lia.
    assert (SC : V (scaled (c + 1)) = (V c + 1) * 2 ^ 20) by (rewrite scaled_spec; rewrite N1; lia).
    assert (Same : y < V q -> y <= V b -> hi_in B y).
    { intros L M. exists t. split; [apply Hin; exact M|]. destruct Ht as [E Hs]. split; [rewrite E; unfold within; lia|]. rewrite (pc_between x y (V q) Q3 Q2 ltac:(lia)). pose proof (linez_mono t x y Hs ltac:(lia)). lia. }
    destruct (q <=? b)%uint63 eqn:E.
    + apply ileb in E. apply andb_true_iff in H. destruct H as [H1 H2]. apply ileb in H1. rewrite SC, (line_spec t a b A K q Ht ltac:(lia) ltac:(lia)) in H1.
      destruct (Z.lt_ge_cases y (V q)) as [L|L]; [apply Same; lia|]. apply (IH (V q) (c + 1)%uint63 t a b A K bs); auto; lia.
    + apply not_true_iff_false in E. rewrite ileb in E. destruct bs as [|[[[a' b'] A'] K'] bs]; [discriminate H|].
      apply andb_true_iff in H. destruct H as [H H5]. apply andb_true_iff in H. destruct H as [H H4]. apply andb_true_iff in H. destruct H as [H H3]. apply andb_true_iff in H. destruct H as [H1 H2].
      apply ieqb in H1. apply ileb in H2, H3, H4. rewrite iadd1 in H1 by lia.
      assert (I : In (a', b', A', K') B) by (apply Hbs; left; reflexivity).
      assert (C : cur (a', b', A', K') (of_Z a') (of_Z b') (of_Z A') (of_Z K')) by (apply cur_of; rewrite forallb_forall in HB; apply HB; exact I).
      rewrite SC, (line_spec _ _ _ _ _ q C ltac:(lia) ltac:(lia)) in H4. rewrite scaled_spec in H3 by lia.
      destruct (Z.lt_ge_cases y (V q)) as [L|L].
      * destruct (Z.le_gt_cases y (V b)) as [M|M]; [apply Same; lia|]. exists (a', b', A', K'). split; [exact I|]. destruct C as [C Cs].
        split; [rewrite C; unfold within; lia|]. rewrite (pc_between x y (V q) Q3 Q2 ltac:(lia)). pose proof (linez_mono _ (V (of_Z a')) y Cs ltac:(lia)) as G.
        assert (G2 : linez (a', b', A', K') (V (of_Z a')) = V (of_Z A')) by (rewrite C; unfold linez; lia). lia.
      * apply (IH (V q) (c + 1)%uint63 (a', b', A', K') (of_Z a') (of_Z b') (of_Z A') (of_Z K') bs); auto; try lia. intros z Hz. apply Hbs. right. exact Hz.
Qed.
Lemma lo_pass_spec : forall B l x c t a b A K bs, forallb sane B = true -> incl bs B -> cur t a b A K -> V a <= x <= V b -> x <= top ->
  primes_after top x l -> prime_count x = V c -> lo_pass l c a b A K bs = true ->
  forall y, x <= y <= top -> (y <= V b -> In t B) -> lo_in B y.
Proof.
  intros B. induction l as [|q l IH]; intros x c t a b A K bs HB Hbs Ht Hx Hxt Hl Hpc H y Hy Hin; cbn [primes_after lo_pass] in *; cbv zeta in H;
    assert (T : prime_count x < 2 ^ 24) by (pose proof (pc_mono x top Hxt); pose proof pc_top; lia);
    assert (N1 : V (c + 1)%uint63 = V c + 1) by (apply iadd1; lia);
    assert (SC : V (scaled (c + 1)) = (V c + 1) * 2 ^ 20) by (rewrite scaled_spec; rewrite N1; lia).
  - apply andb_true_iff in H. destruct H as [H H']. apply ileb in H.  apply iltb in H'. rewrite SC, (line_spec t a b A K _ Ht) in H' by lia.
    exists t. split; [apply Hin; lia|]. destruct Ht as [E Hs]. split; [rewrite E; unfold within; lia|].
    pose proof (pc_mono x y ltac:(lia)). pose proof (linez_mono t y top Hs ltac:(lia)). lia.
  - destruct Hl as [Q1 [Q2 [Q3 Q4]]]. assert (Hq : V q < 2 ^ 24) by lia. assert (P1 : V (q - 1)%uint63 = V q - 1) by (pose proof (to_Z_bounded a); apply isub; change (V 1) with 1; lia).
    destruct (q <=? b)%uint63 eqn:E.
    + apply ileb in E. apply andb_true_iff in H. destruct H as [H1 H2]. apply iltb in H1. rewrite SC, (line_spec t a b A K _ Ht) in H1 by lia. rewrite P1 in H1.
      destruct (Z.lt_ge_cases y (V q)) as [L|L]; [|apply (IH (V q) (c + 1)%uint63 t a b A K bs); auto; lia].
      exists t. split; [apply Hin; lia|]. destruct Ht as [Et Hs]. split; [rewrite Et; unfold within; lia|]. rewrite (pc_between x y (V q) Q3 Q2 ltac:(lia)). pose proof (linez_mono t y (V q - 1) Hs ltac:(lia)). lia.
    + apply not_true_iff_false in E. rewrite ileb in E. destruct bs as [|[[[a' b'] A'] K'] bs]; [discriminate H|].
      apply andb_true_iff in H. destruct H as [H H5]. apply andb_true_iff in H. destruct H as [H H4]. apply andb_true_iff in H. destruct H as [H H3]. apply andb_true_iff in H. destruct H as [H1 H2].
      apply ieqb in H2. apply ileb in H3. apply iltb in H1. rewrite iadd1 in H2 by lia. rewrite SC, (line_spec t a b A K _ Ht) in H1 by lia.
      assert (I : In (a', b', A', K') B) by (apply Hbs; left; reflexivity).
      assert (C : cur (a', b', A', K') (of_Z a') (of_Z b') (of_Z A') (of_Z K')) by (apply cur_of; rewrite forallb_forall in HB; apply HB; exact I).
      destruct (Z.lt_ge_cases y (V q)) as [L|L].
      * rewrite <- (pc_between x y (V q) Q3 Q2 ltac:(lia)) in Hpc. destruct (Z.le_gt_cases y (V b)) as [M|M].
        { exists t. split; [apply Hin; lia|]. destruct Ht as [Et Hs]. split; [rewrite Et; unfold within; lia|]. pose proof (linez_mono t y (V b) Hs ltac:(lia)). lia. }
        exists (a', b', A', K'). split; [exact I|]. pose proof C as [C1 Cs].
        split; [rewrite C1; unfold within; lia|]. apply orb_true_iff in H4. destruct H4 as [H4|H4]; [apply ieqb in H4; lia|]. apply iltb in H4. rewrite SC, (line_spec _ _ _ _ _ _ C) in H4 by lia. rewrite P1 in H4.
        pose proof (linez_mono _ y (V q - 1) Cs ltac:(lia)). lia.
      * apply (IH (V q) (c + 1)%uint63 (a', b', A', K') (of_Z a') (of_Z b') (of_Z A') (of_Z K') bs); auto; try lia. intros z Hz. apply Hbs. right. exact Hz.
Qed.

End Passes.

(** ** The computation *)
Fixpoint drop_to (v : int) (l : list int) : option (list int) :=
  match l with [] => None | q :: l' => if (q =? v)%uint63 then Some l' else drop_to v l' end.
Lemma drop_to_spec : forall n v m l x, drop_to v l = Some m -> primes_after n x l -> primes_after n (V v) m.
Proof.
  intros n v m. induction l as [|q l IH]; intros x H P; cbn [drop_to primes_after] in *; [discriminate H|]. destruct P as [_ [_ [_ P]]].
  destruct (q =? v)%uint63 eqn:E; [|apply (IH (V q)); assumption]. apply ieqb in E. injection H as <-. rewrite <- E. exact P.
Qed.
Definition checks (l : list int) : bool :=
  match drop_to 251 l with
  | Some m => (len l 0 =? 788057)%uint63 && hi_pass 12000000 m 54 251 251 56623104 0 pi_hi_blocks && lo_pass 12000000 m 54 251 251 0 0 pi_lo_blocks &&
      nth_pass true m 55 54 54 0 0 nth_hi_blocks && nth_pass false m 55 54 54 0 0 nth_lo_blocks
  | None => false
  end.
Lemma checks_ok : checks prime_list = true.
Proof. vm_compute. reflexivity. Qed.
Lemma pc_top_val : prime_count top = 788060.
Proof. apply (proj1 (List.Forall_forall _ _) pi_points2_ok (12000000, 788060)). cbn [pi_points2 In]. tauto. Qed.
Lemma pc_251 : prime_count 251 = 54.
Proof. vm_compute. reflexivity. Qed.
Lemma pc_5 : prime_count 5 = 3.
Proof. vm_compute. reflexivity. Qed.
Lemma blocks_sane : forallb sane pi_lo_blocks = true /\ forallb sane pi_hi_blocks = true /\ forallb sane nth_lo_blocks = true /\ forallb sane nth_hi_blocks = true.
Proof. vm_compute. repeat split; reflexivity. Qed.
Lemma prime_list_holds : holds 5 prime_list.
Proof.
  unfold prime_list. cbv zeta. set (t := sieve _ _ _ _ _).
  assert (Ht : sound t).
  { apply sieve_sound; [reflexivity|]. intros i Hi H. rewrite PArray.get_make in H. contradiction. }
  clearbody t. apply (scan_holds 998 t 999 _ Ht); [reflexivity | cbn; lia|].
  apply (rows_holds 3999 1000 1000 t 3999999 [] Ht); [reflexivity | reflexivity | reflexivity|]. cbn [holds]. intros q Hq Hr.
  assert (E : q = 12000000) by (change (numz (V 3999999)) with 11999999 in Hr; unfold top in Hr; lia). rewrite E in Hq. destruct (prime_divisors _ Hq 2) as [D|[D|[D|D]]]; [exists 6000000; reflexivity | | | |]; discriminate D.
Qed.
Lemma pass_list : exists m, primes_after top 251 m /\ hi_pass 12000000 m 54 251 251 56623104 0 pi_hi_blocks = true /\ lo_pass 12000000 m 54 251 251 0 0 pi_lo_blocks = true /\
  nth_pass true m 55 54 54 0 0 nth_hi_blocks = true /\ nth_pass false m 55 54 54 0 0 nth_lo_blocks = true.
Proof.
  pose proof checks_ok as C. pose proof prime_list_holds as H. revert C H. generalize prime_list. intros l C H. unfold checks in C. destruct (drop_to 251 l) as [m|] eqn:D; [|discriminate C].
  rewrite !andb_true_iff in C. destruct C as [[[[C1 C2] C3] C4] C5]. exists m. split; [|auto].
  apply (drop_to_spec top 251 m l 5 D). apply holds_exact; [unfold top; lia | exact H|]. rewrite pc_top_val, pc_5. apply ieqb in C1. change (V 788057) with 788057 in C1.
  pose proof (holds_count l 5 H) as K. rewrite pc_top_val, pc_5 in K.
  assert (L : Z.of_nat (List.length l) < 2 ^ 61) by (pose proof (holds_short l 5 H) as L; unfold top in L; lia). rewrite len_spec in C1; change (V 0) with 0 in *; lia.
Qed.
Lemma in_hi : forall y, 252 <= y <= top -> hi_in pi_hi_blocks y.
Proof.
  destruct pass_list as [m [P [H _]]]. intros y Hy. destruct blocks_sane as [_ [S _]].
  refine (hi_pass_spec 12000000 eq_refl pi_hi_blocks m 251 54 (251, 251, 56623104, 0) 251 251 56623104 0 pi_hi_blocks S (incl_refl _) _ _ _ _ P _ H y _ _).
  - split; reflexivity.
  - cbn; lia.
  - cbn; lia.
  - rewrite pc_251. cbn; lia.
  - rewrite pc_251. reflexivity.
  - change (V 12000000) with top. lia.
  - change (V 251) with 251. lia.
Qed.
Lemma in_lo : forall y, 252 <= y <= top -> lo_in pi_lo_blocks y.
Proof.
  destruct pass_list as [m [P [_ [H _]]]]. intros y Hy. destruct blocks_sane as [S _].
  refine (lo_pass_spec 12000000 eq_refl pi_lo_blocks m 251 54 (251, 251, 0, 0) 251 251 0 0 pi_lo_blocks S (incl_refl _) _ _ _ P _ H y _ _).
  - split; reflexivity.
  - cbn; lia.
  - cbn; lia.
  - rewrite pc_251. reflexivity.
  - change (V 12000000) with top. lia.
  - change (V 251) with 251. lia.
Qed.
Lemma in_nth_hi : forall n p, 55 <= n <= 788060 -> nth_prime_is n p -> nth_in true nth_hi_blocks n p.
Proof.
  destruct pass_list as [m [P [_ [_ [H _]]]]]. intros n p Hn Hp. destruct blocks_sane as [_ [_ [_ S]]].
  refine (nth_pass_spec 12000000 eq_refl true nth_hi_blocks m 251 55 (54, 54, 0, 0) 54 54 0 0 nth_hi_blocks S (incl_refl _) _ _ _ P _ H n p _ Hp).
  - split; reflexivity.
  - cbn; lia.
  - cbn; lia.
  - rewrite pc_251. reflexivity.
  - change (V 12000000) with top. rewrite pc_top_val. exact Hn.
Qed.
Lemma in_nth_lo : forall n p, 55 <= n <= 788060 -> nth_prime_is n p -> nth_in false nth_lo_blocks n p.
Proof.
  destruct pass_list as [m [P [_ [_ [_ H]]]]]. intros n p Hn Hp. destruct blocks_sane as [_ [_ [S _]]].
  refine (nth_pass_spec 12000000 eq_refl false nth_lo_blocks m 251 55 (54, 54, 0, 0) 54 54 0 0 nth_lo_blocks S (incl_refl _) _ _ _ P _ H n p _ Hp).
  - split; reflexivity.
  - cbn; lia.
  - cbn; lia.
  - rewrite pc_251. reflexivity.
  - change (V 12000000) with top. rewrite pc_top_val. exact Hn.
Qed.

(** ** The real inequalities: x G(ln x), where G is one of the formulas and D is G + G' *)
Local Open Scope R_scope.
Definition G_s0 (l : R) := 1 / l.
Definition D_s0 (l : R) := 1 / l - 1 / l * (1 / l).
Definition G_s1 (c l : R) := 1 / l * (1 + 1 / l * c).
Definition D_s1 (c l : R) := 1 / l * (1 + 1 / l * c) - 1 / l * (1 / l) * (1 + 2 * c * (1 / l)).
Definition G_s2 (c l : R) := 1 / l * (1 + 1 / l * (1 + 1 / l * c)).
Definition D_s2 (c l : R) := 1 / l * (1 + 1 / l * (1 + 1 / l * c)) - 1 / l * (1 / l) * (1 + 1 / l * (2 + 3 * c * (1 / l))).
Definition G_r (c l : R) := 1 / (l - c).
Definition D_r (c l : R) := 1 / (l - c) - 1 / (l - c) * (1 / (l - c)).
Definition G_q (c l : R) := 1 / (l - 1 - c * (1 / l)).
Definition D_q (c l : R) := 1 / (l - 1 - c * (1 / l)) - 1 / (l - 1 - c * (1 / l)) * (1 / (l - 1 - c * (1 / l))) * (1 + c * (1 / l * (1 / l))).
Definition G_f1 (c l : R) := l + ln l - c.
Definition D_f1 (c l : R) := l + ln l - c + (1 + 1 / l).
Definition G_f2 (c l : R) := l + ln l - 1 + (ln l - c) / l.
Definition D_f2 (c l : R) := l + ln l - 1 + (ln l - c) / l + (1 + 1 / l + (1 + c - ln l) / (l * l)).
Definition G_f3 (c l : R) := l + ln l - 1 + (ln l - 2) / l - (ln l * ln l - 6 * ln l + c) / (2 * l * l).
Definition D_f3 (c l : R) := l + ln l - 1 + (ln l - 2) / l - (ln l * ln l - 6 * ln l + c) / (2 * l * l)
  + (1 + 1 / l + (3 - ln l) / (l * l) + (ln l * ln l - 6 * ln l + c - (ln l - 3)) / (l * l * l)).
Definition deriv (G D : R -> R) : Prop := forall l, 4 <= l <= 90 -> is_derive G l (D l - G l).
Lemma deriv_s0 : deriv G_s0 D_s0.
Proof. intros l Hl. unfold G_s0, D_s0. auto_derive; [lra | field; lra]. Qed.
Lemma deriv_s1 : forall c, deriv (G_s1 c) (D_s1 c).
Proof. intros c l Hl. unfold G_s1, D_s1. auto_derive; [lra | field; lra]. Qed.
Lemma deriv_s2 : forall c, deriv (G_s2 c) (D_s2 c).
Proof. intros c l Hl. unfold G_s2, D_s2. auto_derive; [lra | field; lra]. Qed.
Lemma deriv_r : forall c, c <= 2 -> deriv (G_r c) (D_r c).
Proof. intros c Hc l Hl. unfold G_r, D_r. auto_derive; [lra | field; lra]. Qed.
Lemma q_pos : forall c l, 0 <= c <= 2 -> 4 <= l -> 0 < l - 1 - c * (1 / l) /\ 0 < l * (l - 1) - c.
Proof. intros c l Hc Hl. assert (Q : 0 < l * (l - 1) - c) by nra. split; [|exact Q]. replace (l - 1 - c * (1 / l)) with ((l * (l - 1) - c) / l) by (field; lra). apply Rdiv_lt_0_compat; lra. Qed.
Lemma deriv_q : forall c, 0 <= c <= 2 -> deriv (G_q c) (D_q c).
Proof.
  intros c Hc l Hl. unfold G_q, D_q. destruct (q_pos c l Hc (proj1 Hl)) as [A B]. auto_derive; [split; [lra|]; split; [lra | exact I]|]. field. repeat split; try lra; nra.
Qed.
Lemma deriv_f1 : forall c, deriv (G_f1 c) (D_f1 c).
Proof. intros c l Hl. unfold G_f1, D_f1. auto_derive; [lra | field; lra]. Qed.
Lemma deriv_f2 : forall c, deriv (G_f2 c) (D_f2 c).
Proof. intros c l Hl. unfold G_f2, D_f2. auto_derive; [repeat split; lra | field; lra]. Qed.
Lemma deriv_f3 : forall c, deriv (G_f3 c) (D_f3 c).
Proof. intros c l Hl. unfold G_f3, D_f3. auto_derive; [repeat split; try lra; nra | field; lra]. Qed.
Lemma ln_55 : forall x, 55 <= x <= 16777216 -> 4 <= ln x <= 90.
Proof. intros x H. split; interval. Qed.
Lemma slope : forall G D s a x, deriv G D -> 55 <= a -> a <= x <= 16777216 ->
  exists z, a <= z <= x /\ x * (G (ln x) - s) - a * (G (ln a) - s) = (D (ln z) - s) * (x - a).
Proof.
  intros G D s a x HD Ha Hx.
  destruct (MVT_gen (fun x => x * (G (ln x) - s)) a x (fun x => D (ln x) - s)) as [z [Hz E]].
  - intros y Hy. rewrite Rmin_left, Rmax_right in Hy by lra.
    assert (L : 4 <= ln y <= 90) by (apply ln_55; lra). specialize (HD (ln y) L).
    apply is_derive_Reals. replace (D (ln y) - s) with (1 * (G (ln y) - s) + y * ((D (ln y) - G (ln y)) * / y - 0)) by (field; lra).
    apply (derivable_pt_lim_mult id (fun x => G (ln x) - s)); [apply derivable_pt_lim_id|].
    apply (derivable_pt_lim_minus (fun x => G (ln x)) (fun _ => s)); [|apply derivable_pt_lim_const].
    apply (derivable_pt_lim_comp ln G); [apply derivable_pt_lim_ln; lra | apply is_derive_Reals; exact HD].
  - intros y Hy. rewrite Rmin_left, Rmax_right in Hy by lra.
    assert (L : 4 <= ln y <= 90) by (apply ln_55; lra).
    apply continuity_pt_mult; [apply derivable_continuous_pt, derivable_pt_id|]. apply continuity_pt_minus; [|apply continuity_pt_const; intros u v; reflexivity].
    apply (continuity_pt_comp ln G); [apply derivable_continuous_pt; exists (/ y); apply derivable_pt_lim_ln; lra|].
    apply derivable_continuous_pt. exists (D (ln y) - G (ln y)). apply is_derive_Reals. apply HD. exact L.
  - rewrite Rmin_left, Rmax_right in Hz by lra. exists z. split; [exact Hz | exact E].
Qed.
Definition under (G D : R -> R) (t : block) : Prop := let '(a, b, A, K) := t in
  (55 <= IZR a /\ IZR b <= 16777216) /\ IZR A / 1048576 <= IZR a * (G (ln (IZR a)) - tol) /\ forall x, IZR a <= x <= IZR b -> IZR K / 1048576 <= D (ln x) - tol.
Definition over (G D : R -> R) (t : block) : Prop := let '(a, b, A, K) := t in
  (55 <= IZR a /\ IZR b <= 16777216) /\ IZR a * (G (ln (IZR a)) + tol) <= IZR A / 1048576 /\ forall x, IZR a <= x <= IZR b -> D (ln x) + tol <= IZR K / 1048576.
Definition liner (t : block) (x : Z) : R := IZR (linez t x) / 1048576.
Lemma under_line : forall G D t n, deriv G D -> under G D t -> within t n -> liner t n <= IZR n * (G (ln (IZR n)) - tol).
Proof.
  intros G D [[[a b] A] K] n HD [[H0 H0'] [H1 H2]] Hn. unfold liner, linez, within in *. destruct Hn as [N1 N2]. apply IZR_le in N1, N2.
  destruct (slope G D tol (IZR a) (IZR n) HD H0 ltac:(lra)) as [z [Hz E]]. specialize (H2 z ltac:(lra)).
  rewrite plus_IZR, mult_IZR, minus_IZR. assert (M : IZR K / 1048576 * (IZR n - IZR a) <= (D (ln z) - tol) * (IZR n - IZR a)) by (apply Rmult_le_compat_r; lra). lra.
Qed.
Lemma over_line : forall G D t n, deriv G D -> over G D t -> within t n -> IZR n * (G (ln (IZR n)) + tol) <= liner t n.
Proof.
  intros G D [[[a b] A] K] n HD [[H0 H0'] [H1 H2]] Hn. unfold liner, linez, within in *. destruct Hn as [N1 N2]. apply IZR_le in N1, N2.
  destruct (slope G D (- tol) (IZR a) (IZR n) HD H0 ltac:(lra)) as [z [Hz E]]. specialize (H2 z ltac:(lra)).
  rewrite plus_IZR, mult_IZR, minus_IZR. assert (M : (D (ln z) - - tol) * (IZR n - IZR a) <= IZR K / 1048576 * (IZR n - IZR a)) by (apply Rmult_le_compat_r; lra).
  replace (IZR n * (G (ln (IZR n)) + tol)) with (IZR n * (G (ln (IZR n)) - - tol)) by ring. replace (IZR a * (G (ln (IZR a)) + tol)) with (IZR a * (G (ln (IZR a)) - - tol)) in H1 by ring. lra.
Qed.
Ltac forms := unfold G_s0, D_s0, G_s1, D_s1, G_s2, D_s2, G_r, D_r, G_q, D_q, G_f1, D_f1, G_f2, D_f2, G_f3, D_f3, tol.
Ltac blocks := repeat (apply List.Forall_cons; [cbv beta iota delta [under over]; split; [split; lra|]; split; [forms; interval with (i_prec 90) | intros x Hx; forms; interval with (i_prec 60)]|]); apply List.Forall_nil.
Lemma pi_lo1_real : List.Forall (over G_s0 D_s0) pi_lo1.
Proof. unfold pi_lo1. blocks. Qed.
Lemma pi_lo2_real : List.Forall (over (G_s1 1) (D_s1 1)) pi_lo2.
Proof. unfold pi_lo2. blocks. Qed.
Lemma pi_lo3_real : List.Forall (over (G_r 1) (D_r 1)) pi_lo3.
Proof. unfold pi_lo3. blocks. Qed.
Lemma pi_lo4_real : List.Forall (over (G_s2 2) (D_s2 2)) pi_lo4.
Proof. unfold pi_lo4. blocks. Qed.
Lemma pi_lo5_real : List.Forall (over (G_q 1) (D_q 1)) pi_lo5.
Proof. unfold pi_lo5. blocks. Qed.
Lemma pi_hi1_real : List.Forall (under (G_s1 (12762 / 10000)) (D_s1 (12762 / 10000))) pi_hi1.
Proof. unfold pi_hi1. blocks. Qed.
Lemma pi_hi2_real : List.Forall (under (G_r (1112 / 1000)) (D_r (1112 / 1000))) pi_hi2.
Proof. unfold pi_hi2. blocks. Qed.
Lemma pi_hi3_real : List.Forall (under (G_s2 (253816 / 100000)) (D_s2 (253816 / 100000))) pi_hi3.
Proof. unfold pi_hi3. blocks. Qed.
Lemma pi_hi4_real : List.Forall (under (G_q (12311 / 10000)) (D_q (12311 / 10000))) pi_hi4.
Proof. unfold pi_hi4. blocks. Qed.
Lemma nth_lo1_real : List.Forall (over (G_f1 1) (D_f1 1)) nth_lo1.
Proof. unfold nth_lo1. blocks. Qed.
Lemma nth_lo2_real : List.Forall (over (G_f2 (21 / 10)) (D_f2 (21 / 10))) nth_lo2.
Proof. unfold nth_lo2. blocks. Qed.
Lemma nth_lo3_real : List.Forall (over (G_f3 (11321 / 1000)) (D_f3 (11321 / 1000))) nth_lo3.
Proof. unfold nth_lo3. blocks. Qed.
Lemma nth_hi1_real : List.Forall (under (G_f1 (5 / 10)) (D_f1 (5 / 10))) nth_hi1.
Proof. unfold nth_hi1. blocks. Qed.
Lemma nth_hi2_real : List.Forall (under (G_f2 (18 / 10)) (D_f2 (18 / 10))) nth_hi2.
Proof. unfold nth_hi2. blocks. Qed.
Lemma nth_hi3_real : List.Forall (under (G_f1 (9484 / 10000)) (D_f1 (9484 / 10000))) nth_hi3.
Proof. unfold nth_hi3. blocks. Qed.
Lemma nth_hi4_real : List.Forall (under (G_f2 (195 / 100)) (D_f2 (195 / 100))) nth_hi4.
Proof. unfold nth_hi4. blocks. Qed.
Lemma nth_hi5_real : List.Forall (under (G_f2 2) (D_f2 2)) nth_hi5.
Proof. unfold nth_hi5. blocks. Qed.

(** the blocks of a list lie in [lo, hi] *)
Definition inside (lo hi : Z) (t : block) : bool := let '(a, b, A, K) := t in ((lo <=? a) && (b <=? hi))%Z.
Lemma inside_spec : forall lo hi l t n, forallb (inside lo hi) l = true -> In t l -> within t n -> (lo <= n <= hi)%Z.
Proof. intros lo hi l [[[a b] A] K] n H Hin Hn. rewrite forallb_forall in H. specialize (H _ Hin). unfold inside in H. unfold within in Hn. rewrite andb_true_iff, !Z.leb_le in H. lia. Qed.
Ltac below_top := repeat match goal with |- context [(?k <=? ?n)%Z] => destruct (Z.leb_spec k n); [first [lia | idtac] | first [lia | idtac]] end.
Lemma use_under : forall G D l lo hi t n, deriv G D -> List.Forall (under G D) l -> forallb (inside lo hi) l = true -> In t l -> within t n -> (lo <= n <= hi)%Z /\ liner t n <= IZR n * (G (ln (IZR n)) - tol).
Proof. intros G D l lo hi t n HD HF HI Hin Hn. split; [apply (inside_spec lo hi l t); assumption | apply (under_line G D); [exact HD | exact (proj1 (List.Forall_forall _ _) HF t Hin) | exact Hn]]. Qed.
Lemma use_over : forall G D l lo hi t n, deriv G D -> List.Forall (over G D) l -> forallb (inside lo hi) l = true -> In t l -> within t n -> (lo <= n <= hi)%Z /\ IZR n * (G (ln (IZR n)) + tol) <= liner t n.
Proof. intros G D l lo hi t n HD HF HI Hin Hn. split; [apply (inside_spec lo hi l t); assumption | apply (over_line G D); [exact HD | exact (proj1 (List.Forall_forall _ _) HF t Hin) | exact Hn]]. Qed.
Lemma pi_hi_line : forall t n, In t pi_hi_blocks -> within t n -> liner t n <= IZR n * (r_pi_hi n - tol).
Proof.
  intros t n Hin Hn. unfold pi_hi_blocks in Hin. rewrite !in_app_iff in Hin. unfold r_pi_hi. destruct Hin as [H|[H|[H|H]]].
  - destruct (use_under _ _ _ 252 5667 t n (deriv_s1 _) pi_hi1_real eq_refl H Hn) as [B L]. below_top. exact L.
  - destruct (use_under _ _ _ 5668 29926 t n (deriv_r (1112 / 1000) ltac:(lra)) pi_hi2_real eq_refl H Hn) as [B L]. below_top. exact L.
  - destruct (use_under _ _ _ 29927 467344 t n (deriv_s2 _) pi_hi3_real eq_refl H Hn) as [B L]. below_top. exact L.
  - destruct (use_under _ _ _ 467345 12000000 t n (deriv_q (12311 / 10000) ltac:(lra)) pi_hi4_real eq_refl H Hn) as [B L]. below_top. exact L.
Qed.
Lemma pi_lo_line : forall t n, In t pi_lo_blocks -> within t n -> IZR n * (r_pi_lo n + tol) <= liner t n.
Proof.
  intros t n Hin Hn. unfold pi_lo_blocks in Hin. rewrite !in_app_iff in Hin. unfold r_pi_lo. destruct Hin as [H|[H|[H|[H|H]]]].
  - destruct (use_over _ _ _ 252 598 t n deriv_s0 pi_lo1_real eq_refl H Hn) as [B L]. below_top. exact L.
  - destruct (use_over _ _ _ 599 5392 t n (deriv_s1 _) pi_lo2_real eq_refl H Hn) as [B L]. below_top. exact L.
  - destruct (use_over _ _ _ 5393 88788 t n (deriv_r 1 ltac:(lra)) pi_lo3_real eq_refl H Hn) as [B L]. below_top. exact L.
  - destruct (use_over _ _ _ 88789 468048 t n (deriv_s2 _) pi_lo4_real eq_refl H Hn) as [B L]. below_top. exact L.
  - destruct (use_over _ _ _ 468049 12000000 t n (deriv_q 1 ltac:(lra)) pi_lo5_real eq_refl H Hn) as [B L]. below_top. exact L.
Qed.
Lemma nth_hi_line : forall t n, In t nth_hi_blocks -> within t n -> liner t n <= IZR n * (r_nth_hi n - tol).
Proof.
  intros t n Hin Hn. unfold nth_hi_blocks in Hin. rewrite !in_app_iff in Hin. unfold r_nth_hi. destruct Hin as [H|[H|[H|[H|H]]]].
  - destruct (use_under _ _ _ 55 27075 t n (deriv_f1 _) nth_hi1_real eq_refl H Hn) as [B L]. below_top. exact L.
  - destruct (use_under _ _ _ 27076 39016 t n (deriv_f2 _) nth_hi2_real eq_refl H Hn) as [B L]. below_top. exact L.
  - destruct (use_under _ _ _ 39017 178973 t n (deriv_f1 _) nth_hi3_real eq_refl H Hn) as [B L]. below_top. exact L.
  - destruct (use_under _ _ _ 178974 688382 t n (deriv_f2 _) nth_hi4_real eq_refl H Hn) as [B L]. below_top. exact L.
  - destruct (use_under _ _ _ 688383 788060 t n (deriv_f2 _) nth_hi5_real eq_refl H Hn) as [B L]. below_top. exact L.
Qed.
Lemma nth_lo_line : forall t n, In t nth_lo_blocks -> within t n -> IZR n * (r_nth_lo n + tol) <= liner t n.
Proof.
  intros t n Hin Hn. unfold nth_lo_blocks in Hin. rewrite !in_app_iff in Hin. unfold r_nth_lo. destruct Hin as [H|[H|H]].
  - destruct (use_over _ _ _ 55 3519 t n (deriv_f1 _) nth_lo1_real eq_refl H Hn) as [B L]. below_top. exact L.
  - destruct (use_over _ _ _ 3520 317199 t n (deriv_f2 _) nth_lo2_real eq_refl H Hn) as [B L]. below_top. exact L.
  - destruct (use_over _ _ _ 317200 788060 t n (deriv_f3 _) nth_lo3_real eq_refl H Hn) as [B L]. below_top. exact L.
Qed.

(** ** Conclusions; n tol is the rounding error *)
Lemma liner_le : forall t n v, (v * 2 ^ 20 <= linez t n)%Z -> IZR v <= liner t n.
Proof. intros t n v H. apply IZR_le in H. rewrite mult_IZR in H. change (IZR (2 ^ 20)) with 1048576 in H. unfold liner. lra. Qed.
Lemma liner_ge : forall t n v, (linez t n <= v * 2 ^ 20)%Z -> liner t n <= IZR v.
Proof. intros t n v H. apply IZR_le in H. rewrite mult_IZR in H. change (IZR (2 ^ 20)) with 1048576 in H. unfold liner. lra. Qed.
Lemma liner_gt : forall t n v, (linez t n < v * 2 ^ 20)%Z -> liner t n < IZR v.
Proof. intros t n v H. apply IZR_lt in H. rewrite mult_IZR in H. change (IZR (2 ^ 20)) with 1048576 in H. unfold liner. lra. Qed.
Lemma nth_hi_bracket : forall n p, (55 <= n <= 788060)%Z -> nth_prime_is n p -> IZR p <= IZR n * (r_nth_hi n - tol).
Proof. intros n p Hn Hp. destruct (in_nth_hi n p Hn Hp) as [t [A [B C]]]. apply liner_le in C. pose proof (nth_hi_line t n A B). lra. Qed.
Lemma nth_lo_bracket : forall n p, (55 <= n <= 788060)%Z -> nth_prime_is n p -> IZR n * (r_nth_lo n + tol) <= IZR p.
Proof. intros n p Hn Hp. destruct (in_nth_lo n p Hn Hp) as [t [A [B C]]]. apply liner_ge in C. pose proof (nth_lo_line t n A B). lra. Qed.
Lemma pi_lo_bracket : forall x, (252 <= x <= 12000000)%Z -> IZR x * (r_pi_lo x + tol) < IZR (prime_count x + 1).
Proof. intros x Hx. destruct (in_lo x Hx) as [t [A [B C]]]. apply liner_gt in C. pose proof (pi_lo_line t x A B). lra. Qed.
Lemma pi_hi_bracket : forall x, (252 <= x <= 12000000)%Z -> IZR (prime_count x) <= IZR x * (r_pi_hi x - tol).
Proof. intros x Hx. destruct (in_hi x Hx) as [t [A [B C]]]. apply liner_le in C. pose proof (pi_hi_line t x A B). lra. Qed.
