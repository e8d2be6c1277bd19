(** * Accuracy of the Fresnel approximation: polynomial certificates *)
From Coq Require Import Reals ZArith List Bool Lra Lia Psatz.
From Coquelicot Require Import Coquelicot.
From Verif Require Import Base ModelUtil FresnelData ModelFresnel FresPoly.
Import ListNotations.
Open Scope R_scope.

(** Certificates: Chebyshev coefficients of 2^60 times the residual polynomials. *)
Definition certA : list Z :=
  [-163503598077002350485856572274596677686047416403010872758398607834287366471680000000000000;
   -331306400918030014330014209880033498307983991561946634023276768866466338439168000000000000;
   -327779297519908674596416917690707091714053395772328442482428132067421510959104000000000000;
   -312220929479703694515693719475442746001737434422066943166140070656544476233728000000000000;
   -273369566342203249648064603232835409171563307359519327803865286062265256116224000000000000;
   -193031550474926888576461174931451253974209837503130493178903440132465127063552000000000000;
   -121076357588749143555772065767228369978942349544684343968299629587578344177664000000000000;
   -129154279655610588359731390021636921531776844725474881043410577657148259434496000000000000;
   -242419677067319153661222849939607713611491775235530091465855224026057964257280000000000000;
   -348946225336276272878520572352871045425786972092225002588472658681260597575680000000000000;
   -389907513392120555074046178476271763552208258155713169895810022931830503636992000000000000;
   -450377693825656433913174652561077813454337667657671312430649913745445174116352000000000000;
   -466212045792796947389569300219387515643600148069447644278170936230602231250944000000000000;
   -376376085421727634356608918481985536720584626133777369066559779483004344205312000000000000;
   -448465725028360696926475252224748151844396374027746219475606344178751047204864000000000000;
   -542575194292754144525868738266982439973069550789781533022280870071779930931200000000000000;
   -351094858543057332559418192897731535939202966824453112553522927752139566481408000000000000;
   -116231046379772335633292981949332076111701618121773632611060449464857942556672000000000000;
   -16200215982317021411710114124101912620739535807587956835280392028160000000000000000000000;
   188558002735271558919157211953466984144792351788382635122761924608000000000000000000000;
   -1973607791671428520139330062375296046729818513026668358386319360000000000000000000000;
   18678196393378610709277555946624518665992620430053646278852608000000000000000000000;
   -160630516422049304519057762638351300172120149057757815767040000000000000000000000;
   1259841061861595044506289769994360544364277277975233167360000000000000000000000;
   -9131044532875532260882600221686145993123248862993265459200000000000000000000;
   56390579174775558195970975585525064030404501238185984000000000000000000000;
   -495741355382642269854689895257363200267292318577459200000000000000000000]%Z.
Definition boundA : Z := 4857606341100124276529842386741798543859490842555539857080320000000000000%Z.

Definition certW : list Z :=
  [-201703520734834347117150654733878573137279559238732029827696692798680100503552000000000000;
   -360633309014226109654987986270989972272598269541353817988980172369707921309696000000000000;
   -424206132593434768887052056846927810908286098258233822927791320484730252558336000000000000;
   -375463941501180219308745165545616196501711708099772910246443709958423570284544000000000000;
   -439208148578476777618221984334561393619450345337178669878037632932322220179456000000000000;
   -374779887841480778851959280966734099147518865411566297390831564611637640953856000000000000;
   -339776433777777460678755904807988094424040448289901106781974773297099900452864000000000000;
   -233794924056501771869802303464809191925353435116909237056141392989435742650368000000000000;
   -184200109832528427237013783578627698192583819287774046263279789872698261241856000000000000;
   -34133756138211472274300062310026743569365365259444662502071789449866547036160000000000000;
   -185192419391114894744476813853592400122451676136952097122565728720713272000512000000000000;
   -276182771267463103616560750735971930320104150886602901628705555098560737837056000000000000;
   -309313637857234233366479270665518164326496573840440662642834941275752391245824000000000000;
   -153545386224126780948277087560771731397871847268309579129338501421143754276864000000000000;
   -179954271046247412700220806908988202802896816199944236614444731357983577997312000000000000;
   -291023828248842972263773757383981903790003772795803038783432622056963674472448000000000000;
   -18811573673103356554695564263558156910917459926524531009060855900320892452864000000000000;
   291643363096329227510984847766361790026373476591607676989569698365440000000000000000000000;
   -3582994379383764562588130606993953926305971418587841255562522132480000000000000000000000;
   39475679912998514884504372171169146871522086830794883583461818368000000000000000000000;
   -392272625420466179007645603816884268132923692044257228354486272000000000000000000000;
   3533896041967226646941678290655865128862983077091959151525888000000000000000000000;
   -28998012236871295537657135444168390971868550745651412992000000000000000000000000;
   217504239731580059690192793795829066715763841521093181440000000000000000000000;
   -1508987579329748751099624397353034314504177378416341811200000000000000000000;
   8998173280718903086796446778067611295417645480594636800000000000000000000;
   -74828883831342229412028663435073690606383746200371200000000000000000000]%Z.
Definition boundW : Z := 4056815890829531200862113159718524136517849244596847161376768000000000000%Z.

Definition cert1 : list Z :=
  [-575884291551120064512;
   -692329363516411609088;
   -950583780548345331712;
   -992088954714191822848;
   -859502981684404420608;
   -827221179555412705280;
   -889478940804182441984;
   -908502145630195417088;
   -646212503332137730048;
   -680223687718039715840;
   -822609493536985317376;
   -888902480051879018496;
   -671576776433488363520;
   -883137872528844783616;
   -411592977144644370432;
   -276124700353339850752;
   -371817185235708149760;
   -312441727748455530496;
   -617389465716966555648;
   -508438383531619516416;
   -644483121075227459584;
   -732681616177651253248;
   -552825861458983124992;
   -440992475512118968320;
   -489991639457909964800;
   -454251072815097708544;
   -89927877359334064128;
   -132585973029787402240;
   -95692484882368299008;
   -28246576862867750912;
   -286500993894801473536;
   -417934045419982028800;
   67445908019500548096;
   -257677956279630299136;
   -353946901914302021632;
   -365476116960370491392;
   -219055085875300925440;
   -462897984099649060864;
   -466356748613469601792;
   -462897984099649060864;
   -280736386371767238656;
   -93963102625458028544]%Z.
Definition bound1 : Z := 18373%Z.

Definition cert1d : list Z :=
  [-175226774877671637647360;
   -304184503932461292453888;
   -349068891028310452076544;
   -300382168810267911127040;
   -343116357300025301139456;
   -293506144956792675762176;
   -334844145504471174086656;
   -282832397667142486458368;
   -322125115465648438247424;
   -272492997613828282777600;
   -309881089086723723362304;
   -256040807743088576430080;
   -290325234525582384955392;
   -239922965108684855705600;
   -267363649839832420581376;
   -228398361748634813333504;
   -259079908829232225058816;
   -216500211821092152541184;
   -248456890085784737021952;
   -194274191055281356537856;
   -229136231511583195398144;
   -168494866212272258154496;
   -198363603632121842761728;
   -144170528308077000654848;
   -178077949758564370219008;
   -120650929614097322344448;
   -155365396117809484791808;
   -115974679991411951009792;
   -148205753574200965070848;
   -110615900837999326265344;
   -146567452116154635517952;
   -93425841204311237853184;
   -120655541300115749732352;
   -97742379317559272931328;
   -103648796185660149989376;
   -73673989987386735460352;
   -78065467998434215591936;
   -57902023804365068828672;
   -43811017175060185088000;
   -22458910909741379092480;
   -7704974415287558340608]%Z.
Definition bound1d : Z := 6854530%Z.

Definition cert2 : list Z :=
  [133738894534394249216;
   266324867564181651456;
   267477789068788498432;
   273242396591822733312;
   277854082610250121216;
   280159925619463815168;
   282465768628677509120;
   291689140665532284928;
   288230376151711744000;
   273242396591822733312;
   274395318096429580288;
   296300826683959672832;
   314747570757669224448;
   344723529877447245824;
   359711509437336256512;
   314747570757669224448;
   266324867564181651456;
   216749242866087231488;
   192537891269343444992;
   190232048260129751040;
   195996655783163985920;
   237501829949010477056;
   255948574022720028672;
   213290478352266690560;
   163714853654172270592;
   145268109580462718976;
   94539563377761452032;
   24211351596743786496;
   -26517194605957480448;
   -108374621433043615744;
   -166020696663385964544;
   -138350580552821637120;
   -179855754718668128256;
   -222513850389121466368;
   -126821365506753167360;
   -16140901064495857664;
   8070450532247928832;
   -4611686018427387904;
   2305843009213693952;
   -1152921504606846976;
   1152921504606846976]%Z.
Definition bound2 : Z := 6711%Z.

Definition cert2d : list Z :=
  [25372343551882881400832;
   51005247363806910218240;
   50212037368637399498752;
   49935336207531756224512;
   48572582989086463098880;
   47712503546649755254784;
   45770983732891824947200;
   44322914323105625145344;
   41687335763574372958208;
   39711228304678237241344;
   36768972624921563758592;
   34223321942749645635584;
   30250354437874450956288;
   26669380244565584248832;
   21287542661060822564864;
   16597457980320169066496;
   11845115538330745831424;
   8075062218266356219904;
   4475641280883779960832;
   1143698132569992200192;
   -2753176553001150578688;
   -6696168098756567236608;
   -12728253410859590615040;
   -17957905355756248498176;
   -22539615415063858380800;
   -25816218331156517486592;
   -29803020894086994329600;
   -30732275626800112992256;
   -31110433880311158800384;
   -29247312728866494087168;
   -24824705837194629087232;
   -19286070929063336214528;
   -16246969842919687585792;
   -7775302627068576006144;
   -1561055717237670805504;
   848550227390639374336;
   -431192642722960769024;
   267477789068788498432;
   -89927877359334064128;
   92233720368547758080]%Z.
Definition bound2d : Z := 794891%Z.

(** ** Taylor polynomials of sine and cosine as polynomials in z = x^2/32 - 1 *)
Fixpoint hornerR (l : list R) (w : R) : R := match l with [] => 0 | c :: l' => c + w * hornerR l' w end.

Lemma hornerR_app : forall l a w, hornerR (l ++ [a]) w = hornerR l w + w ^ length l * a.
Proof. induction l as [|c l IH]; intros a w; cbn; [ring|]. rewrite IH. ring. Qed.

Lemma hornerR_scale : forall m l w, hornerR (map (Rmult m) l) w = m * hornerR l w.
Proof. induction l as [|c l IH]; intros w; cbn; [ring|]. rewrite IH. ring. Qed.

Lemma pow_neg : forall x n, (- x ^ 2) ^ n = (-1) ^ n * x ^ (2 * n).
Proof.
  intros x n. rewrite <- (Rmult_1_l (x ^ 2)), Ropp_mult_distr_l, Rpow_mult_distr, pow_mult. reflexivity.
Qed.

Lemma tcos_horner : forall n x,
  tcos n x = hornerR (map (fun k => / INR (fact (2 * k))) (seq 0 (S n))) (- x ^ 2).
Proof.
  induction n as [|n IH]; intros x.
  - cbn. field.
  - cbn [tcos]. rewrite seq_S, map_app. cbn [map]. rewrite Nat.add_0_l, hornerR_app, map_length, seq_length, IH.
    rewrite pow_neg. unfold Rdiv. ring.
Qed.

Lemma tsin_horner : forall n x,
  tsin n x = x * hornerR (map (fun k => / INR (fact (2 * k + 1))) (seq 0 (S n))) (- x ^ 2).
Proof.
  induction n as [|n IH]; intros x.
  - cbn. field.
  - cbn [tsin]. rewrite seq_S, map_app. cbn [map]. rewrite Nat.add_0_l, hornerR_app, map_length, seq_length, IH.
    rewrite pow_neg, pow_add. unfold Rdiv. ring.
Qed.

Fixpoint zfact (n : nat) : Z := match n with O => 1%Z | S m => (Z.of_nat (S m) * zfact m)%Z end.
Lemma zfact_fact : forall n, INR (fact n) = IZR (zfact n).
Proof.
  induction n as [|n IH]; [reflexivity|]. rewrite fact_simpl, mult_INR, IH. cbn [zfact].
  rewrite mult_IZR, <- INR_IZR_INZ. reflexivity.
Qed.

Definition Mf : Z := Eval vm_compute in zfact 53.
Definition lcos : list Z := Eval vm_compute in map (fun k => (Mf / zfact (2 * k))%Z) (seq 0 27).
Definition lsin : list Z := Eval vm_compute in map (fun k => (Mf / zfact (2 * k + 1))%Z) (seq 0 27).

Lemma scaled_list : forall (g : nat -> nat) ks,
  forallb (fun k => Z.eqb (Mf / zfact (g k) * zfact (g k)) Mf) ks = true ->
  map (Rmult (IZR Mf)) (map (fun k => / INR (fact (g k))) ks) = map IZR (map (fun k => (Mf / zfact (g k))%Z) ks).
Proof.
  intros g ks. induction ks as [|k ks IH]; intros H; [reflexivity|].
  cbn [forallb] in H. apply andb_prop in H. destruct H as [H1 H2]. cbn [map]. rewrite (IH H2). f_equal.
  apply Z.eqb_eq in H1. rewrite zfact_fact. rewrite <- H1 at 1. rewrite mult_IZR. field.
  rewrite <- zfact_fact. apply INR_fact_neq_0.
Qed.

Lemma tcos_26 : forall x, IZR Mf * tcos 26 x = hornerR (map IZR lcos) (- x ^ 2).
Proof.
  intros. rewrite tcos_horner, <- hornerR_scale, scaled_list by (vm_compute; reflexivity). reflexivity.
Qed.
Lemma tsin_26 : forall x, IZR Mf * tsin 26 x = x * hornerR (map IZR lsin) (- x ^ 2).
Proof.
  intros. rewrite tsin_horner. rewrite <- Rmult_assoc, (Rmult_comm (IZR Mf)), Rmult_assoc.
  rewrite <- hornerR_scale, scaled_list by (vm_compute; reflexivity). reflexivity.
Qed.

Definition phorner (l : list Z) : poly := fold_right (fun c p => padd [c] (pscale (-32) (pz1 p))) [] l.
Lemma phorner_eval : forall l z, peval (phorner l) z = hornerR (map IZR l) (-32 * (z + 1)).
Proof.
  induction l as [|c l IH]; intros z; [reflexivity|].
  cbn [phorner fold_right map hornerR]. fold (phorner l). rewrite peval_add, peval_scale, peval_z1, IH.
  cbn [peval]. ring.
Qed.

Definition pTC : poly := Eval vm_compute in phorner lcos.
Definition pTS : poly := Eval vm_compute in phorner lsin.
Lemma pTC_eval : forall x z, 32 * (z + 1) = x ^ 2 -> peval pTC z = IZR Mf * tcos 26 x.
Proof.
  intros x z E. rewrite tcos_26, <- E. change pTC with (phorner lcos). rewrite phorner_eval. f_equal. ring.
Qed.
Lemma pTS_eval : forall x z, 32 * (z + 1) = x ^ 2 -> x * peval pTS z = IZR Mf * tsin 26 x.
Proof.
  intros x z E. rewrite tsin_26, <- E. change pTS with (phorner lsin). rewrite phorner_eval. do 2 f_equal. ring.
Qed.

(** ** The Chebyshev sums of the code as polynomials *)
Definition Dn : Z := 100000000000000000000%Z.

Fixpoint ploop08 (la lb : list Z) (T4 T2 U A B : poly) : poly * poly * poly * poly :=
  match la, lb with
  | a :: la', b :: lb' =>
      let Tn := psub (pscale 2 (pX T2)) T4 in
      let Un := psub (pscale 2 Tn) U in
      ploop08 la' lb' T2 Tn Un (padd A (pscale a Tn)) (padd B (pscale b Un))
  | _, _ => (A, B, T4, T2)
  end.

Lemma ploop08_eval : forall la lb z u T4 T2 U A B t4 t2 t1 va vb,
  t4 = peval T4 z -> t2 = peval T2 z -> t1 = u * peval U z ->
  va = peval A z / IZR Dn -> vb = u * (peval B z / IZR Dn) ->
  fresnel_0_8_loop la lb z (2 * u) t4 t2 t1 va vb =
  (let '(A', B', T4', T2') := ploop08 la lb T4 T2 U A B in
   (peval A' z / IZR Dn, u * (peval B' z / IZR Dn), peval T4' z, peval T2' z)).
Proof.
  induction la as [|a la IH]; intros lb z u T4 T2 U A B t4 t2 t1 va vb -> -> -> -> ->; [reflexivity|].
  destruct lb as [|b lb]; [reflexivity|]. cbn [fresnel_0_8_loop ploop08].
  apply IH.
  - reflexivity.
  - rewrite peval_sub, peval_scale, peval_X. ring.
  - rewrite !peval_sub, !peval_scale, peval_sub, peval_scale, peval_X. ring.
  - rewrite peval_add, peval_scale, peval_sub, peval_scale, peval_X. unfold coef, Dn. field.
  - rewrite peval_add, peval_scale, peval_sub, peval_scale, peval_sub, peval_scale, peval_X. unfold coef, Dn. field.
Qed.

Definition zn (l : list Z) (n : nat) : Z := nth n l 0%Z.

Definition pAB : poly * poly :=
  let '(A, B, T4, T2) :=
    ploop08 (firstn 15 (skipn 2 chebev_a)) (firstn 15 (skipn 2 chebev_b)) [1%Z] [0%Z; 1%Z] [-1; 2]%Z
      [zn chebev_a 0; zn chebev_a 1] (padd [zn chebev_b 0] (pscale (zn chebev_b 1) [-1; 2]%Z)) in
  (padd A (pscale (zn chebev_a 17) (psub (pscale 2 (pX T2)) T4)), B).
Definition pA : poly := Eval vm_compute in fst pAB.
Definition pW : poly := Eval vm_compute in snd pAB.

Lemma AB_eval : forall x, let z := x ^ 2 / 32 - 1 in
  fresnel_0_8_AB x = (peval pA z / IZR Dn, x / 8 * (peval pW z / IZR Dn)).
Proof.
  intros x z.
  assert (P : pAB = (pA, pW)) by (vm_compute; reflexivity).
  unfold fresnel_0_8_AB. cbv zeta.
  replace (1 / 32 * x * x - 1) with z by (unfold z; field).
  replace (1 / 4 * x) with (2 * (x / 8)) by field.
  rewrite (ploop08_eval _ _ z (x / 8) [1%Z] [0%Z; 1%Z] [-1; 2]%Z [zn chebev_a 0; zn chebev_a 1]
    (padd [zn chebev_b 0] (pscale (zn chebev_b 1) [-1; 2]%Z))).
  - unfold pAB in P.
    destruct (ploop08 _ _ _ _ _ _ _) as [[[A B] T4] T2]. pose proof (f_equal fst P) as P1; pose proof (f_equal snd P) as P2; cbn [fst snd] in P1, P2; rewrite <- P1, <- P2.
    rewrite peval_add, peval_scale, peval_sub, peval_scale, peval_X.
    unfold ch, coef, zn, Dn. f_equal. field.
  - cbn. ring.
  - cbn. ring.
  - cbn. field.
  - cbn [peval]. unfold ch, coef, zn, Dn. field.
  - rewrite peval_add, peval_scale. cbn [peval]. unfold ch, coef, zn, Dn. field.
Qed.

Fixpoint ploop1 (le lf : list Z) (T4 T2 E F : poly) : poly * poly * poly * poly :=
  match le, lf with
  | e :: le', f :: lf' =>
      let Tn := psub (pscale 2 (pX T2)) T4 in
      ploop1 le' lf' T2 Tn (padd E (pscale e Tn)) (padd F (pscale f Tn))
  | _, _ => (E, F, T4, T2)
  end.
Fixpoint ploop2 (le : list Z) (T4 T2 E : poly) : poly :=
  match le with
  | e :: le' =>
      let Tn := psub (pscale 2 (pX T2)) T4 in ploop2 le' T2 Tn (padd E (pscale e Tn))
  | [] => E
  end.

Lemma ploop1_eval : forall le lf z T4 T2 E F t4 t2 ve vf,
  t4 = peval T4 z -> t2 = peval T2 z -> ve = peval E z / IZR Dn -> vf = peval F z / IZR Dn ->
  fresnel_8_inf_loop1 le lf z t4 t2 ve vf =
  (let '(E', F', T4', T2') := ploop1 le lf T4 T2 E F in
   (peval E' z / IZR Dn, peval F' z / IZR Dn, peval T4' z, peval T2' z)).
Proof.
  induction le as [|a la IH]; intros lb z T4 T2 E F t4 t2 ve vf -> -> -> ->; [reflexivity|].
  destruct lb as [|b lb]; [reflexivity|]. cbn [fresnel_8_inf_loop1 ploop1].
  apply IH.
  - reflexivity.
  - rewrite peval_sub, peval_scale, peval_X. ring.
  - rewrite peval_add, peval_scale, peval_sub, peval_scale, peval_X. unfold coef, Dn. field.
  - rewrite peval_add, peval_scale, peval_sub, peval_scale, peval_X. unfold coef, Dn. field.
Qed.

Lemma ploop2_eval : forall le z T4 T2 E t4 t2 ve,
  t4 = peval T4 z -> t2 = peval T2 z -> ve = peval E z / IZR Dn ->
  fresnel_8_inf_loop2 le z t4 t2 ve = peval (ploop2 le T4 T2 E) z / IZR Dn.
Proof.
  induction le as [|a la IH]; intros z T4 T2 E t4 t2 ve -> -> ->; [reflexivity|].
  cbn [fresnel_8_inf_loop2 ploop2].
  apply IH.
  - reflexivity.
  - rewrite peval_sub, peval_scale, peval_X. ring.
  - rewrite peval_add, peval_scale, peval_sub, peval_scale, peval_X. unfold coef, Dn. field.
Qed.

Definition pEF : poly * poly :=
  let '(E, F, T4, T2) :=
    ploop1 (firstn 33 (skipn 2 chebev_e)) (firstn 33 (skipn 2 chebev_f)) [1%Z] [0%Z; 1%Z]
      [zn chebev_e 0; zn chebev_e 1] [zn chebev_f 0; zn chebev_f 1] in
  (ploop2 (firstn 6 (skipn 35 chebev_e)) T4 T2 E, F).
Definition pE : poly := Eval vm_compute in fst pEF.
Definition pF : poly := Eval vm_compute in snd pEF.

Lemma EF_eval : forall x, x <> 0 -> let z := 128 / x ^ 2 - 1 in
  fresnel_8_inf_EF x = (peval pE z / IZR Dn, peval pF z / IZR Dn).
Proof.
  intros x X z.
  assert (P : pEF = (pE, pF)) by (vm_compute; reflexivity).
  unfold fresnel_8_inf_EF. cbv zeta.
  replace (128 / (x * x) - 1) with z by (unfold z; field; exact X).
  rewrite (ploop1_eval _ _ z [1%Z] [0%Z; 1%Z] [zn chebev_e 0; zn chebev_e 1] [zn chebev_f 0; zn chebev_f 1]).
  - unfold pEF in P.
    destruct (ploop1 _ _ _ _ _ _) as [[[E F] T4] T2].
    rewrite (ploop2_eval _ z T4 T2 E) by reflexivity.
    pose proof (f_equal fst P) as P1; pose proof (f_equal snd P) as P2; cbn [fst snd] in P1, P2; rewrite <- P1, <- P2. reflexivity.
  - cbn. ring.
  - cbn. ring.
  - cbn [peval]. unfold ch, coef, zn, Dn. field.
  - cbn [peval]. unfold ch, coef, zn, Dn. field.
Qed.

(** ** Residuals *)
Definition RA : poly := Eval vm_compute in psub (pscale Mf (padd pA (pscale 4 (pz1 (pder pA))))) (pscale (2 * Dn) pTC).
Definition RW : poly := Eval vm_compute in
  psub (pscale Mf (padd (pscale 3 pW) (pscale 4 (pz1 (pder pW))))) (pscale (16 * Dn) pTS).
Definition R1 : poly := Eval vm_compute in
  psub (psub (psub [512 * Dn]%Z (pscale 512 pF)) (pscale 4 (pz1 (pz1 (pder pE))))) (pscale 3 (pz1 pE)).
Definition R2 : poly := Eval vm_compute in psub (psub pE pF) (pscale 4 (pz1 (pder pF))).

Lemma RA_bound : forall z, -1 <= z <= 1 -> Rabs (peval RA z) <= IZR boundA.
Proof. apply (cheb_cert RA (2 ^ 60) certA); [lia|vm_compute; reflexivity|vm_compute; reflexivity]. Qed.
Lemma RW_bound : forall z, -1 <= z <= 1 -> Rabs (peval RW z) <= IZR boundW.
Proof. apply (cheb_cert RW (2 ^ 60) certW); [lia|vm_compute; reflexivity|vm_compute; reflexivity]. Qed.
Lemma R1_bound : forall z, -1 <= z <= 1 -> Rabs (peval R1 z) <= IZR bound1.
Proof. apply (cheb_cert R1 (2 ^ 60) cert1); [lia|vm_compute; reflexivity|vm_compute; reflexivity]. Qed.
Lemma R1d_bound : forall z, -1 <= z <= 1 -> Rabs (peval (pder R1) z) <= IZR bound1d.
Proof. apply (cheb_cert (pder R1) (2 ^ 60) cert1d); [lia|vm_compute; reflexivity|vm_compute; reflexivity]. Qed.
Lemma R2_bound : forall z, -1 <= z <= 1 -> Rabs (peval R2 z) <= IZR bound2.
Proof. apply (cheb_cert R2 (2 ^ 60) cert2); [lia|vm_compute; reflexivity|vm_compute; reflexivity]. Qed.
Lemma R2d_bound : forall z, -1 <= z <= 1 -> Rabs (peval (pder R2) z) <= IZR bound2d.
Proof. apply (cheb_cert (pder R2) (2 ^ 60) cert2d); [lia|vm_compute; reflexivity|vm_compute; reflexivity]. Qed.
