(* King models: central potential W0 and concentration. *)
From Verif Require Import Base ModelEnergy ModelTail ModelMassFunction.
Open Scope R_scope.

(* limepydf.py:257-454: 0.3, 0.4, ..., 19.5 *)
Definition w0_tenths : list Z := map (fun i => (3 + Z.of_nat i)%Z) (seq 0 193).
Definition w0_grid : list R := map (fun z => IZR z / 10) w0_tenths.
(* limepydf.py:456-652, in millionths *)
Definition conc_millionths : list Z := [
  1004710; 1171350; 1322660; 1463770; 1597760; 1726690; 1851980; 1974730; 2095780; 2215830;
  2335470; 2455190; 2575460; 2696690; 2819260; 2943540; 3069880; 3198640; 3330170; 3464800;
  3602910; 3744850; 3891000; 4041760; 4197530; 4358750; 4525890; 4699410; 4879840; 5067720;
  5263660; 5468270; 5682240; 5906290; 6141230; 6387900; 6647220; 6920200; 7207920; 7511580;
  7832460; 8171960; 8531630; 8913140; 9318330; 9749200; 10208000; 10697100; 11219100; 11777000;
  12374000; 13013600; 13699700; 14436500; 15228700; 16081400; 17000300; 17991600; 19062000; 20218900;
  21470400; 22825300; 24293000; 25883700; 27608600; 29479300; 31508300; 33708600; 36093800; 38678000;
  41475300; 44499900; 47765800; 51286400; 55074300; 59140700; 63495500; 68146800; 73100800; 78361400;
  83930800; 89808800; 95993700; 102482000; 109270000; 116352000; 123724000; 131381000; 139319000; 147537000;
  156034000; 164810000; 173871000; 183222000; 192871000; 202828000; 213106000; 223721000; 234690000; 246032000;
  257769000; 269924000; 282522000; 295592000; 309162000; 323263000; 337930000; 353196000; 369099000; 385679000;
  402977000; 421038000; 439907000; 459634000; 480270000; 501871000; 524493000; 548199000; 573053000; 599122000;
  626479000; 655201000; 685368000; 717064000; 750382000; 785415000; 822265000; 861038000; 901847000; 944812000;
  990059000; 1037720000; 1087940000; 1140860000; 1196650000; 1255460000; 1317470000; 1382870000; 1451860000; 1524620000;
  1601400000; 1682400000; 1767870000; 1858070000; 1953250000; 2053690000; 2159690000; 2271550000; 2389600000; 2514160000;
  2645600000; 2784280000; 2930590000; 3084940000; 3247740000; 3419440000; 3600510000; 3791430000; 3992700000; 4204840000;
  4428420000; 4664010000; 4912200000; 5173620000; 5448940000; 5738830000; 6044000000; 6365210000; 6703230000; 7058880000;
  7433020000; 7826530000; 8240350000; 8675460000; 9132880000; 9613680000; 10119000000; 10650000000; 11207900000; 11794100000;
  12409800000; 13056600000; 13735900000; 14449300000; 15198400000; 15985100000; 16811200000; 17678500000; 18589200000; 19545300000;
  20549200000; 21603100000; 22709700000]%Z.
Definition conc_grid : list R := map (fun z => IZR z / 1000000) conc_millionths.

(* limepydf.py:656-664, 670-681: the line through the nearest entry and its neighbour on the side of x.  Index -1 is the last
   entry; an index past the end raises. *)
Definition line_value (xs ys : list R) (i j k : nat) (x : R) : R :=
  let m := (nth j ys 0 - nth i ys 0) / (nth j xs 0 - nth i xs 0) in
  m * x + (nth k ys 0 - m * nth k xs 0).
Definition interp (xs ys : list R) (x : R) : result R :=
  let k := argmin (map (fun a => Rabs (a - x)) xs) in
  if Rltb (nth k xs 0) x then
    if Nat.ltb (k + 1) (length xs) then Ok (line_value xs ys k (k + 1) k x) else Raise
  else
    let j := match k with O => (length xs - 1)%nat | S k' => k' end in
    Ok (line_value xs ys j k k x).
(* c_to_w0(c), limepydf.py:236-257, 668-681 *)
Definition c_to_w0 (c : R) : result R := interp conc_grid w0_grid (Rpower 10 c).
(* w0_to_c(w0), limepydf.py:654-666, 684-702; None: nan or -inf *)
Definition w0_to_c (w : R) : result num :=
  match interp w0_grid conc_grid w with Ok y => Ok (nlog10 (Some y)) | Raise => Raise end.
