(** * Chebyshev coefficients of include/steering_functions/utilities/fresnel.data

    Each decimal literal d = n * 10^-20 is stored as the integer n. The rational values are exact. *)
From Coq Require Import ZArith List.
Import ListNotations.
Open Scope Z_scope.

(** include/steering_functions/utilities/fresnel.data:22-27 *)
Definition chebev_a : list Z :=
  [76435138664186000189;
   -43135547547660179313;
   43288199979726653054;
   -26973310338387111029;
   8416045320876935378;
   -1546524484461381958;
   187855423439822018;
   -16264977618887547;
   1057397656383260;
   -53609339889243;
   2181658454933;
   -72901621186;
   2037332548;
   -48344033;
   986533;
   -17502;
   272;
   -4].

(** include/steering_functions/utilities/fresnel.data:29-34 *)
Definition chebev_b : list Z :=
  [63041404314570539241;
   -42344511405705333544;
   37617172643343656625;
   -16249489154509567415;
   3822255778633008694;
   -564563477132190899;
   57454951976897367;
   -4287071532102004;
   245120749923299;
   -11098841840868;
   408249731696;
   -12449830219;
   320048425;
   -7032416;
   133638;
   -2219;
   32].

(** include/steering_functions/utilities/fresnel.data:36-48 *)
Definition chebev_e : list Z :=
  [97462779093296822410;
   -2424701873969321371;
   103400906842977317;
   -8052450246908016;
   905962481966582;
   -131016996757743;
   22770820391497;
   -4558623552026;
   1021567537083;
   -251114508133;
   66704761275;
   -18931512852;
   5689898935;
   -1798219359;
   594162963;
   -204285065;
   72797580;
   -26797428;
   10160694;
   -3958559;
   1581262;
   -646411;
   269981;
   -115038;
   49942;
   -22064;
   9910;
   -4520;
   2092;
   -982;
   467;
   -225;
   110;
   -54;
   27;
   -14;
   7;
   -4;
   2;
   -1;
   1].

(** include/steering_functions/utilities/fresnel.data:50-60 *)
Definition chebev_f : list Z :=
  [99461545179407928910;
   -524276766084297210;
   13325864229883909;
   -770856452642713;
   70848077032045;
   -8812517411602;
   1359784717148;
   -246858295747;
   50925789921;
   -11653400634;
   2906578309;
   -779847361;
   222802542;
   -67239338;
   21296411;
   -7041482;
   2419805;
   -861080;
   316287;
   -119596;
   46444;
   -18485;
   7527;
   -3131;
   1328;
   -574;
   252;
   -113;
   51;
   -24;
   11;
   -5;
   2;
   -1;
   1].

