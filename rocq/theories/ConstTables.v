(** Generated by tools/constants_translate.py: the named floating-point constants of muu, as written in the source. *)
From Coq Require Import ZArith String List.
Import ListNotations.
Local Open Scope string_scope.
Local Open Scope Z_scope.

(** core_constants.h:177-290: the [long double] literals, in units of 10^-21. *)
Definition literals : list (string * Z) := [
  ("one_over_two", 500000000000000000000);
  ("one_over_three", 333333333333333333333);
  ("one_over_four", 250000000000000000000);
  ("one_over_five", 200000000000000000000);
  ("one_over_six", 166666666666666666667);
  ("one_over_seven", 142857142857142857143);
  ("one_over_eight", 125000000000000000000);
  ("sqrt_two", 1414213562373095048802);
  ("one_over_sqrt_two", 707106781186547524401);
  ("two_over_three", 666666666666666666667);
  ("two_over_five", 400000000000000000000);
  ("two_over_seven", 285714285714285714286);
  ("sqrt_three", 1732050807568877293527);
  ("one_over_sqrt_three", 577350269189625764509);
  ("three_over_two", 1500000000000000000000);
  ("three_over_four", 750000000000000000000);
  ("three_over_five", 600000000000000000000);
  ("three_over_seven", 428571428571428571429);
  ("three_over_eight", 375000000000000000000);
  ("sqrt_four", 2000000000000000000000);
  ("four_over_three", 1333333333333333333333);
  ("four_over_five", 800000000000000000000);
  ("four_over_seven", 571428571428571428571);
  ("pi", 3141592653589793238463);
  ("one_over_pi", 318309886183790671538);
  ("sqrt_pi", 1772453850905516027298);
  ("one_over_sqrt_pi", 564189583547756286948);
  ("pi_over_two", 1570796326794896619231);
  ("pi_over_three", 1047197551196597746154);
  ("pi_over_four", 785398163397448309616);
  ("pi_over_five", 628318530717958647693);
  ("pi_over_six", 523598775598298873077);
  ("pi_over_seven", 448798950512827605495);
  ("pi_over_eight", 392699081698724154808);
  ("two_over_pi", 636619772367581343076);
  ("three_over_pi", 954929658551372014613);
  ("four_over_pi", 1273239544735162686151);
  ("five_over_pi", 1591549430918953357689);
  ("six_over_pi", 1909859317102744029227);
  ("seven_over_pi", 2228169203286534700764);
  ("eight_over_pi", 2546479089470325372302);
  ("two_pi", 6283185307179586476925);
  ("one_over_two_pi", 159154943091895335769);
  ("sqrt_two_pi", 2506628274631000502416);
  ("one_over_sqrt_two_pi", 398942280401432677940);
  ("two_pi_over_three", 2094395102393195492308);
  ("two_pi_over_five", 1256637061435917295385);
  ("two_pi_over_seven", 897597901025655210989);
  ("three_over_two_pi", 477464829275686007307);
  ("five_over_two_pi", 795774715459476678844);
  ("seven_over_two_pi", 1114084601643267350382);
  ("three_pi", 9424777960769379715388);
  ("one_over_three_pi", 106103295394596890513);
  ("sqrt_three_pi", 3069980123839465465439);
  ("one_over_sqrt_three_pi", 325735007935279947724);
  ("three_pi_over_two", 4712388980384689857694);
  ("three_pi_over_four", 2356194490192344928847);
  ("three_pi_over_five", 1884955592153875943078);
  ("three_pi_over_seven", 1346396851538482816484);
  ("three_pi_over_eight", 1178097245096172464423);
  ("two_over_three_pi", 212206590789193781025);
  ("four_over_three_pi", 424413181578387562050);
  ("five_over_three_pi", 530516476972984452563);
  ("seven_over_three_pi", 742723067762178233588);
  ("eight_over_three_pi", 848826363156775124101);
  ("e", 2718281828459045534885);
  ("one_over_e", 367879441171442281059);
  ("sqrt_e", 1648721270700128237684);
  ("one_over_sqrt_e", 606530659712633390187);
  ("e_over_two", 1359140914229522767442);
  ("e_over_three", 906093942819681844962);
  ("e_over_four", 679570457114761383721);
  ("e_over_five", 543656365691809106977);
  ("e_over_six", 453046971409840922481);
  ("e_over_seven", 388325975494149362126);
  ("e_over_eight", 339785228557380691861);
  ("two_over_e", 735758882342884562119);
  ("three_over_e", 1103638323514326843178);
  ("four_over_e", 1471517764685769124237);
  ("five_over_e", 1839397205857211405296);
  ("six_over_e", 2207276647028653686356);
  ("seven_over_e", 2575156088200095967415);
  ("eight_over_e", 2943035529371538248474);
  ("phi", 1618033988749894848205);
  ("one_over_phi", 618033988749894848205);
  ("sqrt_phi", 1272019649514068964252);
  ("one_over_sqrt_phi", 786151377757423286070);
  ("phi_over_two", 809016994374947424102);
  ("phi_over_three", 539344662916631616068);
  ("phi_over_four", 404508497187473712051);
  ("phi_over_five", 323606797749978969641);
  ("phi_over_six", 269672331458315808034);
  ("phi_over_seven", 231147712678556406886);
  ("phi_over_eight", 202254248593736856026);
  ("two_over_phi", 1236067977499789696409);
  ("three_over_phi", 1854101966249684544614);
  ("four_over_phi", 2472135954999579392818);
  ("five_over_phi", 3090169943749474241023);
  ("six_over_phi", 3708203932499369089228);
  ("seven_over_phi", 4326237921249263937432);
  ("eight_over_phi", 4944271909999158785637);
  ("one_over_ten", 100000000000000000000);
  ("one_over_one_hundred", 10000000000000000000);
  ("one_over_one_thousand", 1000000000000000000);
  ("degrees_to_radians", 17453292519943295769);
  ("radians_to_degrees", 57295779513082320876798)].

(** core_constants.h:300-405: the [float128_t] literals, in units of 10^-36. *)
Definition literals128 : list (string * Z) := [
  ("one_over_two", 500000000000000000000000000000000000);
  ("one_over_three", 333333333333333333333333333333333333);
  ("one_over_four", 250000000000000000000000000000000000);
  ("one_over_five", 200000000000000000000000000000000000);
  ("one_over_six", 166666666666666666666666666666666667);
  ("one_over_seven", 142857142857142857142857142857142857);
  ("one_over_eight", 125000000000000000000000000000000000);
  ("sqrt_two", 1414213562373095048801688724209698079);
  ("one_over_sqrt_two", 707106781186547524400844362104849039);
  ("two_over_three", 666666666666666666666666666666666667);
  ("two_over_five", 400000000000000000000000000000000000);
  ("two_over_seven", 285714285714285714285714285714285714);
  ("sqrt_three", 1732050807568877293527446341505872367);
  ("one_over_sqrt_three", 577350269189625764509148780501957456);
  ("three_over_two", 1500000000000000000000000000000000000);
  ("three_over_four", 750000000000000000000000000000000000);
  ("three_over_five", 600000000000000000000000000000000000);
  ("three_over_seven", 428571428571428571428571428571428571);
  ("three_over_eight", 375000000000000000000000000000000000);
  ("sqrt_four", 2000000000000000000000000000000000000);
  ("four_over_three", 1333333333333333333333333333333333333);
  ("four_over_five", 800000000000000000000000000000000000);
  ("four_over_seven", 571428571428571428571428571428571429);
  ("pi", 3141592653589793238462643383279502884);
  ("one_over_pi", 318309886183790671537767526745028724);
  ("sqrt_pi", 1772453850905516027298167483341145183);
  ("one_over_sqrt_pi", 564189583547756286948079451560772586);
  ("pi_over_two", 1570796326794896619231321691639751442);
  ("pi_over_three", 1047197551196597746154214461093167628);
  ("pi_over_four", 785398163397448309615660845819875721);
  ("pi_over_five", 628318530717958647692528676655900577);
  ("pi_over_six", 523598775598298873077107230546583814);
  ("pi_over_seven", 448798950512827605494663340468500412);
  ("pi_over_eight", 392699081698724154807830422909937861);
  ("two_over_pi", 636619772367581343075535053490057448);
  ("three_over_pi", 954929658551372014613302580235086172);
  ("four_over_pi", 1273239544735162686151070106980114896);
  ("five_over_pi", 1591549430918953357688837633725143620);
  ("six_over_pi", 1909859317102744029226605160470172344);
  ("seven_over_pi", 2228169203286534700764372687215201068);
  ("eight_over_pi", 2546479089470325372302140213960229793);
  ("two_pi", 6283185307179586476925286766559005768);
  ("one_over_two_pi", 159154943091895335768883763372514362);
  ("sqrt_two_pi", 2506628274631000502415765284811045253);
  ("one_over_sqrt_two_pi", 398942280401432677939946059934381868);
  ("two_pi_over_three", 2094395102393195492308428922186335256);
  ("two_pi_over_five", 1256637061435917295385057353311801154);
  ("two_pi_over_seven", 897597901025655210989326680937000824);
  ("three_over_two_pi", 477464829275686007306651290117543086);
  ("five_over_two_pi", 795774715459476678844418816862571810);
  ("seven_over_two_pi", 1114084601643267350382186343607600534);
  ("three_pi", 9424777960769379715387930149838508653);
  ("one_over_three_pi", 106103295394596890512589175581676241);
  ("sqrt_three_pi", 3069980123839465465438654874667794582);
  ("one_over_sqrt_three_pi", 325735007935279947724256415225564670);
  ("three_pi_over_two", 4712388980384689857693965074919254326);
  ("three_pi_over_four", 2356194490192344928846982537459627163);
  ("three_pi_over_five", 1884955592153875943077586029967701731);
  ("three_pi_over_seven", 1346396851538482816483990021405501236);
  ("three_pi_over_eight", 1178097245096172464423491268729813582);
  ("two_over_three_pi", 212206590789193781025178351163352483);
  ("four_over_three_pi", 424413181578387562050356702326704965);
  ("five_over_three_pi", 530516476972984452562945877908381207);
  ("seven_over_three_pi", 742723067762178233588124229071733689);
  ("eight_over_three_pi", 848826363156775124100713404653409931);
  ("e", 2718281828459045534884808148490265012);
  ("one_over_e", 367879441171442281059287928010393142);
  ("sqrt_e", 1648721270700128237684053351021451524);
  ("one_over_sqrt_e", 606530659712633390187322401455485737);
  ("e_over_two", 1359140914229522767442404074245132506);
  ("e_over_three", 906093942819681844961602716163421671);
  ("e_over_four", 679570457114761383721202037122566253);
  ("e_over_five", 543656365691809106976961629698053002);
  ("e_over_six", 453046971409840922480801358081710835);
  ("e_over_seven", 388325975494149362126401164070037859);
  ("e_over_eight", 339785228557380691860601018561283126);
  ("two_over_e", 735758882342884562118575856020786284);
  ("three_over_e", 1103638323514326843177863784031179427);
  ("four_over_e", 1471517764685769124237151712041572569);
  ("five_over_e", 1839397205857211405296439640051965711);
  ("six_over_e", 2207276647028653686355727568062358853);
  ("seven_over_e", 2575156088200095967415015496072751996);
  ("eight_over_e", 2943035529371538248474303424083145138);
  ("phi", 1618033988749894848204586834365638118);
  ("one_over_phi", 618033988749894848204586834365638118);
  ("sqrt_phi", 1272019649514068964252422461737491492);
  ("one_over_sqrt_phi", 786151377757423286069558585842958930);
  ("phi_over_two", 809016994374947424102293417182819059);
  ("phi_over_three", 539344662916631616068195611455212706);
  ("phi_over_four", 404508497187473712051146708591409529);
  ("phi_over_five", 323606797749978969640917366873127624);
  ("phi_over_six", 269672331458315808034097805727606353);
  ("phi_over_seven", 231147712678556406886369547766519731);
  ("phi_over_eight", 202254248593736856025573354295704765);
  ("two_over_phi", 1236067977499789696409173668731276235);
  ("three_over_phi", 1854101966249684544613760503096914353);
  ("four_over_phi", 2472135954999579392818347337462552471);
  ("five_over_phi", 3090169943749474241022934171828190589);
  ("six_over_phi", 3708203932499369089227521006193828706);
  ("seven_over_phi", 4326237921249263937432107840559466824);
  ("eight_over_phi", 4944271909999158785636694674925104942);
  ("one_over_ten", 100000000000000000000000000000000000);
  ("one_over_one_hundred", 10000000000000000000000000000000000);
  ("one_over_one_thousand", 1000000000000000000000000000000000);
  ("degrees_to_radians", 17453292519943295769236907684886127);
  ("radians_to_degrees", 57295779513082320876798154814105170332)].

(** half.h:800-906: the bit patterns of the emulated half type. *)
Definition half_bits : list (string * Z) := [
  ("one_over_two", 14336);
  ("one_over_three", 13654);
  ("one_over_four", 13312);
  ("one_over_five", 12903);
  ("one_over_six", 12630);
  ("one_over_seven", 12435);
  ("one_over_eight", 12288);
  ("sqrt_two", 15784);
  ("one_over_sqrt_two", 14760);
  ("two_over_three", 14678);
  ("two_over_five", 13927);
  ("two_over_seven", 13459);
  ("sqrt_three", 16110);
  ("one_over_sqrt_three", 14495);
  ("three_over_two", 15872);
  ("three_over_four", 14848);
  ("three_over_five", 14541);
  ("three_over_seven", 14044);
  ("three_over_eight", 13824);
  ("sqrt_four", 16384);
  ("four_over_three", 15702);
  ("four_over_five", 14951);
  ("four_over_seven", 14483);
  ("pi", 16969);
  ("one_over_pi", 13592);
  ("sqrt_pi", 16151);
  ("one_over_sqrt_pi", 14468);
  ("pi_over_two", 15945);
  ("pi_over_three", 15409);
  ("pi_over_four", 14921);
  ("pi_over_five", 14599);
  ("pi_over_six", 14385);
  ("pi_over_seven", 14127);
  ("pi_over_eight", 13897);
  ("two_over_pi", 14616);
  ("three_over_pi", 15268);
  ("four_over_pi", 15640);
  ("five_over_pi", 15966);
  ("six_over_pi", 16292);
  ("seven_over_pi", 16501);
  ("eight_over_pi", 16664);
  ("two_pi", 17993);
  ("one_over_two_pi", 12568);
  ("sqrt_two_pi", 16644);
  ("one_over_sqrt_two_pi", 13922);
  ("two_pi_over_three", 16433);
  ("two_pi_over_five", 15623);
  ("two_pi_over_seven", 15151);
  ("three_over_two_pi", 14244);
  ("five_over_two_pi", 14942);
  ("seven_over_two_pi", 15477);
  ("three_pi", 18615);
  ("one_over_three_pi", 11979);
  ("sqrt_three_pi", 16932);
  ("one_over_sqrt_three_pi", 13622);
  ("three_pi_over_two", 17591);
  ("three_pi_over_four", 16567);
  ("three_pi_over_five", 16266);
  ("three_pi_over_seven", 15715);
  ("three_pi_over_eight", 15543);
  ("two_over_three_pi", 13003);
  ("four_over_three_pi", 14027);
  ("five_over_three_pi", 14399);
  ("seven_over_three_pi", 14833);
  ("eight_over_three_pi", 15051);
  ("e", 16752);
  ("one_over_e", 13795);
  ("sqrt_e", 16025);
  ("one_over_sqrt_e", 14554);
  ("e_over_two", 15728);
  ("e_over_three", 15168);
  ("e_over_four", 14704);
  ("e_over_five", 14426);
  ("e_over_six", 14144);
  ("e_over_seven", 13879);
  ("e_over_eight", 13680);
  ("two_over_e", 14819);
  ("three_over_e", 15466);
  ("four_over_e", 15843);
  ("five_over_e", 16220);
  ("six_over_e", 16490);
  ("seven_over_e", 16679);
  ("eight_over_e", 16867);
  ("phi", 15993);
  ("one_over_phi", 14578);
  ("sqrt_phi", 15639);
  ("one_over_sqrt_phi", 14922);
  ("phi_over_two", 14969);
  ("phi_over_three", 14417);
  ("phi_over_four", 13945);
  ("phi_over_five", 13614);
  ("phi_over_six", 13393);
  ("phi_over_seven", 13158);
  ("phi_over_eight", 12921);
  ("two_over_phi", 15602);
  ("three_over_phi", 16235);
  ("four_over_phi", 16626);
  ("five_over_phi", 16942);
  ("six_over_phi", 17259);
  ("seven_over_phi", 17492);
  ("eight_over_phi", 17650);
  ("one_over_ten", 11879);
  ("one_over_one_hundred", 8479);
  ("one_over_one_thousand", 5145);
  ("degrees_to_radians", 9336);
  ("radians_to_degrees", 21290)].

