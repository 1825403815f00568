(** The tables of chebyshev/vandermonde.hpp, literal by literal (generated from the source by
    reading its decimal literals), and get_vmbox. *)
From Coq Require Import ZArith List.
From Verif Require Import Base.Outcome Base.Ops.
Import ListNotations.

(** a decimal literal: mantissa and exponent of ten; row by row *)
Definition table := list (list (Z * Z)).
Open Scope Z_scope.

(** Vandermonde3, 31-34 *)
Definition Vandermonde3 : table := [
  [(33333333333333, -14); (33333333333333, -14); (33333333333333, -14)];
  [(-57735026918963, -14); (0, 0); (57735026918963, -14)];
  [(33333333333333, -14); (-66666666666667, -14); (33333333333333, -14)]].

(** Vandermonde5, 35-45 *)
Definition Vandermonde5 : table := [
  [(20000000000000, -14); (20000000000000, -14); (20000000000000, -14); (20000000000000, -14);
   (20000000000000, -14)];
  [(-38042260651806, -14); (-23511410091699, -14); (0, 0); (23511410091699, -14);
   (38042260651806, -14)];
  [(32360679774998, -14); (-12360679774998, -14); (-40000000000000, -14); (-12360679774998, -14);
   (32360679774998, -14)];
  [(-23511410091699, -14); (38042260651806, -14); (0, 0); (-38042260651806, -14);
   (23511410091699, -14)];
  [(12360679774998, -14); (-32360679774998, -14); (40000000000000, -14); (-32360679774998, -14);
   (12360679774998, -14)]].

(** Vandermonde7, 46-60 *)
Definition Vandermonde7 : table := [
  [(14285714285714, -14); (14285714285714, -14); (14285714285714, -14); (14285714285714, -14);
   (14285714285714, -14); (14285714285714, -14); (14285714285714, -14)];
  [(-27855083205195, -14); (-22338042356229, -14); (-12396678260502, -14); (0, 0);
   (12396678260502, -14); (22338042356229, -14); (27855083205195, -14)];
  [(25741967654355, -14); (63577409701804, -15); (-17813994338821, -14); (-28571428571429, -14);
   (-17813994338821, -14); (63577409701804, -15); (25741967654355, -14)];
  [(-22338042356229, -14); (12396678260502, -14); (27855083205195, -14); (0, 0);
   (-27855083205195, -14); (-12396678260502, -14); (22338042356229, -14)];
  [(17813994338821, -14); (-25741967654355, -14); (-63577409701804, -15); (28571428571429, -14);
   (-63577409701804, -15); (-25741967654355, -14); (17813994338821, -14)];
  [(-12396678260502, -14); (27855083205195, -14); (-22338042356229, -14); (0, 0);
   (22338042356229, -14); (-27855083205195, -14); (12396678260502, -14)];
  [(63577409701804, -15); (-17813994338821, -14); (25741967654355, -14); (-28571428571429, -14);
   (25741967654355, -14); (-17813994338821, -14); (63577409701804, -15)]].

(** Vandermonde9, 803-829 *)
Definition Vandermonde9 : table := [
  [(11111111111111, -14); (11111111111111, -14); (11111111111111, -14); (11111111111111, -14);
   (11111111111111, -14); (11111111111111, -14); (11111111111111, -14); (11111111111111, -14);
   (11111111111111, -14)];
  [(-21884616733605, -14); (-19245008972988, -14); (-14284169104145, -14); (-76004476294593, -15);
   (0, 0); (76004476294593, -15); (14284169104145, -14); (19245008972988, -14);
   (21884616733605, -14)];
  [(20882058239687, -14); (11111111111111, -14); (-38588483925985, -15); (-17023209847088, -14);
   (-22222222222222, -14); (-17023209847088, -14); (-38588483925985, -15); (11111111111111, -14);
   (20882058239687, -14)];
  [(-19245008972988, -14); (0, 0); (19245008972988, -14); (19245008972988, -14); (0, 0);
   (-19245008972988, -14); (-19245008972988, -14); (0, 0); (19245008972988, -14)];
  [(17023209847088, -14); (-11111111111111, -14); (-20882058239687, -14); (38588483925985, -15);
   (22222222222222, -14); (38588483925985, -15); (-20882058239687, -14); (-11111111111111, -14);
   (17023209847088, -14)];
  [(-14284169104145, -14); (19245008972988, -14); (76004476294593, -15); (-21884616733605, -14);
   (0, 0); (21884616733605, -14); (-76004476294593, -15); (-19245008972988, -14);
   (14284169104145, -14)];
  [(11111111111111, -14); (-22222222222222, -14); (11111111111111, -14); (11111111111111, -14);
   (-22222222222222, -14); (11111111111111, -14); (11111111111111, -14); (-22222222222222, -14);
   (11111111111111, -14)];
  [(-76004476294593, -15); (19245008972988, -14); (-21884616733605, -14); (14284169104145, -14);
   (0, 0); (-14284169104145, -14); (21884616733605, -14); (-19245008972988, -14);
   (76004476294593, -15)];
  [(38588483925985, -15); (-11111111111111, -14); (17023209847088, -14); (-20882058239687, -14);
   (22222222222222, -14); (-20882058239687, -14); (17023209847088, -14); (-11111111111111, -14);
   (38588483925985, -15)]].

(** Vandermonde11, 61-94 *)
Definition Vandermonde11 : table := [
  [(90909090909091, -15); (90909090909091, -15); (90909090909091, -15); (90909090909091, -15);
   (90909090909091, -15); (90909090909091, -15); (90909090909091, -15); (90909090909091, -15);
   (90909090909091, -15); (90909090909091, -15); (90909090909091, -15)];
  [(-17996753488744, -14); (-16538763551900, -14); (-13740901351896, -14); (-98298330446472, -15);
   (-51224101243896, -15); (0, 0); (51224101243896, -15); (98298330446472, -15);
   (13740901351896, -14); (16538763551900, -14); (17996753488744, -14)];
  [(17445326792991, -14); (11906558799005, -14); (25875425140597, -15); (-75530002363979, -15);
   (-15295518778749, -14); (-18181818181818, -14); (-15295518778749, -14); (-75530002363979, -15);
   (25875425140597, -15); (11906558799005, -14); (17445326792991, -14)];
  [(-16538763551900, -14); (-51224101243896, -15); (98298330446472, -15); (17996753488744, -14);
   (13740901351896, -14); (0, 0); (-13740901351896, -14); (-17996753488744, -14);
   (-98298330446472, -15); (51224101243896, -15); (16538763551900, -14)];
  [(15295518778749, -14); (-25875425140597, -15); (-17445326792991, -14); (-11906558799005, -14);
   (75530002363979, -15); (18181818181818, -14); (75530002363979, -15); (-11906558799005, -14);
   (-17445326792991, -14); (-25875425140597, -15); (15295518778749, -14)];
  [(-13740901351896, -14); (98298330446472, -15); (16538763551900, -14); (-51224101243896, -15);
   (-17996753488744, -14); (0, 0); (17996753488744, -14); (51224101243896, -15);
   (-16538763551900, -14); (-98298330446472, -15); (13740901351896, -14)];
  [(11906558799005, -14); (-15295518778749, -14); (-75530002363979, -15); (17445326792991, -14);
   (25875425140597, -15); (-18181818181818, -14); (25875425140597, -15); (17445326792991, -14);
   (-75530002363979, -15); (-15295518778749, -14); (11906558799005, -14)];
  [(-98298330446472, -15); (17996753488744, -14); (-51224101243896, -15); (-13740901351896, -14);
   (16538763551900, -14); (0, 0); (-16538763551900, -14); (13740901351896, -14);
   (51224101243896, -15); (-17996753488744, -14); (98298330446472, -15)];
  [(75530002363979, -15); (-17445326792991, -14); (15295518778749, -14); (-25875425140597, -15);
   (-11906558799005, -14); (18181818181818, -14); (-11906558799005, -14); (-25875425140597, -15);
   (15295518778749, -14); (-17445326792991, -14); (75530002363979, -15)];
  [(-51224101243896, -15); (13740901351896, -14); (-17996753488744, -14); (16538763551900, -14);
   (-98298330446472, -15); (0, 0); (98298330446472, -15); (-16538763551900, -14);
   (17996753488744, -14); (-13740901351896, -14); (51224101243896, -15)];
  [(25875425140597, -15); (-75530002363979, -15); (11906558799005, -14); (-15295518778749, -14);
   (17445326792991, -14); (-18181818181818, -14); (17445326792991, -14); (-15295518778749, -14);
   (11906558799005, -14); (-75530002363979, -15); (25875425140597, -15)]].

(** Vandermonde13, 95-147 *)
Definition Vandermonde13 : table := [
  [(76923076923077, -15); (76923076923077, -15); (76923076923077, -15); (76923076923077, -15);
   (76923076923077, -15); (76923076923077, -15); (76923076923077, -15); (76923076923077, -15);
   (76923076923077, -15); (76923076923077, -15); (76923076923077, -15); (76923076923077, -15);
   (76923076923077, -15)];
  [(-15272444216893, -14); (-14384865272083, -14); (-12661290244518, -14); (-10201887049858, -14);
   (-71495872622118, -15); (-36817794505778, -15); (0, 0); (36817794505778, -15);
   (71495872622118, -15); (10201887049858, -14); (12661290244518, -14); (14384865272083, -14);
   (15272444216893, -14)];
  [(14937566421939, -14); (11515549971863, -14); (54554598006544, -15); (-18544104654665, -15);
   (-87394576420178, -15); (-13622400394665, -14); (-15384615384615, -14); (-13622400394665, -14);
   (-87394576420178, -15); (-18544104654665, -15); (54554598006544, -15); (11515549971863, -14);
   (14937566421939, -14)];
  [(-14384865272083, -14); (-71495872622118, -15); (36817794505778, -15); (12661290244518, -14);
   (15272444216893, -14); (10201887049858, -14); (0, 0); (-10201887049858, -14);
   (-15272444216893, -14); (-12661290244518, -14); (-36817794505778, -15); (71495872622118, -15);
   (14384865272083, -14)];
  [(13622400394665, -14); (18544104654665, -15); (-11515549971863, -14); (-14937566421939, -14);
   (-54554598006544, -15); (87394576420178, -15); (15384615384615, -14); (87394576420178, -15);
   (-54554598006544, -15); (-14937566421939, -14); (-11515549971863, -14); (18544104654665, -15);
   (13622400394665, -14)];
  [(-12661290244518, -14); (36817794505778, -15); (15272444216893, -14); (71495872622118, -15);
   (-10201887049858, -14); (-14384865272083, -14); (0, 0); (14384865272083, -14);
   (10201887049858, -14); (-71495872622118, -15); (-15272444216893, -14); (-36817794505778, -15);
   (12661290244518, -14)];
  [(11515549971863, -14); (-87394576420178, -15); (-13622400394665, -14); (54554598006544, -15);
   (14937566421939, -14); (-18544104654665, -15); (-15384615384615, -14); (-18544104654665, -15);
   (14937566421939, -14); (54554598006544, -15); (-13622400394665, -14); (-87394576420178, -15);
   (11515549971863, -14)];
  [(-10201887049858, -14); (12661290244518, -14); (71495872622118, -15); (-14384865272083, -14);
   (-36817794505778, -15); (15272444216893, -14); (0, 0); (-15272444216893, -14);
   (36817794505778, -15); (14384865272083, -14); (-71495872622118, -15); (-12661290244518, -14);
   (10201887049858, -14)];
  [(87394576420178, -15); (-14937566421939, -14); (18544104654665, -15); (13622400394665, -14);
   (-11515549971863, -14); (-54554598006544, -15); (15384615384615, -14); (-54554598006544, -15);
   (-11515549971863, -14); (13622400394665, -14); (18544104654665, -15); (-14937566421939, -14);
   (87394576420178, -15)];
  [(-71495872622118, -15); (15272444216893, -14); (-10201887049858, -14); (-36817794505778, -15);
   (14384865272083, -14); (-12661290244518, -14); (0, 0); (12661290244518, -14);
   (-14384865272083, -14); (36817794505778, -15); (10201887049858, -14); (-15272444216893, -14);
   (71495872622118, -15)];
  [(54554598006544, -15); (-13622400394665, -14); (14937566421939, -14); (-87394576420178, -15);
   (-18544104654665, -15); (11515549971863, -14); (-15384615384615, -14); (11515549971863, -14);
   (-18544104654665, -15); (-87394576420178, -15); (14937566421939, -14); (-13622400394665, -14);
   (54554598006544, -15)];
  [(-36817794505778, -15); (10201887049858, -14); (-14384865272083, -14); (15272444216893, -14);
   (-12661290244518, -14); (71495872622118, -15); (0, 0); (-71495872622118, -15);
   (12661290244518, -14); (-15272444216893, -14); (14384865272083, -14); (-10201887049858, -14);
   (36817794505778, -15)];
  [(18544104654665, -15); (-54554598006544, -15); (87394576420178, -15); (-11515549971863, -14);
   (13622400394665, -14); (-14937566421939, -14); (15384615384615, -14); (-14937566421939, -14);
   (13622400394665, -14); (-11515549971863, -14); (87394576420178, -15); (-54554598006544, -15);
   (18544104654665, -15)]].

(** Vandermonde15, 148-358 *)
Definition Vandermonde15 : table := [
  [(666666666666666666666666666666666666666666666666666666667, -58);
   (666666666666666666666666666666666666666666666666666666667, -58);
   (666666666666666666666666666666666666666666666666666666667, -58);
   (666666666666666666666666666666666666666666666666666666667, -58);
   (666666666666666666666666666666666666666666666666666666667, -58);
   (666666666666666666666666666666666666666666666666666666667, -58);
   (666666666666666666666666666666666666666666666666666666667, -58);
   (666666666666666666666666666666666666666666666666666666667, -58);
   (666666666666666666666666666666666666666666666666666666667, -58);
   (666666666666666666666666666666666666666666666666666666667, -58);
   (666666666666666666666666666666666666666666666666666666667, -58);
   (666666666666666666666666666666666666666666666666666666667, -58);
   (666666666666666666666666666666666666666666666666666666667, -58);
   (666666666666666666666666666666666666666666666666666666667, -58);
   (666666666666666666666666666666666666666666666666666666667, -58)];
  [(-132602919382436444923025592664076050869438945161242590316, -57);
   (-126807535506020476282191911117250952454093151216766696326, -57);
   (-115470053837925152901829756100391491129520350254025375204, -57);
   (-99085976730319231335292939863234263625215183133070184805, -57);
   (-783713669723297505558274606185430358130203250190861321430, -58);
   (-542315524101066943671981320455330150564186201421564581726, -58);
   (-277215587757012449468989712540166888288779680836965115210, -58); (0, 0);
   (277215587757012449468989712540166888288779680836965115210, -58);
   (542315524101066943671981320455330150564186201421564581726, -58);
   (783713669723297505558274606185430358130203250190861321430, -58);
   (99085976730319231335292939863234263625215183133070184805, -57);
   (115470053837925152901829756100391491129520350254025375204, -57);
   (126807535506020476282191911117250952454093151216766696326, -57);
   (132602919382436444923025592664076050869438945161242590316, -57)];
  [(130419680097840751723808899715946604327965041181690281051, -57);
   (107868932583326323213639122291042541181353945320384190809, -57);
   (666666666666666666666666666666666666666666666666666666667, -58);
   (139371284356871295199778873069997492107541159299457485324, -58);
   (-412022659166596565469724556243758745146872786537175241424, -58);
   (-89217414181181095176836444091570729813277762527972756909, -57);
   (-121806061019013452733617009598042290392108061250329939341, -57);
   (-133333333333333333333333333333333333333333333333333333333, -57);
   (-121806061019013452733617009598042290392108061250329939341, -57);
   (-89217414181181095176836444091570729813277762527972756909, -57);
   (-412022659166596565469724556243758745146872786537175241424, -58);
   (139371284356871295199778873069997492107541159299457485324, -58);
   (666666666666666666666666666666666666666666666666666666667, -58);
   (107868932583326323213639122291042541181353945320384190809, -57);
   (130419680097840751723808899715946604327965041181690281051, -57)];
  [(-126807535506020476282191911117250952454093151216766696326, -57);
   (-783713669723297505558274606185430358130203250190861321430, -58); (0, 0);
   (783713669723297505558274606185430358130203250190861321430, -58);
   (126807535506020476282191911117250952454093151216766696326, -57);
   (126807535506020476282191911117250952454093151216766696326, -57);
   (783713669723297505558274606185430358130203250190861321430, -58); (0, 0);
   (-783713669723297505558274606185430358130203250190861321430, -58);
   (-126807535506020476282191911117250952454093151216766696326, -57);
   (-126807535506020476282191911117250952454093151216766696326, -57);
   (-783713669723297505558274606185430358130203250190861321430, -58); (0, 0);
   (783713669723297505558274606185430358130203250190861321430, -58);
   (126807535506020476282191911117250952454093151216766696326, -57)];
  [(121806061019013452733617009598042290392108061250329939341, -57);
   (412022659166596565469724556243758745146872786537175241424, -58);
   (-666666666666666666666666666666666666666666666666666666667, -58);
   (-130419680097840751723808899715946604327965041181690281051, -57);
   (-107868932583326323213639122291042541181353945320384190809, -57);
   (-139371284356871295199778873069997492107541159299457485324, -58);
   (89217414181181095176836444091570729813277762527972756909, -57);
   (133333333333333333333333333333333333333333333333333333333, -57);
   (89217414181181095176836444091570729813277762527972756909, -57);
   (-139371284356871295199778873069997492107541159299457485324, -58);
   (-107868932583326323213639122291042541181353945320384190809, -57);
   (-130419680097840751723808899715946604327965041181690281051, -57);
   (-666666666666666666666666666666666666666666666666666666667, -58);
   (412022659166596565469724556243758745146872786537175241424, -58);
   (121806061019013452733617009598042290392108061250329939341, -57)];
  [(-115470053837925152901829756100391491129520350254025375204, -57); (0, 0);
   (115470053837925152901829756100391491129520350254025375204, -57);
   (115470053837925152901829756100391491129520350254025375204, -57); (0, 0);
   (-115470053837925152901829756100391491129520350254025375204, -57);
   (-115470053837925152901829756100391491129520350254025375204, -57); (0, 0);
   (115470053837925152901829756100391491129520350254025375204, -57);
   (115470053837925152901829756100391491129520350254025375204, -57); (0, 0);
   (-115470053837925152901829756100391491129520350254025375204, -57);
   (-115470053837925152901829756100391491129520350254025375204, -57); (0, 0);
   (115470053837925152901829756100391491129520350254025375204, -57)];
  [(107868932583326323213639122291042541181353945320384190809, -57);
   (-412022659166596565469724556243758745146872786537175241424, -58);
   (-133333333333333333333333333333333333333333333333333333333, -57);
   (-412022659166596565469724556243758745146872786537175241424, -58);
   (107868932583326323213639122291042541181353945320384190809, -57);
   (107868932583326323213639122291042541181353945320384190809, -57);
   (-412022659166596565469724556243758745146872786537175241424, -58);
   (-133333333333333333333333333333333333333333333333333333333, -57);
   (-412022659166596565469724556243758745146872786537175241424, -58);
   (107868932583326323213639122291042541181353945320384190809, -57);
   (107868932583326323213639122291042541181353945320384190809, -57);
   (-412022659166596565469724556243758745146872786537175241424, -58);
   (-133333333333333333333333333333333333333333333333333333333, -57);
   (-412022659166596565469724556243758745146872786537175241424, -58);
   (107868932583326323213639122291042541181353945320384190809, -57)];
  [(-99085976730319231335292939863234263625215183133070184805, -57);
   (783713669723297505558274606185430358130203250190861321430, -58);
   (115470053837925152901829756100391491129520350254025375204, -57);
   (-542315524101066943671981320455330150564186201421564581726, -58);
   (-126807535506020476282191911117250952454093151216766696326, -57);
   (277215587757012449468989712540166888288779680836965115210, -58);
   (132602919382436444923025592664076050869438945161242590316, -57); (0, 0);
   (-132602919382436444923025592664076050869438945161242590316, -57);
   (-277215587757012449468989712540166888288779680836965115210, -58);
   (126807535506020476282191911117250952454093151216766696326, -57);
   (542315524101066943671981320455330150564186201421564581726, -58);
   (-115470053837925152901829756100391491129520350254025375204, -57);
   (-783713669723297505558274606185430358130203250190861321430, -58);
   (99085976730319231335292939863234263625215183133070184805, -57)];
  [(89217414181181095176836444091570729813277762527972756909, -57);
   (-107868932583326323213639122291042541181353945320384190809, -57);
   (-666666666666666666666666666666666666666666666666666666667, -58);
   (121806061019013452733617009598042290392108061250329939341, -57);
   (412022659166596565469724556243758745146872786537175241424, -58);
   (-130419680097840751723808899715946604327965041181690281051, -57);
   (-139371284356871295199778873069997492107541159299457485324, -58);
   (133333333333333333333333333333333333333333333333333333333, -57);
   (-139371284356871295199778873069997492107541159299457485324, -58);
   (-130419680097840751723808899715946604327965041181690281051, -57);
   (412022659166596565469724556243758745146872786537175241424, -58);
   (121806061019013452733617009598042290392108061250329939341, -57);
   (-666666666666666666666666666666666666666666666666666666667, -58);
   (-107868932583326323213639122291042541181353945320384190809, -57);
   (89217414181181095176836444091570729813277762527972756909, -57)];
  [(-783713669723297505558274606185430358130203250190861321430, -58);
   (126807535506020476282191911117250952454093151216766696326, -57); (0, 0);
   (-126807535506020476282191911117250952454093151216766696326, -57);
   (783713669723297505558274606185430358130203250190861321430, -58);
   (783713669723297505558274606185430358130203250190861321430, -58);
   (-126807535506020476282191911117250952454093151216766696326, -57); (0, 0);
   (126807535506020476282191911117250952454093151216766696326, -57);
   (-783713669723297505558274606185430358130203250190861321430, -58);
   (-783713669723297505558274606185430358130203250190861321430, -58);
   (126807535506020476282191911117250952454093151216766696326, -57); (0, 0);
   (-126807535506020476282191911117250952454093151216766696326, -57);
   (783713669723297505558274606185430358130203250190861321430, -58)];
  [(666666666666666666666666666666666666666666666666666666667, -58);
   (-133333333333333333333333333333333333333333333333333333333, -57);
   (666666666666666666666666666666666666666666666666666666667, -58);
   (666666666666666666666666666666666666666666666666666666667, -58);
   (-133333333333333333333333333333333333333333333333333333333, -57);
   (666666666666666666666666666666666666666666666666666666667, -58);
   (666666666666666666666666666666666666666666666666666666667, -58);
   (-133333333333333333333333333333333333333333333333333333333, -57);
   (666666666666666666666666666666666666666666666666666666667, -58);
   (666666666666666666666666666666666666666666666666666666667, -58);
   (-133333333333333333333333333333333333333333333333333333333, -57);
   (666666666666666666666666666666666666666666666666666666667, -58);
   (666666666666666666666666666666666666666666666666666666667, -58);
   (-133333333333333333333333333333333333333333333333333333333, -57);
   (666666666666666666666666666666666666666666666666666666667, -58)];
  [(-542315524101066943671981320455330150564186201421564581726, -58);
   (126807535506020476282191911117250952454093151216766696326, -57);
   (-115470053837925152901829756100391491129520350254025375204, -57);
   (277215587757012449468989712540166888288779680836965115210, -58);
   (783713669723297505558274606185430358130203250190861321430, -58);
   (-132602919382436444923025592664076050869438945161242590316, -57);
   (99085976730319231335292939863234263625215183133070184805, -57); (0, 0);
   (-99085976730319231335292939863234263625215183133070184805, -57);
   (132602919382436444923025592664076050869438945161242590316, -57);
   (-783713669723297505558274606185430358130203250190861321430, -58);
   (-277215587757012449468989712540166888288779680836965115210, -58);
   (115470053837925152901829756100391491129520350254025375204, -57);
   (-126807535506020476282191911117250952454093151216766696326, -57);
   (542315524101066943671981320455330150564186201421564581726, -58)];
  [(412022659166596565469724556243758745146872786537175241424, -58);
   (-107868932583326323213639122291042541181353945320384190809, -57);
   (133333333333333333333333333333333333333333333333333333333, -57);
   (-107868932583326323213639122291042541181353945320384190809, -57);
   (412022659166596565469724556243758745146872786537175241424, -58);
   (412022659166596565469724556243758745146872786537175241424, -58);
   (-107868932583326323213639122291042541181353945320384190809, -57);
   (133333333333333333333333333333333333333333333333333333333, -57);
   (-107868932583326323213639122291042541181353945320384190809, -57);
   (412022659166596565469724556243758745146872786537175241424, -58);
   (412022659166596565469724556243758745146872786537175241424, -58);
   (-107868932583326323213639122291042541181353945320384190809, -57);
   (133333333333333333333333333333333333333333333333333333333, -57);
   (-107868932583326323213639122291042541181353945320384190809, -57);
   (412022659166596565469724556243758745146872786537175241424, -58)];
  [(-277215587757012449468989712540166888288779680836965115210, -58);
   (783713669723297505558274606185430358130203250190861321430, -58);
   (-115470053837925152901829756100391491129520350254025375204, -57);
   (132602919382436444923025592664076050869438945161242590316, -57);
   (-126807535506020476282191911117250952454093151216766696326, -57);
   (99085976730319231335292939863234263625215183133070184805, -57);
   (-542315524101066943671981320455330150564186201421564581726, -58); (0, 0);
   (542315524101066943671981320455330150564186201421564581726, -58);
   (-99085976730319231335292939863234263625215183133070184805, -57);
   (126807535506020476282191911117250952454093151216766696326, -57);
   (-132602919382436444923025592664076050869438945161242590316, -57);
   (115470053837925152901829756100391491129520350254025375204, -57);
   (-783713669723297505558274606185430358130203250190861321430, -58);
   (277215587757012449468989712540166888288779680836965115210, -58)];
  [(139371284356871295199778873069997492107541159299457485324, -58);
   (-412022659166596565469724556243758745146872786537175241424, -58);
   (666666666666666666666666666666666666666666666666666666667, -58);
   (-89217414181181095176836444091570729813277762527972756909, -57);
   (107868932583326323213639122291042541181353945320384190809, -57);
   (-121806061019013452733617009598042290392108061250329939341, -57);
   (130419680097840751723808899715946604327965041181690281051, -57);
   (-133333333333333333333333333333333333333333333333333333333, -57);
   (130419680097840751723808899715946604327965041181690281051, -57);
   (-121806061019013452733617009598042290392108061250329939341, -57);
   (107868932583326323213639122291042541181353945320384190809, -57);
   (-89217414181181095176836444091570729813277762527972756909, -57);
   (666666666666666666666666666666666666666666666666666666667, -58);
   (-412022659166596565469724556243758745146872786537175241424, -58);
   (139371284356871295199778873069997492107541159299457485324, -58)]].

(** Vandermonde21, 359-800 *)
Definition Vandermonde21 : table := [
  [(476190476190476190476190476190476190476190476190476190, -55);
   (476190476190476190476190476190476190476190476190476190, -55);
   (476190476190476190476190476190476190476190476190476190, -55);
   (476190476190476190476190476190476190476190476190476190, -55);
   (476190476190476190476190476190476190476190476190476190, -55);
   (476190476190476190476190476190476190476190476190476190, -55);
   (476190476190476190476190476190476190476190476190476190, -55);
   (476190476190476190476190476190476190476190476190476190, -55);
   (476190476190476190476190476190476190476190476190476190, -55);
   (476190476190476190476190476190476190476190476190476190, -55);
   (476190476190476190476190476190476190476190476190476190, -55);
   (476190476190476190476190476190476190476190476190476190, -55);
   (476190476190476190476190476190476190476190476190476190, -55);
   (476190476190476190476190476190476190476190476190476190, -55);
   (476190476190476190476190476190476190476190476190476190, -55);
   (476190476190476190476190476190476190476190476190476190, -55);
   (476190476190476190476190476190476190476190476190476190, -55);
   (476190476190476190476190476190476190476190476190476190, -55);
   (476190476190476190476190476190476190476190476190476190, -55);
   (476190476190476190476190476190476190476190476190476190, -55);
   (476190476190476190476190476190476190476190476190476190, -55)];
  [(-949717902077314426880980829407732633957961624154636957, -55);
   (-928502773506498673350601602851363064031224572019045179, -55);
   (-886546427280194529178856420905976482992384721625628595, -55);
   (-824786098842322520727355400717082079496573930385895537, -55);
   (-744601411874314103531851930165769285935556684484464313, -55);
   (-647783559781827990654627334317847851454349114901448828, -55);
   (-536495293393925740713582417171200486710351407214198980, -55);
   (-413222608683388686167398412236532147247610216940437978, -55);
   (-280719213724670682695974268533515212576875457117596351, -55);
   (-1419450154058804256470044907402071970568280371411642817, -56); (0, 0);
   (1419450154058804256470044907402071970568280371411642817, -56);
   (280719213724670682695974268533515212576875457117596351, -55);
   (413222608683388686167398412236532147247610216940437978, -55);
   (536495293393925740713582417171200486710351407214198980, -55);
   (647783559781827990654627334317847851454349114901448828, -55);
   (744601411874314103531851930165769285935556684484464313, -55);
   (824786098842322520727355400717082079496573930385895537, -55);
   (886546427280194529178856420905976482992384721625628595, -55);
   (928502773506498673350601602851363064031224572019045179, -55);
   (949717902077314426880980829407732633957961624154636957, -55)];
  [(941743644023931947685469412318103441014524774832559720, -55);
   (858065588478494405939145066197566715396113487744625857, -55);
   (698144639837929836688029989781592292355460511983186167, -55);
   (476190476190476190476190476190476190476190476190476190, -55);
   (2119246990060137183703833947588521518727195892995666241, -56);
   (-711715177013564326580378530807301460700464334926828038, -56);
   (-347943832729900013852131427552160764221882173978843430, -55);
   (-593799811294031933833337984765942676792642600853716291, -55);
   (-786894070777137973281107213116836569326067054251943053, -55);
   (-910069338843943555058413384540444444228180101282752791, -55);
   (-952380952380952380952380952380952380952380952380952381, -55);
   (-910069338843943555058413384540444444228180101282752791, -55);
   (-786894070777137973281107213116836569326067054251943053, -55);
   (-593799811294031933833337984765942676792642600853716291, -55);
   (-347943832729900013852131427552160764221882173978843430, -55);
   (-711715177013564326580378530807301460700464334926828038, -56);
   (2119246990060137183703833947588521518727195892995666241, -56);
   (476190476190476190476190476190476190476190476190476190, -55);
   (698144639837929836688029989781592292355460511983186167, -55);
   (858065588478494405939145066197566715396113487744625857, -55);
   (941743644023931947685469412318103441014524774832559720, -55)];
  [(-928502773506498673350601602851363064031224572019045179, -55);
   (-744601411874314103531851930165769285935556684484464313, -55);
   (-413222608683388686167398412236532147247610216940437978, -55); (0, 0);
   (413222608683388686167398412236532147247610216940437978, -55);
   (744601411874314103531851930165769285935556684484464313, -55);
   (928502773506498673350601602851363064031224572019045179, -55);
   (928502773506498673350601602851363064031224572019045179, -55);
   (744601411874314103531851930165769285935556684484464313, -55);
   (413222608683388686167398412236532147247610216940437978, -55); (0, 0);
   (-413222608683388686167398412236532147247610216940437978, -55);
   (-744601411874314103531851930165769285935556684484464313, -55);
   (-928502773506498673350601602851363064031224572019045179, -55);
   (-928502773506498673350601602851363064031224572019045179, -55);
   (-744601411874314103531851930165769285935556684484464313, -55);
   (-413222608683388686167398412236532147247610216940437978, -55); (0, 0);
   (413222608683388686167398412236532147247610216940437978, -55);
   (744601411874314103531851930165769285935556684484464313, -55);
   (928502773506498673350601602851363064031224572019045179, -55)];
  [(910069338843943555058413384540444444228180101282752791, -55);
   (593799811294031933833337984765942676792642600853716291, -55);
   (711715177013564326580378530807301460700464334926828038, -56);
   (-476190476190476190476190476190476190476190476190476190, -55);
   (-858065588478494405939145066197566715396113487744625857, -55);
   (-941743644023931947685469412318103441014524774832559720, -55);
   (-698144639837929836688029989781592292355460511983186167, -55);
   (-2119246990060137183703833947588521518727195892995666241, -56);
   (347943832729900013852131427552160764221882173978843430, -55);
   (786894070777137973281107213116836569326067054251943053, -55);
   (952380952380952380952380952380952380952380952380952381, -55);
   (786894070777137973281107213116836569326067054251943053, -55);
   (347943832729900013852131427552160764221882173978843430, -55);
   (-2119246990060137183703833947588521518727195892995666241, -56);
   (-698144639837929836688029989781592292355460511983186167, -55);
   (-941743644023931947685469412318103441014524774832559720, -55);
   (-858065588478494405939145066197566715396113487744625857, -55);
   (-476190476190476190476190476190476190476190476190476190, -55);
   (711715177013564326580378530807301460700464334926828038, -56);
   (593799811294031933833337984765942676792642600853716291, -55);
   (910069338843943555058413384540444444228180101282752791, -55)];
  [(-886546427280194529178856420905976482992384721625628595, -55);
   (-413222608683388686167398412236532147247610216940437978, -55);
   (280719213724670682695974268533515212576875457117596351, -55);
   (824786098842322520727355400717082079496573930385895537, -55);
   (928502773506498673350601602851363064031224572019045179, -55);
   (536495293393925740713582417171200486710351407214198980, -55);
   (-1419450154058804256470044907402071970568280371411642817, -56);
   (-744601411874314103531851930165769285935556684484464313, -55);
   (-949717902077314426880980829407732633957961624154636957, -55);
   (-647783559781827990654627334317847851454349114901448828, -55); (0, 0);
   (647783559781827990654627334317847851454349114901448828, -55);
   (949717902077314426880980829407732633957961624154636957, -55);
   (744601411874314103531851930165769285935556684484464313, -55);
   (1419450154058804256470044907402071970568280371411642817, -56);
   (-536495293393925740713582417171200486710351407214198980, -55);
   (-928502773506498673350601602851363064031224572019045179, -55);
   (-824786098842322520727355400717082079496573930385895537, -55);
   (-280719213724670682695974268533515212576875457117596351, -55);
   (413222608683388686167398412236532147247610216940437978, -55);
   (886546427280194529178856420905976482992384721625628595, -55)];
  [(858065588478494405939145066197566715396113487744625857, -55);
   (2119246990060137183703833947588521518727195892995666241, -56);
   (-593799811294031933833337984765942676792642600853716291, -55);
   (-952380952380952380952380952380952380952380952380952381, -55);
   (-593799811294031933833337984765942676792642600853716291, -55);
   (2119246990060137183703833947588521518727195892995666241, -56);
   (858065588478494405939145066197566715396113487744625857, -55);
   (858065588478494405939145066197566715396113487744625857, -55);
   (2119246990060137183703833947588521518727195892995666241, -56);
   (-593799811294031933833337984765942676792642600853716291, -55);
   (-952380952380952380952380952380952380952380952380952381, -55);
   (-593799811294031933833337984765942676792642600853716291, -55);
   (2119246990060137183703833947588521518727195892995666241, -56);
   (858065588478494405939145066197566715396113487744625857, -55);
   (858065588478494405939145066197566715396113487744625857, -55);
   (2119246990060137183703833947588521518727195892995666241, -56);
   (-593799811294031933833337984765942676792642600853716291, -55);
   (-952380952380952380952380952380952380952380952380952381, -55);
   (-593799811294031933833337984765942676792642600853716291, -55);
   (2119246990060137183703833947588521518727195892995666241, -56);
   (858065588478494405939145066197566715396113487744625857, -55)];
  [(-824786098842322520727355400717082079496573930385895537, -55); (0, 0);
   (824786098842322520727355400717082079496573930385895537, -55);
   (824786098842322520727355400717082079496573930385895537, -55); (0, 0);
   (-824786098842322520727355400717082079496573930385895537, -55);
   (-824786098842322520727355400717082079496573930385895537, -55); (0, 0);
   (824786098842322520727355400717082079496573930385895537, -55);
   (824786098842322520727355400717082079496573930385895537, -55); (0, 0);
   (-824786098842322520727355400717082079496573930385895537, -55);
   (-824786098842322520727355400717082079496573930385895537, -55); (0, 0);
   (824786098842322520727355400717082079496573930385895537, -55);
   (824786098842322520727355400717082079496573930385895537, -55); (0, 0);
   (-824786098842322520727355400717082079496573930385895537, -55);
   (-824786098842322520727355400717082079496573930385895537, -55); (0, 0);
   (824786098842322520727355400717082079496573930385895537, -55)];
  [(786894070777137973281107213116836569326067054251943053, -55);
   (-2119246990060137183703833947588521518727195892995666241, -56);
   (-941743644023931947685469412318103441014524774832559720, -55);
   (-476190476190476190476190476190476190476190476190476190, -55);
   (593799811294031933833337984765942676792642600853716291, -55);
   (910069338843943555058413384540444444228180101282752791, -55);
   (711715177013564326580378530807301460700464334926828038, -56);
   (-858065588478494405939145066197566715396113487744625857, -55);
   (-698144639837929836688029989781592292355460511983186167, -55);
   (347943832729900013852131427552160764221882173978843430, -55);
   (952380952380952380952380952380952380952380952380952381, -55);
   (347943832729900013852131427552160764221882173978843430, -55);
   (-698144639837929836688029989781592292355460511983186167, -55);
   (-858065588478494405939145066197566715396113487744625857, -55);
   (711715177013564326580378530807301460700464334926828038, -56);
   (910069338843943555058413384540444444228180101282752791, -55);
   (593799811294031933833337984765942676792642600853716291, -55);
   (-476190476190476190476190476190476190476190476190476190, -55);
   (-941743644023931947685469412318103441014524774832559720, -55);
   (-2119246990060137183703833947588521518727195892995666241, -56);
   (786894070777137973281107213116836569326067054251943053, -55)];
  [(-744601411874314103531851930165769285935556684484464313, -55);
   (413222608683388686167398412236532147247610216940437978, -55);
   (928502773506498673350601602851363064031224572019045179, -55); (0, 0);
   (-928502773506498673350601602851363064031224572019045179, -55);
   (-413222608683388686167398412236532147247610216940437978, -55);
   (744601411874314103531851930165769285935556684484464313, -55);
   (744601411874314103531851930165769285935556684484464313, -55);
   (-413222608683388686167398412236532147247610216940437978, -55);
   (-928502773506498673350601602851363064031224572019045179, -55); (0, 0);
   (928502773506498673350601602851363064031224572019045179, -55);
   (413222608683388686167398412236532147247610216940437978, -55);
   (-744601411874314103531851930165769285935556684484464313, -55);
   (-744601411874314103531851930165769285935556684484464313, -55);
   (413222608683388686167398412236532147247610216940437978, -55);
   (928502773506498673350601602851363064031224572019045179, -55); (0, 0);
   (-928502773506498673350601602851363064031224572019045179, -55);
   (-413222608683388686167398412236532147247610216940437978, -55);
   (744601411874314103531851930165769285935556684484464313, -55)];
  [(698144639837929836688029989781592292355460511983186167, -55);
   (-593799811294031933833337984765942676792642600853716291, -55);
   (-786894070777137973281107213116836569326067054251943053, -55);
   (476190476190476190476190476190476190476190476190476190, -55);
   (858065588478494405939145066197566715396113487744625857, -55);
   (-347943832729900013852131427552160764221882173978843430, -55);
   (-910069338843943555058413384540444444228180101282752791, -55);
   (2119246990060137183703833947588521518727195892995666241, -56);
   (941743644023931947685469412318103441014524774832559720, -55);
   (-711715177013564326580378530807301460700464334926828038, -56);
   (-952380952380952380952380952380952380952380952380952381, -55);
   (-711715177013564326580378530807301460700464334926828038, -56);
   (941743644023931947685469412318103441014524774832559720, -55);
   (2119246990060137183703833947588521518727195892995666241, -56);
   (-910069338843943555058413384540444444228180101282752791, -55);
   (-347943832729900013852131427552160764221882173978843430, -55);
   (858065588478494405939145066197566715396113487744625857, -55);
   (476190476190476190476190476190476190476190476190476190, -55);
   (-786894070777137973281107213116836569326067054251943053, -55);
   (-593799811294031933833337984765942676792642600853716291, -55);
   (698144639837929836688029989781592292355460511983186167, -55)];
  [(-647783559781827990654627334317847851454349114901448828, -55);
   (744601411874314103531851930165769285935556684484464313, -55);
   (536495293393925740713582417171200486710351407214198980, -55);
   (-824786098842322520727355400717082079496573930385895537, -55);
   (-413222608683388686167398412236532147247610216940437978, -55);
   (886546427280194529178856420905976482992384721625628595, -55);
   (280719213724670682695974268533515212576875457117596351, -55);
   (-928502773506498673350601602851363064031224572019045179, -55);
   (-1419450154058804256470044907402071970568280371411642817, -56);
   (949717902077314426880980829407732633957961624154636957, -55); (0, 0);
   (-949717902077314426880980829407732633957961624154636957, -55);
   (1419450154058804256470044907402071970568280371411642817, -56);
   (928502773506498673350601602851363064031224572019045179, -55);
   (-280719213724670682695974268533515212576875457117596351, -55);
   (-886546427280194529178856420905976482992384721625628595, -55);
   (413222608683388686167398412236532147247610216940437978, -55);
   (824786098842322520727355400717082079496573930385895537, -55);
   (-536495293393925740713582417171200486710351407214198980, -55);
   (-744601411874314103531851930165769285935556684484464313, -55);
   (647783559781827990654627334317847851454349114901448828, -55)];
  [(593799811294031933833337984765942676792642600853716291, -55);
   (-858065588478494405939145066197566715396113487744625857, -55);
   (-2119246990060137183703833947588521518727195892995666241, -56);
   (952380952380952380952380952380952380952380952380952381, -55);
   (-2119246990060137183703833947588521518727195892995666241, -56);
   (-858065588478494405939145066197566715396113487744625857, -55);
   (593799811294031933833337984765942676792642600853716291, -55);
   (593799811294031933833337984765942676792642600853716291, -55);
   (-858065588478494405939145066197566715396113487744625857, -55);
   (-2119246990060137183703833947588521518727195892995666241, -56);
   (952380952380952380952380952380952380952380952380952381, -55);
   (-2119246990060137183703833947588521518727195892995666241, -56);
   (-858065588478494405939145066197566715396113487744625857, -55);
   (593799811294031933833337984765942676792642600853716291, -55);
   (593799811294031933833337984765942676792642600853716291, -55);
   (-858065588478494405939145066197566715396113487744625857, -55);
   (-2119246990060137183703833947588521518727195892995666241, -56);
   (952380952380952380952380952380952380952380952380952381, -55);
   (-2119246990060137183703833947588521518727195892995666241, -56);
   (-858065588478494405939145066197566715396113487744625857, -55);
   (593799811294031933833337984765942676792642600853716291, -55)];
  [(-536495293393925740713582417171200486710351407214198980, -55);
   (928502773506498673350601602851363064031224572019045179, -55);
   (-1419450154058804256470044907402071970568280371411642817, -56);
   (-824786098842322520727355400717082079496573930385895537, -55);
   (744601411874314103531851930165769285935556684484464313, -55);
   (280719213724670682695974268533515212576875457117596351, -55);
   (-949717902077314426880980829407732633957961624154636957, -55);
   (413222608683388686167398412236532147247610216940437978, -55);
   (647783559781827990654627334317847851454349114901448828, -55);
   (-886546427280194529178856420905976482992384721625628595, -55); (0, 0);
   (886546427280194529178856420905976482992384721625628595, -55);
   (-647783559781827990654627334317847851454349114901448828, -55);
   (-413222608683388686167398412236532147247610216940437978, -55);
   (949717902077314426880980829407732633957961624154636957, -55);
   (-280719213724670682695974268533515212576875457117596351, -55);
   (-744601411874314103531851930165769285935556684484464313, -55);
   (824786098842322520727355400717082079496573930385895537, -55);
   (1419450154058804256470044907402071970568280371411642817, -56);
   (-928502773506498673350601602851363064031224572019045179, -55);
   (536495293393925740713582417171200486710351407214198980, -55)];
  [(476190476190476190476190476190476190476190476190476190, -55);
   (-952380952380952380952380952380952380952380952380952381, -55);
   (476190476190476190476190476190476190476190476190476190, -55);
   (476190476190476190476190476190476190476190476190476190, -55);
   (-952380952380952380952380952380952380952380952380952381, -55);
   (476190476190476190476190476190476190476190476190476190, -55);
   (476190476190476190476190476190476190476190476190476190, -55);
   (-952380952380952380952380952380952380952380952380952381, -55);
   (476190476190476190476190476190476190476190476190476190, -55);
   (476190476190476190476190476190476190476190476190476190, -55);
   (-952380952380952380952380952380952380952380952380952381, -55);
   (476190476190476190476190476190476190476190476190476190, -55);
   (476190476190476190476190476190476190476190476190476190, -55);
   (-952380952380952380952380952380952380952380952380952381, -55);
   (476190476190476190476190476190476190476190476190476190, -55);
   (476190476190476190476190476190476190476190476190476190, -55);
   (-952380952380952380952380952380952380952380952380952381, -55);
   (476190476190476190476190476190476190476190476190476190, -55);
   (476190476190476190476190476190476190476190476190476190, -55);
   (-952380952380952380952380952380952380952380952380952381, -55);
   (476190476190476190476190476190476190476190476190476190, -55)];
  [(-413222608683388686167398412236532147247610216940437978, -55);
   (928502773506498673350601602851363064031224572019045179, -55);
   (-744601411874314103531851930165769285935556684484464313, -55); (0, 0);
   (744601411874314103531851930165769285935556684484464313, -55);
   (-928502773506498673350601602851363064031224572019045179, -55);
   (413222608683388686167398412236532147247610216940437978, -55);
   (413222608683388686167398412236532147247610216940437978, -55);
   (-928502773506498673350601602851363064031224572019045179, -55);
   (744601411874314103531851930165769285935556684484464313, -55); (0, 0);
   (-744601411874314103531851930165769285935556684484464313, -55);
   (928502773506498673350601602851363064031224572019045179, -55);
   (-413222608683388686167398412236532147247610216940437978, -55);
   (-413222608683388686167398412236532147247610216940437978, -55);
   (928502773506498673350601602851363064031224572019045179, -55);
   (-744601411874314103531851930165769285935556684484464313, -55); (0, 0);
   (744601411874314103531851930165769285935556684484464313, -55);
   (-928502773506498673350601602851363064031224572019045179, -55);
   (413222608683388686167398412236532147247610216940437978, -55)];
  [(347943832729900013852131427552160764221882173978843430, -55);
   (-858065588478494405939145066197566715396113487744625857, -55);
   (910069338843943555058413384540444444228180101282752791, -55);
   (-476190476190476190476190476190476190476190476190476190, -55);
   (-2119246990060137183703833947588521518727195892995666241, -56);
   (786894070777137973281107213116836569326067054251943053, -55);
   (-941743644023931947685469412318103441014524774832559720, -55);
   (593799811294031933833337984765942676792642600853716291, -55);
   (711715177013564326580378530807301460700464334926828038, -56);
   (-698144639837929836688029989781592292355460511983186167, -55);
   (952380952380952380952380952380952380952380952380952381, -55);
   (-698144639837929836688029989781592292355460511983186167, -55);
   (711715177013564326580378530807301460700464334926828038, -56);
   (593799811294031933833337984765942676792642600853716291, -55);
   (-941743644023931947685469412318103441014524774832559720, -55);
   (786894070777137973281107213116836569326067054251943053, -55);
   (-2119246990060137183703833947588521518727195892995666241, -56);
   (-476190476190476190476190476190476190476190476190476190, -55);
   (910069338843943555058413384540444444228180101282752791, -55);
   (-858065588478494405939145066197566715396113487744625857, -55);
   (347943832729900013852131427552160764221882173978843430, -55)];
  [(-280719213724670682695974268533515212576875457117596351, -55);
   (744601411874314103531851930165769285935556684484464313, -55);
   (-949717902077314426880980829407732633957961624154636957, -55);
   (824786098842322520727355400717082079496573930385895537, -55);
   (-413222608683388686167398412236532147247610216940437978, -55);
   (-1419450154058804256470044907402071970568280371411642817, -56);
   (647783559781827990654627334317847851454349114901448828, -55);
   (-928502773506498673350601602851363064031224572019045179, -55);
   (886546427280194529178856420905976482992384721625628595, -55);
   (-536495293393925740713582417171200486710351407214198980, -55); (0, 0);
   (536495293393925740713582417171200486710351407214198980, -55);
   (-886546427280194529178856420905976482992384721625628595, -55);
   (928502773506498673350601602851363064031224572019045179, -55);
   (-647783559781827990654627334317847851454349114901448828, -55);
   (1419450154058804256470044907402071970568280371411642817, -56);
   (413222608683388686167398412236532147247610216940437978, -55);
   (-824786098842322520727355400717082079496573930385895537, -55);
   (949717902077314426880980829407732633957961624154636957, -55);
   (-744601411874314103531851930165769285935556684484464313, -55);
   (280719213724670682695974268533515212576875457117596351, -55)];
  [(2119246990060137183703833947588521518727195892995666241, -56);
   (-593799811294031933833337984765942676792642600853716291, -55);
   (858065588478494405939145066197566715396113487744625857, -55);
   (-952380952380952380952380952380952380952380952380952381, -55);
   (858065588478494405939145066197566715396113487744625857, -55);
   (-593799811294031933833337984765942676792642600853716291, -55);
   (2119246990060137183703833947588521518727195892995666241, -56);
   (2119246990060137183703833947588521518727195892995666241, -56);
   (-593799811294031933833337984765942676792642600853716291, -55);
   (858065588478494405939145066197566715396113487744625857, -55);
   (-952380952380952380952380952380952380952380952380952381, -55);
   (858065588478494405939145066197566715396113487744625857, -55);
   (-593799811294031933833337984765942676792642600853716291, -55);
   (2119246990060137183703833947588521518727195892995666241, -56);
   (2119246990060137183703833947588521518727195892995666241, -56);
   (-593799811294031933833337984765942676792642600853716291, -55);
   (858065588478494405939145066197566715396113487744625857, -55);
   (-952380952380952380952380952380952380952380952380952381, -55);
   (858065588478494405939145066197566715396113487744625857, -55);
   (-593799811294031933833337984765942676792642600853716291, -55);
   (2119246990060137183703833947588521518727195892995666241, -56)];
  [(-1419450154058804256470044907402071970568280371411642817, -56);
   (413222608683388686167398412236532147247610216940437978, -55);
   (-647783559781827990654627334317847851454349114901448828, -55);
   (824786098842322520727355400717082079496573930385895537, -55);
   (-928502773506498673350601602851363064031224572019045179, -55);
   (949717902077314426880980829407732633957961624154636957, -55);
   (-886546427280194529178856420905976482992384721625628595, -55);
   (744601411874314103531851930165769285935556684484464313, -55);
   (-536495293393925740713582417171200486710351407214198980, -55);
   (280719213724670682695974268533515212576875457117596351, -55); (0, 0);
   (-280719213724670682695974268533515212576875457117596351, -55);
   (536495293393925740713582417171200486710351407214198980, -55);
   (-744601411874314103531851930165769285935556684484464313, -55);
   (886546427280194529178856420905976482992384721625628595, -55);
   (-949717902077314426880980829407732633957961624154636957, -55);
   (928502773506498673350601602851363064031224572019045179, -55);
   (-824786098842322520727355400717082079496573930385895537, -55);
   (647783559781827990654627334317847851454349114901448828, -55);
   (-413222608683388686167398412236532147247610216940437978, -55);
   (1419450154058804256470044907402071970568280371411642817, -56)];
  [(711715177013564326580378530807301460700464334926828038, -56);
   (-2119246990060137183703833947588521518727195892995666241, -56);
   (347943832729900013852131427552160764221882173978843430, -55);
   (-476190476190476190476190476190476190476190476190476190, -55);
   (593799811294031933833337984765942676792642600853716291, -55);
   (-698144639837929836688029989781592292355460511983186167, -55);
   (786894070777137973281107213116836569326067054251943053, -55);
   (-858065588478494405939145066197566715396113487744625857, -55);
   (910069338843943555058413384540444444228180101282752791, -55);
   (-941743644023931947685469412318103441014524774832559720, -55);
   (952380952380952380952380952380952380952380952380952381, -55);
   (-941743644023931947685469412318103441014524774832559720, -55);
   (910069338843943555058413384540444444228180101282752791, -55);
   (-858065588478494405939145066197566715396113487744625857, -55);
   (786894070777137973281107213116836569326067054251943053, -55);
   (-698144639837929836688029989781592292355460511983186167, -55);
   (593799811294031933833337984765942676792642600853716291, -55);
   (-476190476190476190476190476190476190476190476190476190, -55);
   (347943832729900013852131427552160764221882173978843430, -55);
   (-2119246990060137183703833947588521518727195892995666241, -56);
   (711715177013564326580378530807301460700464334926828038, -56)]].

Close Scope Z_scope.

Section Vandermonde.
  Context {T : Type} {O : Ops T}.

  (** the constexpr array of a table: row i, column j *)
  Definition literal (m : Z * Z) : T := Odec (fst m) (snd m).
  Definition entry (v : table) (i j : nat) : result T :=
    match nth_error v i with
    | Some row => match nth_error row j with Some m => Ok (literal m) | None => UB end
    | None => UB
    end.

  (** get_vmbox, 802-836: r[j + i * 9] = Vandermonde9[i][j] *)
  Definition get_vmbox (r : list T) : result (list T) :=
    for_int 9 (fun i r =>
      for_int 9 (fun j r =>
        v <- entry Vandermonde9 i j ;;
        store r (j + i * 9) v) r) r.
End Vandermonde.
