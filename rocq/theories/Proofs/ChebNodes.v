(** Integer approximations, in units of 10^-80, of the zeros of T_n for the table sizes of
    chebyshev/vandermonde.hpp. Untrusted: ChebRoots.encloses checks them. *)
From Coq Require Import ZArith List.
Import ListNotations.
Open Scope Z_scope.

Definition roots3 : list Z := [
  -86602540378443864676372317075293618347140262690519031402790348972596650845440002;
  0;
  86602540378443864676372317075293618347140262690519031402790348972596650845440002].

Definition roots5 : list Z := [
  -95105651629515357211643933337938214340569863412575022244730564443015317008519350;
  -58778525229247312916870595463907276859765243764314599107227248075727847416235196;
  0;
  58778525229247312916870595463907276859765243764314599107227248075727847416235196;
  95105651629515357211643933337938214340569863412575022244730564443015317008519350].

Definition roots7 : list Z := [
  -97492791218182360701813168299393121723278580061999743764807957508764593163440379;
  -78183148246802980870844452667405775023233451870868752898063495804509173163393644;
  -43388373911755812047576833284835875460999072778745987644454730353220325165319842;
  0;
  43388373911755812047576833284835875460999072778745987644454730353220325165319842;
  78183148246802980870844452667405775023233451870868752898063495804509173163393644;
  97492791218182360701813168299393121723278580061999743764807957508764593163440379].

Definition roots9 : list Z := [
  -98480775301220805936674302458952301367064325171984241879002575235582759994303624;
  -86602540378443864676372317075293618347140262690519031402790348972596650845440002;
  -64278760968653932632264340990726343290755988420568179032497725467111283624095864;
  -34202014332566873304409961468225958076308336751416062846504849768471476370207760;
  0;
  34202014332566873304409961468225958076308336751416062846504849768471476370207760;
  64278760968653932632264340990726343290755988420568179032497725467111283624095864;
  86602540378443864676372317075293618347140262690519031402790348972596650845440002;
  98480775301220805936674302458952301367064325171984241879002575235582759994303624].

Definition roots11 : list Z := [
  -98982144188093273237609203777671878737651937194871668783861544492362236572535410;
  -90963199535451837141171538307902846006024105119464417075610445031751735451746804;
  -75574957435425828377403584397234442017971744516922356957999988305190613888672244;
  -54064081745559758210763595431869169543177060789811384003574988931238237269088425;
  -28173255684142969771141791534661689903577789897326687183108030608784879851902917;
  0;
  28173255684142969771141791534661689903577789897326687183108030608784879851902917;
  54064081745559758210763595431869169543177060789811384003574988931238237269088425;
  75574957435425828377403584397234442017971744516922356957999988305190613888672244;
  90963199535451837141171538307902846006024105119464417075610445031751735451746804;
  98982144188093273237609203777671878737651937194871668783861544492362236572535410].

Definition roots13 : list Z := [
  -99270887409805399280075164949252017934367563297016685577099756051186744621396291;
  -93501624268541482343978459983783072905051746957843187069638027009183054288001195;
  -82298386589365639457961742343938199065506769308757380582700272457163570015031430;
  -66312265824079520237678549266676627952476410704410618818078632971572621298488467;
  -46472317204376854565601533513310477755773586533246897695402468501666771407155631;
  -23931566428755776714875372626021189520317302273830601335515971866183156285075187;
  0;
  23931566428755776714875372626021189520317302273830601335515971866183156285075187;
  46472317204376854565601533513310477755773586533246897695402468501666771407155631;
  66312265824079520237678549266676627952476410704410618818078632971572621298488467;
  82298386589365639457961742343938199065506769308757380582700272457163570015031430;
  93501624268541482343978459983783072905051746957843187069638027009183054288001195;
  99270887409805399280075164949252017934367563297016685577099756051186744621396291].

Definition roots15 : list Z := [
  -99452189536827333692269194498057038152079208870931942736655883357431625068689836;
  -95105651629515357211643933337938214340569863412575022244730564443015317008519350;
  -86602540378443864676372317075293618347140262690519031402790348972596650845440002;
  -74314482547739423501469704897425697718911387349802638604012367054777034442111913;
  -58778525229247312916870595463907276859765243764314599107227248075727847416235196;
  -40673664307580020775398599034149761292313965106617343629428635281703777652454641;
  -20791169081775933710174228440512516621658476062772383640718197388238282566407438;
  0;
  20791169081775933710174228440512516621658476062772383640718197388238282566407438;
  40673664307580020775398599034149761292313965106617343629428635281703777652454641;
  58778525229247312916870595463907276859765243764314599107227248075727847416235196;
  74314482547739423501469704897425697718911387349802638604012367054777034442111913;
  86602540378443864676372317075293618347140262690519031402790348972596650845440002;
  95105651629515357211643933337938214340569863412575022244730564443015317008519350;
  99452189536827333692269194498057038152079208870931942736655883357431625068689836].

Definition roots21 : list Z := [
  -99720379718118014822502987087811926565585970536236880527491970773736929489914676;
  -97492791218182360701813168299393121723278580061999743764807957508764593163440379;
  -93087374864420425563779924195127530714200395770691002474018535916362021606613005;
  -86602540378443864676372317075293618347140262690519031402790348972596650845440002;
  -78183148246802980870844452667405775023233451870868752898063495804509173163393644;
  -68017273777091939018735870103374024402706657064652126903521335657661290122101618;
  -56332005806362202774926153802976051104586897757490892883037240420516604324594834;
  -43388373911755812047576833284835875460999072778745987644454730353220325165319842;
  -29475517441090421683077298196019097320571922997347616861286621851103303041338762;
  -14904226617617444692935471527721755690966943899822249575955040111852848443219360;
  0;
  14904226617617444692935471527721755690966943899822249575955040111852848443219360;
  29475517441090421683077298196019097320571922997347616861286621851103303041338762;
  43388373911755812047576833284835875460999072778745987644454730353220325165319842;
  56332005806362202774926153802976051104586897757490892883037240420516604324594834;
  68017273777091939018735870103374024402706657064652126903521335657661290122101618;
  78183148246802980870844452667405775023233451870868752898063495804509173163393644;
  86602540378443864676372317075293618347140262690519031402790348972596650845440002;
  93087374864420425563779924195127530714200395770691002474018535916362021606613005;
  97492791218182360701813168299393121723278580061999743764807957508764593163440379;
  99720379718118014822502987087811926565585970536236880527491970773736929489914676].
