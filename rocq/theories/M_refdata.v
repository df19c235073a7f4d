(** The two data files shipped with Euphonic, as the JSON trees they are:
    /repo/euphonic/data/sears-1992.json and /repo/euphonic/data/bluebook.json.
    [d n k] is the decimal number n / 10^k. *)
From Coq Require Import String.
From Verif Require Import Base M_ref.
Open Scope string_scope.
Definition d (n : Z) (k : nat) : jval := JFloat (IZR n / 10 ^ k).

(** sears-1992.json, "coherent_scattering_length" *)
Definition sears_coherent_scattering_length : list (string * jval) :=
  [("__units__", JStr "fm"); ("H", d (-37390) 4); ("He", d (326) 2); ("Li", d (-190) 2); ("Be", d (779) 2); ("B", d (530) 2); ("C", d (66460) 4); ("N", d
   (936) 2); ("O", d (5803) 3); ("F", d (5654) 3); ("Ne", d (4566) 3); ("Na", d (363) 2); ("Mg", d (5375) 3); ("Al", d (3449) 3); ("Si", d (41491) 4);
   ("P", d (513) 2); ("S", d (2847) 3); ("Cl", d (95770) 4); ("Ar", d (1909) 3); ("K", d (367) 2); ("Ca", d (470) 2); ("Sc", d (1229) 2); ("Ti", d
   (-3438) 3); ("V", d (-3824) 4); ("Cr", d (3635) 3); ("Mn", d (-373) 2); ("Fe", d (945) 2); ("Co", d (249) 2); ("Ni", d (103) 1); ("Cu", d (7718) 3);
   ("Zn", d (5680) 3); ("Ga", d (7288) 3); ("Ge", d (8185) 3); ("As", d (658) 2); ("Se", d (7970) 3); ("Br", d (6795) 3); ("Kr", d (781) 2); ("Rb", d
   (709) 2); ("Sr", d (702) 2); ("Y", d (775) 2); ("Zr", d (716) 2); ("Nb", d (7054) 3); ("Mo", d (6715) 3); ("Tc", d (68) 1); ("Ru", d (703) 2); ("Rh",
   d (588) 2); ("Pd", d (591) 2); ("Ag", d (5922) 3); ("Cd", JObj [("__complex__", JBool true); ("real", d (487) 2); ("imag", d (-70) 2)]); ("In", JObj
   [("__complex__", JBool true); ("real", d (4065) 3); ("imag", d (-539) 4)]); ("Sn", d (6225) 3); ("Sb", d (557) 2); ("Te", d (580) 2); ("I", d (528)
   2); ("Xe", d (492) 2); ("Cs", d (542) 2); ("Ba", d (507) 2); ("La", d (824) 2); ("Ce", d (484) 2); ("Pr", d (458) 2); ("Nd", d (769) 2); ("Pm", d
   (126) 1); ("Sm", JObj [("__complex__", JBool true); ("real", d (80) 2); ("imag", d (-165) 2)]); ("Eu", JObj [("__complex__", JBool true); ("real", d
   (722) 2); ("imag", d (-126) 2)]); ("Gd", JObj [("__complex__", JBool true); ("real", d (65) 1); ("imag", d (-1382) 2)]); ("Tb", d (738) 2); ("Dy",
   JObj [("__complex__", JBool true); ("real", d (169) 1); ("imag", d (-276) 3)]); ("Ho", d (801) 2); ("Er", d (779) 2); ("Tm", d (707) 2); ("Yb", d
   (1243) 2); ("Lu", d (721) 2); ("Hf", d (777) 2); ("Ta", d (691) 2); ("W", d (486) 2); ("Re", d (92) 1); ("Os", d (1072) 2); ("Ir", d (106) 1); ("Pt",
   d (960) 2); ("Au", d (763) 2); ("Hg", d (12692) 3); ("Tl", d (8776) 3); ("Pb", d (9405) 3); ("Bi", d (8532) 3); ("Po", JNull); ("At", JNull); ("Rn",
   JNull); ("Fr", JNull); ("Ra", d (100) 1); ("Ac", JNull); ("Th", d (1031) 2); ("Pa", d (91) 1); ("U", d (8417) 3); ("Np", d (1055) 2); ("Pu", JNull);
   ("Am", d (83) 1); ("Cm", JNull)].

Definition sears : jval := JObj [("description", JStr "Coherent neutron scattering length (b_c, isotope avg)"); ("reference", JStr "Transcribed by A. J. Jackson from Sears (1992) Neutron News 3(3) pp26--37");
  ("physical_property", JObj [("coherent_scattering_length", JObj sears_coherent_scattering_length)])].

(** bluebook.json, "coherent_cross_section" *)
Definition bluebook_coherent_cross_section : list (string * jval) :=
  [("__units__", JStr "barn"); ("Ag", d (4407) 3); ("Al", d (1495) 3); ("Ar", d (458) 3); ("As", d (544) 2); ("Au", d (732) 2); ("B", d (354) 2); ("Ba",
   d (323) 2); ("Be", d (763) 2); ("Bi", d (9148) 3); ("Br", d (58) 1); ("C", d (5551) 3); ("Ca", d (278) 2); ("Cd", d (304) 2); ("Ce", d (294) 2);
   ("Cl", d (115257) 4); ("Co", d (779) 3); ("Cr", d (166) 2); ("Cs", d (369) 2); ("Cu", d (7485) 3); ("Dy", d (359) 1); ("Er", d (763) 2); ("Eu", d
   (657) 2); ("F", d (4017) 3); ("Fe", d (1122) 2); ("Fr", d (0) 1); ("Ga", d (6675) 3); ("Gd", d (293) 1); ("Ge", d (842) 2); ("H", d (17568) 4); ("He",
   d (134) 2); ("Hf", d (76) 1); ("Hg", d (2024) 2); ("Ho", d (806) 2); ("I", d (35) 1); ("In", d (208) 2); ("Ir", d (141) 1); ("K", d (169) 2); ("Kr", d
   (767) 2); ("La", d (853) 2); ("Li", d (454) 3); ("Lu", d (653) 2); ("Mg", d (3631) 3); ("Mn", d (175) 2); ("Mo", d (567) 2); ("N", d (1101) 2); ("Na",
   d (166) 2); ("Nb", d (6253) 3); ("Nd", d (743) 2); ("Ne", d (262) 2); ("Ni", d (133) 1); ("O", d (4232) 3); ("Os", d (144) 1); ("P", d (3307) 3);
   ("Pa", d (104) 1); ("Pb", d (11115) 3); ("Pd", d (439) 2); ("Pm", d (200) 1); ("Pr", d (264) 2); ("Pt", d (1158) 2); ("Ra", d (130) 1); ("Rb", d (632)
   2); ("Re", d (106) 1); ("Rh", d (434) 2); ("Rn", d (0) 1); ("Ru", d (621) 2); ("S", d (10186) 4); ("Sb", d (39) 1); ("Sc", d (190) 1); ("Se", d (798)
   2); ("Si", d (2163) 3); ("Sm", d (422) 3); ("Sn", d (4871) 3); ("Sr", d (619) 2); ("Ta", d (60) 1); ("Tb", d (684) 2); ("Tc", d (58) 1); ("Te", d
   (423) 2); ("Th", d (1336) 2); ("Ti", d (1485) 3); ("Tl", d (9678) 3); ("Tm", d (628) 2); ("U", d (8903) 3); ("V", d (184) 4); ("W", d (297) 2); ("Xe",
   d (296) 2); ("Y", d (755) 2); ("Yb", d (1942) 2); ("Zn", d (4054) 3); ("Zr", d (644) 2)].

(** bluebook.json, "incoherent_cross_section" *)
Definition bluebook_incoherent_cross_section : list (string * jval) :=
  [("__units__", JStr "barn"); ("Ag", d (58) 2); ("Al", d (82) 4); ("Ar", d (225) 3); ("As", d (6) 2); ("Au", d (43) 2); ("B", d (17) 1); ("Ba", d (15)
   2); ("Be", d (18) 4); ("Bi", d (84) 4); ("Br", d (1) 1); ("C", d (1) 3); ("Ca", d (5) 2); ("Cd", d (346) 2); ("Ce", d (1) 3); ("Cl", d (53) 1); ("Co",
   d (48) 1); ("Cr", d (183) 2); ("Cs", d (21) 2); ("Cu", d (55) 2); ("Dy", d (544) 1); ("Er", d (11) 1); ("Eu", d (25) 1); ("F", d (8) 4); ("Fe", d (4)
   1); ("Fr", d (0) 1); ("Ga", d (16) 2); ("Gd", d (1510) 1); ("Ge", d (18) 2); ("H", d (8026) 2); ("He", d (0) 1); ("Hf", d (26) 1); ("Hg", d (66) 1);
   ("Ho", d (36) 2); ("I", d (31) 2); ("In", d (54) 2); ("Ir", d (0) 1); ("K", d (27) 2); ("Kr", d (1) 2); ("La", d (113) 2); ("Li", d (92) 2); ("Lu", d
   (7) 1); ("Mg", d (8) 2); ("Mn", d (4) 1); ("Mo", d (4) 2); ("N", d (5) 1); ("Na", d (162) 2); ("Nb", d (24) 4); ("Nd", d (92) 1); ("Ne", d (8) 3);
   ("Ni", d (52) 1); ("O", d (8) 4); ("Os", d (3) 1); ("P", d (5) 3); ("Pa", d (1) 1); ("Pb", d (3) 3); ("Pd", d (93) 3); ("Pm", d (13) 1); ("Pr", d (15)
   3); ("Pt", d (13) 2); ("Ra", d (0) 1); ("Rb", d (5) 1); ("Re", d (9) 1); ("Rh", d (3) 1); ("Rn", d (0) 1); ("Ru", d (4) 1); ("S", d (7) 3); ("Sb", d
   (7) 3); ("Sc", d (45) 1); ("Se", d (32) 2); ("Si", d (4) 3); ("Sm", JInt (39)); ("Sn", d (22) 3); ("Sr", d (6) 2); ("Ta", d (1) 2); ("Tb", d (4) 3);
   ("Tc", d (5) 1); ("Te", d (9) 2); ("Th", JInt (0)); ("Ti", d (287) 2); ("Tl", d (21) 2); ("Tm", d (1) 1); ("U", d (5) 3); ("V", d (508) 2); ("W", d
   (163) 2); ("Xe", JInt (0)); ("Y", d (15) 2); ("Yb", JInt (4)); ("Zn", d (77) 3); ("Zr", d (2) 2)].

Definition bluebook : jval := JObj [("description", JStr "Coherent neutron scattering cross sections"); ("reference", JStr "Transcribed by A. J. Jackson (coherent cross sections) and Rebecca Fair (incoherent cross sections) from Mitchell et al. (2005) Vibrational Spectroscopy with Neutrons, World Scientific, which reports that the data is reproduced from Sears (1992) (see other file).");
  ("physical_property", JObj [("coherent_cross_section", JObj bluebook_coherent_cross_section); ("incoherent_cross_section", JObj bluebook_incoherent_cross_section)])].

(** util.py:206-207 *)
Definition shipped (collection : string) : option jval :=
  if String.eqb collection "Sears1992" then Some sears else if String.eqb collection "BlueBook" then Some bluebook else None.
