(* The tables of /repo/collation/collation.go, copied from the source mechanically. *)
From Coq Require Import String NArith List.
From Verif Require Import Base.
Import ListNotations.
Open Scope N_scope.

(* collation.go:20 collationName *)
Definition collation_name : bytes := s2b (
  "big5_chinese_cilatin2_czech_csdec8_swedish_cicp850_general_cilatin1_german1_cihp8_english_cikoi8r_ge" ++
  "neral_cilatin1_swedish_cilatin2_general_ciswe7_swedish_ciascii_general_ciujis_japanese_cisjis_japane" ++
  "se_cicp1251_bulgarian_cilatin1_danish_cihebrew_general_citis620_thai_cieuckr_korean_cilatin7_estonia" ++
  "n_cslatin2_hungarian_cikoi8u_general_cicp1251_ukrainian_cigb2312_chinese_cigreek_general_cicp1250_ge" ++
  "neral_cilatin2_croatian_cigbk_chinese_cicp1257_lithuanian_cilatin5_turkish_cilatin1_german2_ciarmsci" ++
  "i8_general_ciutf8_general_cicp1250_czech_csucs2_general_cicp866_general_cikeybcs2_general_cimacce_ge" ++
  "neral_cimacroman_general_cicp852_general_cilatin7_general_cilatin7_general_csmacce_bincp1250_croatia" ++
  "n_ciutf8mb4_general_ciutf8mb4_binlatin1_binlatin1_general_cilatin1_general_cscp1251_bincp1251_genera" ++
  "l_cicp1251_general_csmacroman_binutf16_general_ciutf16_binutf16le_general_cicp1256_general_cicp1257_" ++
  "bincp1257_general_ciutf32_general_ciutf32_binutf16le_binbinaryarmscii8_binascii_bincp1250_bincp1256_" ++
  "bincp866_bindec8_bingreek_binhebrew_binhp8_binkeybcs2_binkoi8r_binkoi8u_binutf8_tolower_cilatin2_bin" ++
  "latin5_binlatin7_bincp850_bincp852_binswe7_binutf8_binbig5_bineuckr_bingb2312_bingbk_binsjis_bintis6" ++
  "20_binucs2_binujis_bingeostd8_general_cigeostd8_binlatin1_spanish_cicp932_japanese_cicp932_bineucjpm" ++
  "s_japanese_cieucjpms_bincp1250_polish_ciutf16_unicode_ciutf16_icelandic_ciutf16_latvian_ciutf16_roma" ++
  "nian_ciutf16_slovenian_ciutf16_polish_ciutf16_estonian_ciutf16_spanish_ciutf16_swedish_ciutf16_turki" ++
  "sh_ciutf16_czech_ciutf16_danish_ciutf16_lithuanian_ciutf16_slovak_ciutf16_spanish2_ciutf16_roman_ciu" ++
  "tf16_persian_ciutf16_esperanto_ciutf16_hungarian_ciutf16_sinhala_ciutf16_german2_ciutf16_croatian_ci" ++
  "utf16_unicode_520_ciutf16_vietnamese_ciucs2_unicode_ciucs2_icelandic_ciucs2_latvian_ciucs2_romanian_" ++
  "ciucs2_slovenian_ciucs2_polish_ciucs2_estonian_ciucs2_spanish_ciucs2_swedish_ciucs2_turkish_ciucs2_c" ++
  "zech_ciucs2_danish_ciucs2_lithuanian_ciucs2_slovak_ciucs2_spanish2_ciucs2_roman_ciucs2_persian_ciucs" ++
  "2_esperanto_ciucs2_hungarian_ciucs2_sinhala_ciucs2_german2_ciucs2_croatian_ciucs2_unicode_520_ciucs2" ++
  "_vietnamese_ciucs2_general_mysql500_ciutf32_unicode_ciutf32_icelandic_ciutf32_latvian_ciutf32_romani" ++
  "an_ciutf32_slovenian_ciutf32_polish_ciutf32_estonian_ciutf32_spanish_ciutf32_swedish_ciutf32_turkish" ++
  "_ciutf32_czech_ciutf32_danish_ciutf32_lithuanian_ciutf32_slovak_ciutf32_spanish2_ciutf32_roman_ciutf" ++
  "32_persian_ciutf32_esperanto_ciutf32_hungarian_ciutf32_sinhala_ciutf32_german2_ciutf32_croatian_ciut" ++
  "f32_unicode_520_ciutf32_vietnamese_ciutf8_unicode_ciutf8_icelandic_ciutf8_latvian_ciutf8_romanian_ci" ++
  "utf8_slovenian_ciutf8_polish_ciutf8_estonian_ciutf8_spanish_ciutf8_swedish_ciutf8_turkish_ciutf8_cze" ++
  "ch_ciutf8_danish_ciutf8_lithuanian_ciutf8_slovak_ciutf8_spanish2_ciutf8_roman_ciutf8_persian_ciutf8_" ++
  "esperanto_ciutf8_hungarian_ciutf8_sinhala_ciutf8_german2_ciutf8_croatian_ciutf8_unicode_520_ciutf8_v" ++
  "ietnamese_ciutf8_general_mysql500_ciutf8mb4_unicode_ciutf8mb4_icelandic_ciutf8mb4_latvian_ciutf8mb4_" ++
  "romanian_ciutf8mb4_slovenian_ciutf8mb4_polish_ciutf8mb4_estonian_ciutf8mb4_spanish_ciutf8mb4_swedish" ++
  "_ciutf8mb4_turkish_ciutf8mb4_czech_ciutf8mb4_danish_ciutf8mb4_lithuanian_ciutf8mb4_slovak_ciutf8mb4_" ++
  "spanish2_ciutf8mb4_roman_ciutf8mb4_persian_ciutf8mb4_esperanto_ciutf8mb4_hungarian_ciutf8mb4_sinhala" ++
  "_ciutf8mb4_german2_ciutf8mb4_croatian_ciutf8mb4_unicode_520_ciutf8mb4_vietnamese_cigb18030_chinese_c" ++
  "igb18030_bingb18030_unicode_520_ciutf8mb4_0900_ai_ciutf8mb4_de_pb_0900_ai_ciutf8mb4_is_0900_ai_ciutf" ++
  "8mb4_lv_0900_ai_ciutf8mb4_ro_0900_ai_ciutf8mb4_sl_0900_ai_ciutf8mb4_pl_0900_ai_ciutf8mb4_et_0900_ai_" ++
  "ciutf8mb4_es_0900_ai_ciutf8mb4_sv_0900_ai_ciutf8mb4_tr_0900_ai_ciutf8mb4_cs_0900_ai_ciutf8mb4_da_090" ++
  "0_ai_ciutf8mb4_lt_0900_ai_ciutf8mb4_sk_0900_ai_ciutf8mb4_es_trad_0900_ai_ciutf8mb4_la_0900_ai_ciutf8" ++
  "mb4_eo_0900_ai_ciutf8mb4_hu_0900_ai_ciutf8mb4_hr_0900_ai_ciutf8mb4_vi_0900_ai_ciutf8mb4_0900_as_csut" ++
  "f8mb4_de_pb_0900_as_csutf8mb4_is_0900_as_csutf8mb4_lv_0900_as_csutf8mb4_ro_0900_as_csutf8mb4_sl_0900" ++
  "_as_csutf8mb4_pl_0900_as_csutf8mb4_et_0900_as_csutf8mb4_es_0900_as_csutf8mb4_sv_0900_as_csutf8mb4_tr" ++
  "_0900_as_csutf8mb4_cs_0900_as_csutf8mb4_da_0900_as_csutf8mb4_lt_0900_as_csutf8mb4_sk_0900_as_csutf8m" ++
  "b4_es_trad_0900_as_csutf8mb4_la_0900_as_csutf8mb4_eo_0900_as_csutf8mb4_hu_0900_as_csutf8mb4_hr_0900_" ++
  "as_csutf8mb4_vi_0900_as_csutf8mb4_ja_0900_as_csutf8mb4_ja_0900_as_cs_ksutf8mb4_0900_as_ciutf8mb4_ru_" ++
  "0900_ai_ciutf8mb4_ru_0900_as_cs")%string.

(* collation.go:22-293 collationMap: key, and the bounds of the part of collationName *)
Definition collation_map : list (N * (nat * nat)) := [
  (1, (0, 15)%nat); (2, (15, 30)%nat); (3, (30, 45)%nat); (4, (45, 61)%nat); (5, (61, 78)%nat); (6, (78, 92)%nat);
  (7, (92, 108)%nat); (8, (108, 125)%nat); (9, (125, 142)%nat); (10, (142, 157)%nat); (11, (157, 173)%nat); (12, (173, 189)%nat);
  (13, (189, 205)%nat); (14, (205, 224)%nat); (15, (224, 240)%nat); (16, (240, 257)%nat); (18, (257, 271)%nat); (19, (271, 286)%nat);
  (20, (286, 304)%nat); (21, (304, 323)%nat); (22, (323, 339)%nat); (23, (339, 358)%nat); (24, (358, 375)%nat); (25, (375, 391)%nat);
  (26, (391, 408)%nat); (27, (408, 426)%nat); (28, (426, 440)%nat); (29, (440, 460)%nat); (30, (460, 477)%nat); (31, (477, 494)%nat);
  (32, (494, 513)%nat); (33, (513, 528)%nat); (34, (528, 543)%nat); (35, (543, 558)%nat); (36, (558, 574)%nat); (37, (574, 592)%nat);
  (38, (592, 608)%nat); (39, (608, 627)%nat); (40, (627, 643)%nat); (41, (643, 660)%nat); (42, (660, 677)%nat); (43, (677, 686)%nat);
  (44, (686, 704)%nat); (45, (704, 722)%nat); (46, (722, 733)%nat); (47, (733, 743)%nat); (48, (743, 760)%nat); (49, (760, 777)%nat);
  (50, (777, 787)%nat); (51, (787, 804)%nat); (52, (804, 821)%nat); (53, (821, 833)%nat); (54, (833, 849)%nat); (55, (849, 858)%nat);
  (56, (858, 876)%nat); (57, (876, 893)%nat); (58, (893, 903)%nat); (59, (903, 920)%nat); (60, (920, 936)%nat); (61, (936, 945)%nat);
  (62, (945, 956)%nat); (63, (956, 962)%nat); (64, (962, 974)%nat); (65, (974, 983)%nat); (66, (983, 993)%nat); (67, (993, 1003)%nat);
  (68, (1003, 1012)%nat); (69, (1012, 1020)%nat); (70, (1020, 1029)%nat); (71, (1029, 1039)%nat); (72, (1039, 1046)%nat); (73, (1046, 1057)%nat);
  (74, (1057, 1066)%nat); (75, (1066, 1075)%nat); (76, (1075, 1090)%nat); (77, (1090, 1100)%nat); (78, (1100, 1110)%nat); (79, (1110, 1120)%nat);
  (80, (1120, 1129)%nat); (81, (1129, 1138)%nat); (82, (1138, 1146)%nat); (83, (1146, 1154)%nat); (84, (1154, 1162)%nat); (85, (1162, 1171)%nat);
  (86, (1171, 1181)%nat); (87, (1181, 1188)%nat); (88, (1188, 1196)%nat); (89, (1196, 1206)%nat); (90, (1206, 1214)%nat); (91, (1214, 1222)%nat);
  (92, (1222, 1240)%nat); (93, (1240, 1251)%nat); (94, (1251, 1268)%nat); (95, (1268, 1285)%nat); (96, (1285, 1294)%nat); (97, (1294, 1313)%nat);
  (98, (1313, 1324)%nat); (99, (1324, 1340)%nat); (101, (1340, 1356)%nat); (102, (1356, 1374)%nat); (103, (1374, 1390)%nat); (104, (1390, 1407)%nat);
  (105, (1407, 1425)%nat); (106, (1425, 1440)%nat); (107, (1440, 1457)%nat); (108, (1457, 1473)%nat); (109, (1473, 1489)%nat); (110, (1489, 1505)%nat);
  (111, (1505, 1519)%nat); (112, (1519, 1534)%nat); (113, (1534, 1553)%nat); (114, (1553, 1568)%nat); (115, (1568, 1585)%nat); (116, (1585, 1599)%nat);
  (117, (1599, 1615)%nat); (118, (1615, 1633)%nat); (119, (1633, 1651)%nat); (120, (1651, 1667)%nat); (121, (1667, 1683)%nat); (122, (1683, 1700)%nat);
  (123, (1700, 1720)%nat); (124, (1720, 1739)%nat); (128, (1739, 1754)%nat); (129, (1754, 1771)%nat); (130, (1771, 1786)%nat); (131, (1786, 1802)%nat);
  (132, (1802, 1819)%nat); (133, (1819, 1833)%nat); (134, (1833, 1849)%nat); (135, (1849, 1864)%nat); (136, (1864, 1879)%nat); (137, (1879, 1894)%nat);
  (138, (1894, 1907)%nat); (139, (1907, 1921)%nat); (140, (1921, 1939)%nat); (141, (1939, 1953)%nat); (142, (1953, 1969)%nat); (143, (1969, 1982)%nat);
  (144, (1982, 1997)%nat); (145, (1997, 2014)%nat); (146, (2014, 2031)%nat); (147, (2031, 2046)%nat); (148, (2046, 2061)%nat); (149, (2061, 2077)%nat);
  (150, (2077, 2096)%nat); (151, (2096, 2114)%nat); (159, (2114, 2138)%nat); (160, (2138, 2154)%nat); (161, (2154, 2172)%nat); (162, (2172, 2188)%nat);
  (163, (2188, 2205)%nat); (164, (2205, 2223)%nat); (165, (2223, 2238)%nat); (166, (2238, 2255)%nat); (167, (2255, 2271)%nat); (168, (2271, 2287)%nat);
  (169, (2287, 2303)%nat); (170, (2303, 2317)%nat); (171, (2317, 2332)%nat); (172, (2332, 2351)%nat); (173, (2351, 2366)%nat); (174, (2366, 2383)%nat);
  (175, (2383, 2397)%nat); (176, (2397, 2413)%nat); (177, (2413, 2431)%nat); (178, (2431, 2449)%nat); (179, (2449, 2465)%nat); (180, (2465, 2481)%nat);
  (181, (2481, 2498)%nat); (182, (2498, 2518)%nat); (183, (2518, 2537)%nat); (192, (2537, 2552)%nat); (193, (2552, 2569)%nat); (194, (2569, 2584)%nat);
  (195, (2584, 2600)%nat); (196, (2600, 2617)%nat); (197, (2617, 2631)%nat); (198, (2631, 2647)%nat); (199, (2647, 2662)%nat); (200, (2662, 2677)%nat);
  (201, (2677, 2692)%nat); (202, (2692, 2705)%nat); (203, (2705, 2719)%nat); (204, (2719, 2737)%nat); (205, (2737, 2751)%nat); (206, (2751, 2767)%nat);
  (207, (2767, 2780)%nat); (208, (2780, 2795)%nat); (209, (2795, 2812)%nat); (210, (2812, 2829)%nat); (211, (2829, 2844)%nat); (212, (2844, 2859)%nat);
  (213, (2859, 2875)%nat); (214, (2875, 2894)%nat); (215, (2894, 2912)%nat); (223, (2912, 2936)%nat); (224, (2936, 2954)%nat); (225, (2954, 2974)%nat);
  (226, (2974, 2992)%nat); (227, (2992, 3011)%nat); (228, (3011, 3031)%nat); (229, (3031, 3048)%nat); (230, (3048, 3067)%nat); (231, (3067, 3085)%nat);
  (232, (3085, 3103)%nat); (233, (3103, 3121)%nat); (234, (3121, 3137)%nat); (235, (3137, 3154)%nat); (236, (3154, 3175)%nat); (237, (3175, 3192)%nat);
  (238, (3192, 3211)%nat); (239, (3211, 3227)%nat); (240, (3227, 3245)%nat); (241, (3245, 3265)%nat); (242, (3265, 3285)%nat); (243, (3285, 3303)%nat);
  (244, (3303, 3321)%nat); (245, (3321, 3340)%nat); (246, (3340, 3362)%nat); (247, (3362, 3383)%nat); (248, (3383, 3401)%nat); (249, (3401, 3412)%nat);
  (250, (3412, 3434)%nat); (255, (3434, 3452)%nat); (256, (3452, 3476)%nat); (257, (3476, 3497)%nat); (258, (3497, 3518)%nat); (259, (3518, 3539)%nat);
  (260, (3539, 3560)%nat); (261, (3560, 3581)%nat); (262, (3581, 3602)%nat); (263, (3602, 3623)%nat); (264, (3623, 3644)%nat); (265, (3644, 3665)%nat);
  (266, (3665, 3686)%nat); (267, (3686, 3707)%nat); (268, (3707, 3728)%nat); (269, (3728, 3749)%nat); (270, (3749, 3775)%nat); (271, (3775, 3796)%nat);
  (273, (3796, 3817)%nat); (274, (3817, 3838)%nat); (275, (3838, 3859)%nat); (277, (3859, 3880)%nat); (278, (3880, 3898)%nat); (279, (3898, 3922)%nat);
  (280, (3922, 3943)%nat); (281, (3943, 3964)%nat); (282, (3964, 3985)%nat); (283, (3985, 4006)%nat); (284, (4006, 4027)%nat); (285, (4027, 4048)%nat);
  (286, (4048, 4069)%nat); (287, (4069, 4090)%nat); (288, (4090, 4111)%nat); (289, (4111, 4132)%nat); (290, (4132, 4153)%nat); (291, (4153, 4174)%nat);
  (292, (4174, 4195)%nat); (293, (4195, 4221)%nat); (294, (4221, 4242)%nat); (296, (4242, 4263)%nat); (297, (4263, 4284)%nat); (298, (4284, 4305)%nat);
  (300, (4305, 4326)%nat); (303, (4326, 4347)%nat); (304, (4347, 4371)%nat); (305, (4371, 4389)%nat); (306, (4389, 4410)%nat); (307, (4410, 4431)%nat)].

(* collation.go:296-567 the constants, with their identifiers *)
Definition constants : list (string * N) := [
  ("Big5ChineseCi"%string, 1); ("Latin2CzechCs"%string, 2); ("Dec8SwedishCi"%string, 3); ("Cp850GeneralCi"%string, 4);
  ("Latin1German1Ci"%string, 5); ("Hp8EnglishCi"%string, 6); ("Koi8rGeneralCi"%string, 7); ("Latin1SwedishCi"%string, 8);
  ("Latin2GeneralCi"%string, 9); ("Swe7SwedishCi"%string, 10); ("ASCIIGeneralCi"%string, 11); ("UjisJapaneseCi"%string, 12);
  ("SjisJapaneseCi"%string, 13); ("Cp1251BulgarianCi"%string, 14); ("Latin1DanishCi"%string, 15); ("HebrewGeneralCi"%string, 16);
  ("Tis620ThaiCi"%string, 18); ("EuckrKoreanCi"%string, 19); ("Latin7EstonianCs"%string, 20); ("Latin2HungarianCi"%string, 21);
  ("Koi8uGeneralCi"%string, 22); ("Cp1251UkrainianCi"%string, 23); ("Gb2312ChineseCi"%string, 24); ("GreekGeneralCi"%string, 25);
  ("Cp1250GeneralCi"%string, 26); ("Latin2CroatianCi"%string, 27); ("GbkChineseCi"%string, 28); ("Cp1257LithuanianCi"%string, 29);
  ("Latin5TurkishCi"%string, 30); ("Latin1German2Ci"%string, 31); ("Armscii8GeneralCi"%string, 32); ("UTF8GeneralCi"%string, 33);
  ("Cp1250CzechCs"%string, 34); ("UCS2GeneralCi"%string, 35); ("Cp866GeneralCi"%string, 36); ("Keybcs2GeneralCi"%string, 37);
  ("MacceGeneralCi"%string, 38); ("MacromanGeneralCi"%string, 39); ("Cp852GeneralCi"%string, 40); ("Latin7GeneralCi"%string, 41);
  ("Latin7GeneralCs"%string, 42); ("MacceBin"%string, 43); ("Cp1250CroatianCi"%string, 44); ("UTF8mb4GeneralCi"%string, 45);
  ("UTF8mb4Bin"%string, 46); ("Latin1Bin"%string, 47); ("Latin1GeneralCi"%string, 48); ("Latin1GeneralCs"%string, 49);
  ("Cp1251Bin"%string, 50); ("Cp1251GeneralCi"%string, 51); ("Cp1251GeneralCs"%string, 52); ("MacromanBin"%string, 53);
  ("UTF16GeneralCi"%string, 54); ("UTF16Bin"%string, 55); ("UTF16leGeneralCi"%string, 56); ("Cp1256GeneralCi"%string, 57);
  ("Cp1257Bin"%string, 58); ("Cp1257GeneralCi"%string, 59); ("UTF32GeneralCi"%string, 60); ("UTF32Bin"%string, 61);
  ("UTF16leBin"%string, 62); ("Binary"%string, 63); ("Armscii8Bin"%string, 64); ("ASCIIBin"%string, 65);
  ("Cp1250Bin"%string, 66); ("Cp1256Bin"%string, 67); ("Cp866Bin"%string, 68); ("Dec8Bin"%string, 69);
  ("GreekBin"%string, 70); ("HebrewBin"%string, 71); ("Hp8Bin"%string, 72); ("Keybcs2Bin"%string, 73);
  ("Koi8rBin"%string, 74); ("Koi8uBin"%string, 75); ("UTF8TolowerCi"%string, 76); ("Latin2Bin"%string, 77);
  ("Latin5Bin"%string, 78); ("Latin7Bin"%string, 79); ("Cp850Bin"%string, 80); ("Cp852Bin"%string, 81);
  ("Swe7Bin"%string, 82); ("UTF8Bin"%string, 83); ("Big5Bin"%string, 84); ("EuckrBin"%string, 85);
  ("Gb2312Bin"%string, 86); ("GbkBin"%string, 87); ("SjisBin"%string, 88); ("Tis620Bin"%string, 89);
  ("UCS2Bin"%string, 90); ("UjisBin"%string, 91); ("Geostd8GeneralCi"%string, 92); ("Geostd8Bin"%string, 93);
  ("Latin1SpanishCi"%string, 94); ("Cp932JapaneseCi"%string, 95); ("Cp932Bin"%string, 96); ("EucjpmsJapaneseCi"%string, 97);
  ("EucjpmsBin"%string, 98); ("Cp1250PolishCi"%string, 99); ("UTF16UnicodeCi"%string, 101); ("UTF16IcelandicCi"%string, 102);
  ("UTF16LatvianCi"%string, 103); ("UTF16RomanianCi"%string, 104); ("UTF16SlovenianCi"%string, 105); ("UTF16PolishCi"%string, 106);
  ("UTF16EstonianCi"%string, 107); ("UTF16SpanishCi"%string, 108); ("UTF16SwedishCi"%string, 109); ("UTF16TurkishCi"%string, 110);
  ("UTF16CzechCi"%string, 111); ("UTF16DanishCi"%string, 112); ("UTF16LithuanianCi"%string, 113); ("UTF16SlovakCi"%string, 114);
  ("UTF16Spanish2Ci"%string, 115); ("UTF16RomanCi"%string, 116); ("UTF16PersianCi"%string, 117); ("UTF16EsperantoCi"%string, 118);
  ("UTF16HungarianCi"%string, 119); ("UTF16SinhalaCi"%string, 120); ("UTF16German2Ci"%string, 121); ("UTF16CroatianCi"%string, 122);
  ("UTF16Unicode520Ci"%string, 123); ("UTF16VietnameseCi"%string, 124); ("UCS2UnicodeCi"%string, 128); ("UCS2IcelandicCi"%string, 129);
  ("UCS2LatvianCi"%string, 130); ("UCS2RomanianCi"%string, 131); ("UCS2SlovenianCi"%string, 132); ("UCS2PolishCi"%string, 133);
  ("UCS2EstonianCi"%string, 134); ("UCS2SpanishCi"%string, 135); ("UCS2SwedishCi"%string, 136); ("UCS2TurkishCi"%string, 137);
  ("UCS2CzechCi"%string, 138); ("UCS2DanishCi"%string, 139); ("UCS2LithuanianCi"%string, 140); ("UCS2SlovakCi"%string, 141);
  ("UCS2Spanish2Ci"%string, 142); ("UCS2RomanCi"%string, 143); ("UCS2PersianCi"%string, 144); ("UCS2EsperantoCi"%string, 145);
  ("UCS2HungarianCi"%string, 146); ("UCS2SinhalaCi"%string, 147); ("UCS2German2Ci"%string, 148); ("UCS2CroatianCi"%string, 149);
  ("UCS2Unicode520Ci"%string, 150); ("UCS2VietnameseCi"%string, 151); ("UCS2GeneralMySQL500Ci"%string, 159); ("UTF32UnicodeCi"%string, 160);
  ("UTF32IcelandicCi"%string, 161); ("UTF32LatvianCi"%string, 162); ("UTF32RomanianCi"%string, 163); ("UTF32SlovenianCi"%string, 164);
  ("UTF32PolishCi"%string, 165); ("UTF32EstonianCi"%string, 166); ("UTF32SpanishCi"%string, 167); ("UTF32SwedishCi"%string, 168);
  ("UTF32TurkishCi"%string, 169); ("UTF32CzechCi"%string, 170); ("UTF32DanishCi"%string, 171); ("UTF32LithuanianCi"%string, 172);
  ("UTF32SlovakCi"%string, 173); ("UTF32Spanish2Ci"%string, 174); ("UTF32RomanCi"%string, 175); ("UTF32PersianCi"%string, 176);
  ("UTF32EsperantoCi"%string, 177); ("UTF32HungarianCi"%string, 178); ("UTF32SinhalaCi"%string, 179); ("UTF32German2Ci"%string, 180);
  ("UTF32CroatianCi"%string, 181); ("UTF32Unicode520Ci"%string, 182); ("UTF32VietnameseCi"%string, 183); ("UTF8UnicodeCi"%string, 192);
  ("UTF8IcelandicCi"%string, 193); ("UTF8LatvianCi"%string, 194); ("UTF8RomanianCi"%string, 195); ("UTF8SlovenianCi"%string, 196);
  ("UTF8PolishCi"%string, 197); ("UTF8EstonianCi"%string, 198); ("UTF8SpanishCi"%string, 199); ("UTF8SwedishCi"%string, 200);
  ("UTF8TurkishCi"%string, 201); ("UTF8CzechCi"%string, 202); ("UTF8DanishCi"%string, 203); ("UTF8LithuanianCi"%string, 204);
  ("UTF8SlovakCi"%string, 205); ("UTF8Spanish2Ci"%string, 206); ("UTF8RomanCi"%string, 207); ("UTF8PersianCi"%string, 208);
  ("UTF8EsperantoCi"%string, 209); ("UTF8HungarianCi"%string, 210); ("UTF8SinhalaCi"%string, 211); ("UTF8German2Ci"%string, 212);
  ("UTF8CroatianCi"%string, 213); ("UTF8Unicode520Ci"%string, 214); ("UTF8VietnameseCi"%string, 215); ("UTF8GeneralMySQL500Ci"%string, 223);
  ("UTF8mb4UnicodeCi"%string, 224); ("UTF8mb4IcelandicCi"%string, 225); ("UTF8mb4LatvianCi"%string, 226); ("UTF8mb4RomanianCi"%string, 227);
  ("UTF8mb4SlovenianCi"%string, 228); ("UTF8mb4PolishCi"%string, 229); ("UTF8mb4EstonianCi"%string, 230); ("UTF8mb4SpanishCi"%string, 231);
  ("UTF8mb4SwedishCi"%string, 232); ("UTF8mb4TurkishCi"%string, 233); ("UTF8mb4CzechCi"%string, 234); ("UTF8mb4DanishCi"%string, 235);
  ("UTF8mb4LithuanianCi"%string, 236); ("UTF8mb4SlovakCi"%string, 237); ("UTF8mb4Spanish2Ci"%string, 238); ("UTF8mb4RomanCi"%string, 239);
  ("UTF8mb4PersianCi"%string, 240); ("UTF8mb4EsperantoCi"%string, 241); ("UTF8mb4HungarianCi"%string, 242); ("UTF8mb4SinhalaCi"%string, 243);
  ("UTF8mb4German2Ci"%string, 244); ("UTF8mb4CroatianCi"%string, 245); ("UTF8mb4Unicode520Ci"%string, 246); ("UTF8mb4VietnameseCi"%string, 247);
  ("Gb18030ChineseCi"%string, 248); ("Gb18030Bin"%string, 249); ("Gb18030Unicode520Ci"%string, 250); ("UTF8mb40900AiCi"%string, 255);
  ("UTF8mb4DePb0900AiCi"%string, 256); ("UTF8mb4Is0900AiCi"%string, 257); ("UTF8mb4Lv0900AiCi"%string, 258); ("UTF8mb4Ro0900AiCi"%string, 259);
  ("UTF8mb4Sl0900AiCi"%string, 260); ("UTF8mb4Pl0900AiCi"%string, 261); ("UTF8mb4Et0900AiCi"%string, 262); ("UTF8mb4Es0900AiCi"%string, 263);
  ("UTF8mb4Sv0900AiCi"%string, 264); ("UTF8mb4Tr0900AiCi"%string, 265); ("UTF8mb4Cs0900AiCi"%string, 266); ("UTF8mb4Da0900AiCi"%string, 267);
  ("UTF8mb4Lt0900AiCi"%string, 268); ("UTF8mb4Sk0900AiCi"%string, 269); ("UTF8mb4EsTrad0900AiCi"%string, 270); ("UTF8mb4La0900AiCi"%string, 271);
  ("UTF8mb4Eo0900AiCi"%string, 273); ("UTF8mb4Hu0900AiCi"%string, 274); ("UTF8mb4Hr0900AiCi"%string, 275); ("UTF8mb4Vi0900AiCi"%string, 277);
  ("UTF8mb40900AsCs"%string, 278); ("UTF8mb4DePb0900AsCs"%string, 279); ("UTF8mb4Is0900AsCs"%string, 280); ("UTF8mb4Lv0900AsCs"%string, 281);
  ("UTF8mb4Ro0900AsCs"%string, 282); ("UTF8mb4Sl0900AsCs"%string, 283); ("UTF8mb4Pl0900AsCs"%string, 284); ("UTF8mb4Et0900AsCs"%string, 285);
  ("UTF8mb4Es0900AsCs"%string, 286); ("UTF8mb4Sv0900AsCs"%string, 287); ("UTF8mb4Tr0900AsCs"%string, 288); ("UTF8mb4Cs0900AsCs"%string, 289);
  ("UTF8mb4Da0900AsCs"%string, 290); ("UTF8mb4Lt0900AsCs"%string, 291); ("UTF8mb4Sk0900AsCs"%string, 292); ("UTF8mb4EsTrad0900AsCs"%string, 293);
  ("UTF8mb4La0900AsCs"%string, 294); ("UTF8mb4Eo0900AsCs"%string, 296); ("UTF8mb4Hu0900AsCs"%string, 297); ("UTF8mb4Hr0900AsCs"%string, 298);
  ("UTF8mb4Vi0900AsCs"%string, 300); ("UTF8mb4Ja0900AsCs"%string, 303); ("UTF8mb4Ja0900AsCsKs"%string, 304); ("UTF8mb40900AsCi"%string, 305);
  ("UTF8mb4Ru0900AiCi"%string, 306); ("UTF8mb4Ru0900AsCs"%string, 307)].
