(** The small data files of /repo/common/data-files, written by tools/gen_conform.py. A number is (digits, decimal places).*)
From Coq Require Import ZArith List String.
Import ListNotations.
Local Open Scope Z_scope.
Local Open Scope string_scope.

(** iris.csv *)
Definition iris_header : list string := ["sepallength"; "sepalwidth"; "petallength"; "petalwidth"; "label"].
Definition iris_records : list (list (Z * Z)) :=
  [[(51, 0); (35, 0); (14, 0); (2, 0); (0, 0)];
   [(49, 0); (30, 0); (14, 0); (2, 0); (0, 0)];
   [(47, 0); (32, 0); (13, 0); (2, 0); (0, 0)];
   [(46, 0); (31, 0); (15, 0); (2, 0); (0, 0)];
   [(50, 0); (36, 0); (14, 0); (2, 0); (0, 0)];
   [(54, 0); (39, 0); (17, 0); (4, 0); (0, 0)];
   [(46, 0); (34, 0); (14, 0); (3, 0); (0, 0)];
   [(50, 0); (34, 0); (15, 0); (2, 0); (0, 0)];
   [(44, 0); (29, 0); (14, 0); (2, 0); (0, 0)];
   [(49, 0); (31, 0); (15, 0); (1, 0); (0, 0)];
   [(54, 0); (37, 0); (15, 0); (2, 0); (0, 0)];
   [(48, 0); (34, 0); (16, 0); (2, 0); (0, 0)];
   [(48, 0); (30, 0); (14, 0); (1, 0); (0, 0)];
   [(43, 0); (30, 0); (11, 0); (1, 0); (0, 0)];
   [(58, 0); (40, 0); (12, 0); (2, 0); (0, 0)];
   [(57, 0); (44, 0); (15, 0); (4, 0); (0, 0)];
   [(54, 0); (39, 0); (13, 0); (4, 0); (0, 0)];
   [(51, 0); (35, 0); (14, 0); (3, 0); (0, 0)];
   [(57, 0); (38, 0); (17, 0); (3, 0); (0, 0)];
   [(51, 0); (38, 0); (15, 0); (3, 0); (0, 0)];
   [(54, 0); (34, 0); (17, 0); (2, 0); (0, 0)];
   [(51, 0); (37, 0); (15, 0); (4, 0); (0, 0)];
   [(46, 0); (36, 0); (10, 0); (2, 0); (0, 0)];
   [(51, 0); (33, 0); (17, 0); (5, 0); (0, 0)];
   [(48, 0); (34, 0); (19, 0); (2, 0); (0, 0)];
   [(50, 0); (30, 0); (16, 0); (2, 0); (0, 0)];
   [(50, 0); (34, 0); (16, 0); (4, 0); (0, 0)];
   [(52, 0); (35, 0); (15, 0); (2, 0); (0, 0)];
   [(52, 0); (34, 0); (14, 0); (2, 0); (0, 0)];
   [(47, 0); (32, 0); (16, 0); (2, 0); (0, 0)];
   [(48, 0); (31, 0); (16, 0); (2, 0); (0, 0)];
   [(54, 0); (34, 0); (15, 0); (4, 0); (0, 0)];
   [(52, 0); (41, 0); (15, 0); (1, 0); (0, 0)];
   [(55, 0); (42, 0); (14, 0); (2, 0); (0, 0)];
   [(49, 0); (31, 0); (15, 0); (1, 0); (0, 0)];
   [(50, 0); (32, 0); (12, 0); (2, 0); (0, 0)];
   [(55, 0); (35, 0); (13, 0); (2, 0); (0, 0)];
   [(49, 0); (31, 0); (15, 0); (1, 0); (0, 0)];
   [(44, 0); (30, 0); (13, 0); (2, 0); (0, 0)];
   [(51, 0); (34, 0); (15, 0); (2, 0); (0, 0)];
   [(50, 0); (35, 0); (13, 0); (3, 0); (0, 0)];
   [(45, 0); (23, 0); (13, 0); (3, 0); (0, 0)];
   [(44, 0); (32, 0); (13, 0); (2, 0); (0, 0)];
   [(50, 0); (35, 0); (16, 0); (6, 0); (0, 0)];
   [(51, 0); (38, 0); (19, 0); (4, 0); (0, 0)];
   [(48, 0); (30, 0); (14, 0); (3, 0); (0, 0)];
   [(51, 0); (38, 0); (16, 0); (2, 0); (0, 0)];
   [(46, 0); (32, 0); (14, 0); (2, 0); (0, 0)];
   [(53, 0); (37, 0); (15, 0); (2, 0); (0, 0)];
   [(50, 0); (33, 0); (14, 0); (2, 0); (0, 0)];
   [(70, 0); (32, 0); (47, 0); (14, 0); (1, 0)];
   [(64, 0); (32, 0); (45, 0); (15, 0); (1, 0)];
   [(69, 0); (31, 0); (49, 0); (15, 0); (1, 0)];
   [(55, 0); (23, 0); (40, 0); (13, 0); (1, 0)];
   [(65, 0); (28, 0); (46, 0); (15, 0); (1, 0)];
   [(57, 0); (28, 0); (45, 0); (13, 0); (1, 0)];
   [(63, 0); (33, 0); (47, 0); (16, 0); (1, 0)];
   [(49, 0); (24, 0); (33, 0); (10, 0); (1, 0)];
   [(66, 0); (29, 0); (46, 0); (13, 0); (1, 0)];
   [(52, 0); (27, 0); (39, 0); (14, 0); (1, 0)];
   [(50, 0); (20, 0); (35, 0); (10, 0); (1, 0)];
   [(59, 0); (30, 0); (42, 0); (15, 0); (1, 0)];
   [(60, 0); (22, 0); (40, 0); (10, 0); (1, 0)];
   [(61, 0); (29, 0); (47, 0); (14, 0); (1, 0)];
   [(56, 0); (29, 0); (36, 0); (13, 0); (1, 0)];
   [(67, 0); (31, 0); (44, 0); (14, 0); (1, 0)];
   [(56, 0); (30, 0); (45, 0); (15, 0); (1, 0)];
   [(58, 0); (27, 0); (41, 0); (10, 0); (1, 0)];
   [(62, 0); (22, 0); (45, 0); (15, 0); (1, 0)];
   [(56, 0); (25, 0); (39, 0); (11, 0); (1, 0)];
   [(59, 0); (32, 0); (48, 0); (18, 0); (1, 0)];
   [(61, 0); (28, 0); (40, 0); (13, 0); (1, 0)];
   [(63, 0); (25, 0); (49, 0); (15, 0); (1, 0)];
   [(61, 0); (28, 0); (47, 0); (12, 0); (1, 0)];
   [(64, 0); (29, 0); (43, 0); (13, 0); (1, 0)];
   [(66, 0); (30, 0); (44, 0); (14, 0); (1, 0)];
   [(68, 0); (28, 0); (48, 0); (14, 0); (1, 0)];
   [(67, 0); (30, 0); (50, 0); (17, 0); (1, 0)];
   [(60, 0); (29, 0); (45, 0); (15, 0); (1, 0)];
   [(57, 0); (26, 0); (35, 0); (10, 0); (1, 0)];
   [(55, 0); (24, 0); (38, 0); (11, 0); (1, 0)];
   [(55, 0); (24, 0); (37, 0); (10, 0); (1, 0)];
   [(58, 0); (27, 0); (39, 0); (12, 0); (1, 0)];
   [(60, 0); (27, 0); (51, 0); (16, 0); (1, 0)];
   [(54, 0); (30, 0); (45, 0); (15, 0); (1, 0)];
   [(60, 0); (34, 0); (45, 0); (16, 0); (1, 0)];
   [(67, 0); (31, 0); (47, 0); (15, 0); (1, 0)];
   [(63, 0); (23, 0); (44, 0); (13, 0); (1, 0)];
   [(56, 0); (30, 0); (41, 0); (13, 0); (1, 0)];
   [(55, 0); (25, 0); (40, 0); (13, 0); (1, 0)];
   [(55, 0); (26, 0); (44, 0); (12, 0); (1, 0)];
   [(61, 0); (30, 0); (46, 0); (14, 0); (1, 0)];
   [(58, 0); (26, 0); (40, 0); (12, 0); (1, 0)];
   [(50, 0); (23, 0); (33, 0); (10, 0); (1, 0)];
   [(56, 0); (27, 0); (42, 0); (13, 0); (1, 0)];
   [(57, 0); (30, 0); (42, 0); (12, 0); (1, 0)];
   [(57, 0); (29, 0); (42, 0); (13, 0); (1, 0)];
   [(62, 0); (29, 0); (43, 0); (13, 0); (1, 0)];
   [(51, 0); (25, 0); (30, 0); (11, 0); (1, 0)];
   [(57, 0); (28, 0); (41, 0); (13, 0); (1, 0)];
   [(63, 0); (33, 0); (60, 0); (25, 0); (2, 0)];
   [(58, 0); (27, 0); (51, 0); (19, 0); (2, 0)];
   [(71, 0); (30, 0); (59, 0); (21, 0); (2, 0)];
   [(63, 0); (29, 0); (56, 0); (18, 0); (2, 0)];
   [(65, 0); (30, 0); (58, 0); (22, 0); (2, 0)];
   [(76, 0); (30, 0); (66, 0); (21, 0); (2, 0)];
   [(49, 0); (25, 0); (45, 0); (17, 0); (2, 0)];
   [(73, 0); (29, 0); (63, 0); (18, 0); (2, 0)];
   [(67, 0); (25, 0); (58, 0); (18, 0); (2, 0)];
   [(72, 0); (36, 0); (61, 0); (25, 0); (2, 0)];
   [(65, 0); (32, 0); (51, 0); (20, 0); (2, 0)];
   [(64, 0); (27, 0); (53, 0); (19, 0); (2, 0)];
   [(68, 0); (30, 0); (55, 0); (21, 0); (2, 0)];
   [(57, 0); (25, 0); (50, 0); (20, 0); (2, 0)];
   [(58, 0); (28, 0); (51, 0); (24, 0); (2, 0)];
   [(64, 0); (32, 0); (53, 0); (23, 0); (2, 0)];
   [(65, 0); (30, 0); (55, 0); (18, 0); (2, 0)];
   [(77, 0); (38, 0); (67, 0); (22, 0); (2, 0)];
   [(77, 0); (26, 0); (69, 0); (23, 0); (2, 0)];
   [(60, 0); (22, 0); (50, 0); (15, 0); (2, 0)];
   [(69, 0); (32, 0); (57, 0); (23, 0); (2, 0)];
   [(56, 0); (28, 0); (49, 0); (20, 0); (2, 0)];
   [(77, 0); (28, 0); (67, 0); (20, 0); (2, 0)];
   [(63, 0); (27, 0); (49, 0); (18, 0); (2, 0)];
   [(67, 0); (33, 0); (57, 0); (21, 0); (2, 0)];
   [(72, 0); (32, 0); (60, 0); (18, 0); (2, 0)];
   [(62, 0); (28, 0); (48, 0); (18, 0); (2, 0)];
   [(61, 0); (30, 0); (49, 0); (18, 0); (2, 0)];
   [(64, 0); (28, 0); (56, 0); (21, 0); (2, 0)];
   [(72, 0); (30, 0); (58, 0); (16, 0); (2, 0)];
   [(74, 0); (28, 0); (61, 0); (19, 0); (2, 0)];
   [(79, 0); (38, 0); (64, 0); (20, 0); (2, 0)];
   [(64, 0); (28, 0); (56, 0); (22, 0); (2, 0)];
   [(63, 0); (28, 0); (51, 0); (15, 0); (2, 0)];
   [(61, 0); (26, 0); (56, 0); (14, 0); (2, 0)];
   [(77, 0); (30, 0); (61, 0); (23, 0); (2, 0)];
   [(63, 0); (34, 0); (56, 0); (24, 0); (2, 0)];
   [(64, 0); (31, 0); (55, 0); (18, 0); (2, 0)];
   [(60, 0); (30, 0); (48, 0); (18, 0); (2, 0)];
   [(69, 0); (31, 0); (54, 0); (21, 0); (2, 0)];
   [(67, 0); (31, 0); (56, 0); (24, 0); (2, 0)];
   [(69, 0); (31, 0); (51, 0); (23, 0); (2, 0)];
   [(58, 0); (27, 0); (51, 0); (19, 0); (2, 0)];
   [(68, 0); (32, 0); (59, 0); (23, 0); (2, 0)];
   [(67, 0); (33, 0); (57, 0); (25, 0); (2, 0)];
   [(67, 0); (30, 0); (52, 0); (23, 0); (2, 0)];
   [(63, 0); (25, 0); (50, 0); (19, 0); (2, 0)];
   [(65, 0); (30, 0); (52, 0); (20, 0); (2, 0)];
   [(62, 0); (34, 0); (54, 0); (23, 0); (2, 0)];
   [(59, 0); (30, 0); (51, 0); (18, 0); (2, 0)]].

(** iris_test.csv *)
Definition iris_test_header : list string := ["sepallength"; "sepalwidth"; "petallength"; "petalwidth"; "label"].
Definition iris_test_records : list (list (Z * Z)) :=
  [[(51, 0); (35, 0); (14, 0); (2, 0); (0, 0)];
   [(49, 0); (30, 0); (14, 0); (2, 0); (0, 0)];
   [(47, 0); (32, 0); (13, 0); (2, 0); (0, 0)];
   [(70, 0); (32, 0); (47, 0); (14, 0); (1, 0)];
   [(64, 0); (32, 0); (45, 0); (15, 0); (1, 0)];
   [(69, 0); (31, 0); (49, 0); (15, 0); (1, 0)];
   [(63, 0); (33, 0); (60, 0); (25, 0); (2, 0)];
   [(58, 0); (27, 0); (51, 0); (19, 0); (2, 0)];
   [(79, 0); (38, 0); (64, 0); (20, 0); (2, 0)]].

(** synthetic_1.csv *)
Definition synthetic_1_header : list string := ["col1"; "col2"; "col3"; "label"].
Definition synthetic_1_records : list (list (Z * Z)) :=
  [[(0, 0); (0, 0); (0, 0); (0, 0)];
   [(0, 0); (1, 0); (0, 0); (0, 0)];
   [(0, 0); (0, 0); (1, 0); (0, 0)];
   [(0, 0); (1, 0); (1, 0); (1, 0)];
   [(1, 0); (0, 0); (0, 0); (0, 0)];
   [(1, 0); (1, 0); (0, 0); (1, 0)];
   [(1, 0); (0, 0); (1, 0); (1, 0)];
   [(1, 0); (1, 0); (1, 0); (1, 0)]].

(** wine_train.csv *)
Definition wine_train_header : list string := ["Alcohol"; "Malic.acid"; "Ash"; "Acl"; "Mg"; "Phenols"; "Flavanoids"; "Nonflavanoid.phenols"; "Proanth"; "Color.int"; "Hue"; "OD"; "Proline"; "Wine"].
Definition wine_train_records : list (list (Z * Z)) :=
  [[(1229, 2); (317, 2); (221, 2); (180, 1); (88, 0); (285, 2); (299, 2); (45, 2); (281, 2); (23, 1); (142, 2); (283, 2); (406, 0); (1, 0)];
   [(1225, 2); (388, 2); (22, 1); (185, 1); (112, 0); (138, 2); (78, 2); (29, 2); (114, 2); (821, 2); (65, 2); (20, 1); (855, 0); (2, 0)];
   [(1272, 2); (181, 2); (22, 1); (188, 1); (86, 0); (22, 1); (253, 2); (26, 2); (177, 2); (39, 1); (116, 2); (314, 2); (714, 0); (1, 0)];
   [(1165, 2); (167, 2); (262, 2); (260, 1); (88, 0); (192, 2); (161, 2); (4, 1); (134, 2); (26, 1); (136, 2); (321, 2); (562, 0); (1, 0)];
   [(1324, 2); (398, 2); (229, 2); (175, 1); (103, 0); (264, 2); (263, 2); (32, 2); (166, 2); (436, 2); (82, 2); (30, 1); (680, 0); (0, 0)];
   [(135, 1); (312, 2); (262, 2); (240, 1); (123, 0); (14, 1); (157, 2); (22, 2); (125, 2); (86, 1); (59, 2); (13, 1); (500, 0); (2, 0)];
   [(1145, 2); (24, 1); (242, 2); (200, 1); (96, 0); (29, 1); (279, 2); (32, 2); (183, 2); (325, 2); (8, 1); (339, 2); (625, 0); (1, 0)];
   [(1349, 2); (359, 2); (219, 2); (195, 1); (88, 0); (162, 2); (48, 2); (58, 2); (88, 2); (57, 1); (81, 2); (182, 2); (580, 0); (2, 0)];
   [(1348, 2); (181, 2); (241, 2); (205, 1); (100, 0); (27, 1); (298, 2); (26, 2); (186, 2); (51, 1); (104, 2); (347, 2); (920, 0); (0, 0)];
   [(134, 1); (391, 2); (248, 2); (230, 1); (102, 0); (18, 1); (75, 2); (43, 2); (141, 2); (73, 1); (7, 1); (156, 2); (750, 0); (2, 0)];
   [(1208, 2); (113, 2); (251, 2); (240, 1); (78, 0); (20, 1); (158, 2); (4, 1); (14, 1); (22, 1); (131, 2); (272, 2); (630, 0); (1, 0)];
   [(1316, 2); (236, 2); (267, 2); (186, 1); (101, 0); (28, 1); (324, 2); (3, 1); (281, 2); (568, 2); (103, 2); (317, 2); (1185, 0); (0, 0)];
   [(1208, 2); (139, 2); (25, 1); (225, 1); (84, 0); (256, 2); (229, 2); (43, 2); (104, 2); (29, 1); (93, 2); (319, 2); (385, 0); (1, 0)];
   [(1323, 2); (33, 1); (228, 2); (185, 1); (98, 0); (18, 1); (83, 2); (61, 2); (187, 2); (1052, 2); (56, 2); (151, 2); (675, 0); (2, 0)];
   [(1307, 2); (15, 1); (21, 1); (155, 1); (98, 0); (24, 1); (264, 2); (28, 2); (137, 2); (37, 1); (118, 2); (269, 2); (1020, 0); (0, 0)];
   [(1382, 2); (175, 2); (242, 2); (140, 1); (111, 0); (388, 2); (374, 2); (32, 2); (187, 2); (705, 2); (101, 2); (326, 2); (1190, 0); (0, 0)];
   [(1352, 2); (317, 2); (272, 2); (235, 1); (97, 0); (155, 2); (52, 2); (5, 1); (55, 2); (435, 2); (89, 2); (206, 2); (520, 0); (2, 0)];
   [(1413, 2); (41, 1); (274, 2); (245, 1); (96, 0); (205, 2); (76, 2); (56, 2); (135, 2); (92, 1); (61, 2); (16, 1); (560, 0); (2, 0)];
   [(1388, 2); (504, 2); (223, 2); (200, 1); (80, 0); (98, 2); (34, 2); (4, 1); (68, 2); (49, 1); (58, 2); (133, 2); (415, 0); (2, 0)];
   [(1332, 2); (324, 2); (238, 2); (215, 1); (92, 0); (193, 2); (76, 2); (45, 2); (125, 2); (842, 2); (55, 2); (162, 2); (650, 0); (2, 0)];
   [(126, 1); (134, 2); (19, 1); (185, 1); (88, 0); (145, 2); (136, 2); (29, 2); (135, 2); (245, 2); (104, 2); (277, 2); (562, 0); (1, 0)];
   [(120, 1); (92, 2); (20, 1); (190, 1); (86, 0); (242, 2); (226, 2); (3, 1); (143, 2); (25, 1); (138, 2); (312, 2); (278, 0); (1, 0)];
   [(1349, 2); (166, 2); (224, 2); (240, 1); (87, 0); (188, 2); (184, 2); (27, 2); (103, 2); (374, 2); (98, 2); (278, 2); (472, 0); (1, 0)];
   [(1316, 2); (357, 2); (215, 2); (210, 1); (102, 0); (15, 1); (55, 2); (43, 2); (13, 1); (40, 1); (6, 1); (168, 2); (830, 0); (2, 0)];
   [(1237, 2); (107, 2); (21, 1); (185, 1); (88, 0); (352, 2); (375, 2); (24, 2); (195, 2); (45, 1); (104, 2); (277, 2); (660, 0); (1, 0)];
   [(1341, 2); (384, 2); (212, 2); (188, 1); (90, 0); (245, 2); (268, 2); (27, 2); (148, 2); (428, 2); (91, 2); (30, 1); (1035, 0); (0, 0)];
   [(1368, 2); (183, 2); (236, 2); (172, 1); (104, 0); (242, 2); (269, 2); (42, 2); (197, 2); (384, 2); (123, 2); (287, 2); (990, 0); (0, 0)];
   [(1242, 2); (255, 2); (227, 2); (220, 1); (90, 0); (168, 2); (184, 2); (66, 2); (142, 2); (27, 1); (86, 2); (33, 1); (315, 0); (1, 0)];
   [(141, 1); (202, 2); (24, 1); (188, 1); (103, 0); (275, 2); (292, 2); (32, 2); (238, 2); (62, 1); (107, 2); (275, 2); (1060, 0); (0, 0)];
   [(1305, 2); (205, 2); (322, 2); (250, 1); (124, 0); (263, 2); (268, 2); (47, 2); (192, 2); (358, 2); (113, 2); (32, 1); (830, 0); (0, 0)];
   [(1377, 2); (19, 1); (268, 2); (171, 1); (115, 0); (30, 1); (279, 2); (39, 2); (168, 2); (63, 1); (113, 2); (293, 2); (1375, 0); (0, 0)];
   [(1208, 2); (183, 2); (232, 2); (185, 1); (81, 0); (16, 1); (15, 1); (52, 2); (164, 2); (24, 1); (108, 2); (227, 2); (480, 0); (1, 0)];
   [(1308, 2); (39, 1); (236, 2); (215, 1); (113, 0); (141, 2); (139, 2); (34, 2); (114, 2); (94, 1); (57, 2); (133, 2); (550, 0); (2, 0)];
   [(1383, 2); (165, 2); (26, 1); (172, 1); (94, 0); (245, 2); (299, 2); (22, 2); (229, 2); (56, 1); (124, 2); (337, 2); (1265, 0); (0, 0)];
   [(1438, 2); (187, 2); (238, 2); (120, 1); (102, 0); (33, 1); (364, 2); (29, 2); (296, 2); (75, 1); (12, 1); (30, 1); (1547, 0); (0, 0)];
   [(1285, 2); (327, 2); (258, 2); (220, 1); (106, 0); (165, 2); (6, 1); (6, 1); (96, 2); (558, 2); (87, 2); (211, 2); (570, 0); (2, 0)];
   [(1402, 2); (168, 2); (221, 2); (160, 1); (96, 0); (265, 2); (233, 2); (26, 2); (198, 2); (47, 1); (104, 2); (359, 2); (1035, 0); (0, 0)];
   [(1437, 2); (195, 2); (25, 1); (168, 1); (113, 0); (385, 2); (349, 2); (24, 2); (218, 2); (78, 1); (86, 2); (345, 2); (1480, 0); (0, 0)];
   [(1285, 2); (16, 1); (252, 2); (178, 1); (95, 0); (248, 2); (237, 2); (26, 2); (146, 2); (393, 2); (109, 2); (363, 2); (1015, 0); (0, 0)];
   [(1288, 2); (299, 2); (24, 1); (200, 1); (104, 0); (13, 1); (122, 2); (24, 2); (83, 2); (54, 1); (74, 2); (142, 2); (530, 0); (2, 0)];
   [(1345, 2); (37, 1); (26, 1); (230, 1); (111, 0); (17, 1); (92, 2); (43, 2); (146, 2); (1068, 2); (85, 2); (156, 2); (695, 0); (2, 0)];
   [(1305, 2); (165, 2); (255, 2); (180, 1); (98, 0); (245, 2); (243, 2); (29, 2); (144, 2); (425, 2); (112, 2); (251, 2); (1105, 0); (0, 0)];
   [(1282, 2); (337, 2); (23, 1); (195, 1); (88, 0); (148, 2); (66, 2); (4, 1); (97, 2); (1026, 2); (72, 2); (175, 2); (685, 0); (2, 0)];
   [(1373, 2); (436, 2); (226, 2); (225, 1); (88, 0); (128, 2); (47, 2); (52, 2); (115, 2); (662, 2); (78, 2); (175, 2); (520, 0); (2, 0)];
   [(1421, 2); (404, 2); (244, 2); (189, 1); (111, 0); (285, 2); (265, 2); (3, 1); (125, 2); (524, 2); (87, 2); (333, 2); (1080, 0); (0, 0)];
   [(1252, 2); (243, 2); (217, 2); (210, 1); (88, 0); (255, 2); (227, 2); (26, 2); (122, 2); (20, 1); (9, 1); (278, 2); (325, 0); (1, 0)];
   [(1251, 2); (124, 2); (225, 2); (175, 1); (85, 0); (20, 1); (58, 2); (6, 1); (125, 2); (545, 2); (75, 2); (151, 2); (650, 0); (2, 0)];
   [(1388, 2); (189, 2); (259, 2); (150, 1); (101, 0); (325, 2); (356, 2); (17, 2); (17, 1); (543, 2); (88, 2); (356, 2); (1095, 0); (0, 0)];
   [(127, 1); (387, 2); (24, 1); (230, 1); (101, 0); (283, 2); (255, 2); (43, 2); (195, 2); (257, 2); (119, 2); (313, 2); (463, 0); (1, 0)];
   [(1362, 2); (495, 2); (235, 2); (200, 1); (92, 0); (20, 1); (8, 1); (47, 2); (102, 2); (44, 1); (91, 2); (205, 2); (550, 0); (2, 0)];
   [(1317, 2); (519, 2); (232, 2); (220, 1); (93, 0); (174, 2); (63, 2); (61, 2); (155, 2); (79, 1); (6, 1); (148, 2); (725, 0); (2, 0)];
   [(120, 1); (343, 2); (20, 1); (190, 1); (87, 0); (20, 1); (164, 2); (37, 2); (187, 2); (128, 2); (93, 2); (305, 2); (564, 0); (1, 0)];
   [(1287, 2); (461, 2); (248, 2); (215, 1); (86, 0); (17, 1); (65, 2); (47, 2); (86, 2); (765, 2); (54, 2); (186, 2); (625, 0); (2, 0)];
   [(1375, 2); (173, 2); (241, 2); (160, 1); (89, 0); (26, 1); (276, 2); (29, 2); (181, 2); (56, 1); (115, 2); (29, 1); (1320, 0); (0, 0)];
   [(1179, 2); (213, 2); (278, 2); (285, 1); (92, 0); (213, 2); (224, 2); (58, 2); (176, 2); (30, 1); (97, 2); (244, 2); (466, 0); (1, 0)];
   [(1371, 2); (186, 2); (236, 2); (166, 1); (101, 0); (261, 2); (288, 2); (27, 2); (169, 2); (38, 1); (111, 2); (40, 1); (1035, 0); (0, 0)];
   [(1267, 2); (98, 2); (224, 2); (180, 1); (99, 0); (22, 1); (194, 2); (3, 1); (146, 2); (262, 2); (123, 2); (316, 2); (450, 0); (1, 0)];
   [(1439, 2); (187, 2); (245, 2); (146, 1); (96, 0); (25, 1); (252, 2); (3, 1); (198, 2); (525, 2); (102, 2); (358, 2); (1290, 0); (0, 0)];
   [(1225, 2); (173, 2); (212, 2); (190, 1); (80, 0); (165, 2); (203, 2); (37, 2); (163, 2); (34, 1); (10, 1); (317, 2); (510, 0); (1, 0)];
   [(1176, 2); (268, 2); (292, 2); (200, 1); (103, 0); (175, 2); (203, 2); (6, 1); (105, 2); (38, 1); (123, 2); (25, 1); (607, 0); (1, 0)];
   [(126, 1); (246, 2); (22, 1); (185, 1); (94, 0); (162, 2); (66, 2); (63, 2); (94, 2); (71, 1); (73, 2); (158, 2); (695, 0); (2, 0)];
   [(1281, 2); (231, 2); (24, 1); (240, 1); (98, 0); (115, 2); (109, 2); (27, 2); (83, 2); (57, 1); (66, 2); (136, 2); (560, 0); (2, 0)];
   [(1251, 2); (173, 2); (198, 2); (205, 1); (85, 0); (22, 1); (192, 2); (32, 2); (148, 2); (294, 2); (104, 2); (357, 2); (672, 0); (1, 0)];
   [(1351, 2); (18, 1); (265, 2); (190, 1); (110, 0); (235, 2); (253, 2); (29, 2); (154, 2); (42, 1); (11, 1); (287, 2); (1095, 0); (0, 0)];
   [(1311, 2); (19, 1); (275, 2); (255, 1); (116, 0); (22, 1); (128, 2); (26, 2); (156, 2); (71, 1); (61, 2); (133, 2); (425, 0); (2, 0)];
   [(1222, 2); (129, 2); (194, 2); (190, 1); (92, 0); (236, 2); (204, 2); (39, 2); (208, 2); (27, 1); (86, 2); (302, 2); (312, 0); (1, 0)];
   [(1305, 2); (173, 2); (204, 2); (124, 1); (92, 0); (272, 2); (327, 2); (17, 2); (291, 2); (72, 1); (112, 2); (291, 2); (1150, 0); (0, 0)];
   [(134, 1); (46, 1); (286, 2); (250, 1); (112, 0); (198, 2); (96, 2); (27, 2); (111, 2); (85, 1); (67, 2); (192, 2); (630, 0); (2, 0)];
   [(1286, 2); (135, 2); (232, 2); (180, 1); (122, 0); (151, 2); (125, 2); (21, 2); (94, 2); (41, 1); (76, 2); (129, 2); (630, 0); (2, 0)];
   [(1204, 2); (43, 1); (238, 2); (220, 1); (80, 0); (21, 1); (175, 2); (42, 2); (135, 2); (26, 1); (79, 2); (257, 2); (580, 0); (1, 0)];
   [(1324, 2); (259, 2); (287, 2); (210, 1); (118, 0); (28, 1); (269, 2); (39, 2); (182, 2); (432, 2); (104, 2); (293, 2); (735, 0); (0, 0)];
   [(142, 1); (176, 2); (245, 2); (152, 1); (112, 0); (327, 2); (339, 2); (34, 2); (197, 2); (675, 2); (105, 2); (285, 2); (1450, 0); (0, 0)];
   [(1305, 2); (177, 2); (21, 1); (170, 1); (107, 0); (30, 1); (30, 1); (28, 2); (203, 2); (504, 2); (88, 2); (335, 2); (885, 0); (0, 0)];
   [(1237, 2); (163, 2); (23, 1); (245, 1); (88, 0); (222, 2); (245, 2); (4, 1); (19, 1); (212, 2); (89, 2); (278, 2); (342, 0); (1, 0)];
   [(1181, 2); (212, 2); (274, 2); (215, 1); (134, 0); (16, 1); (99, 2); (14, 2); (156, 2); (25, 1); (95, 2); (226, 2); (625, 0); (1, 0)];
   [(1184, 2); (89, 2); (258, 2); (180, 1); (94, 0); (22, 1); (221, 2); (22, 2); (235, 2); (305, 2); (79, 2); (308, 2); (520, 0); (1, 0)];
   [(1258, 2); (129, 2); (21, 1); (200, 1); (103, 0); (148, 2); (58, 2); (53, 2); (14, 1); (76, 1); (58, 2); (155, 2); (640, 0); (2, 0)];
   [(1387, 2); (19, 1); (28, 1); (194, 1); (107, 0); (295, 2); (297, 2); (37, 2); (176, 2); (45, 1); (125, 2); (34, 1); (915, 0); (0, 0)];
   [(1166, 2); (188, 2); (192, 2); (160, 1); (97, 0); (161, 2); (157, 2); (34, 2); (115, 2); (38, 1); (123, 2); (214, 2); (428, 0); (1, 0)];
   [(1406, 2); (215, 2); (261, 2); (176, 1); (121, 0); (26, 1); (251, 2); (31, 2); (125, 2); (505, 2); (106, 2); (358, 2); (1295, 0); (0, 0)];
   [(1438, 2); (359, 2); (228, 2); (160, 1); (102, 0); (325, 2); (317, 2); (27, 2); (219, 2); (49, 1); (104, 2); (344, 2); (1065, 0); (0, 0)];
   [(1383, 2); (157, 2); (262, 2); (200, 1); (115, 0); (295, 2); (34, 1); (4, 1); (172, 2); (66, 1); (113, 2); (257, 2); (1130, 0); (0, 0)];
   [(1412, 2); (148, 2); (232, 2); (168, 1); (95, 0); (22, 1); (243, 2); (26, 2); (157, 2); (50, 1); (117, 2); (282, 2); (1280, 0); (0, 0)];
   [(1434, 2); (168, 2); (27, 1); (250, 1); (98, 0); (28, 1); (131, 2); (53, 2); (27, 1); (130, 1); (57, 2); (196, 2); (660, 0); (2, 0)];
   [(1386, 2); (151, 2); (267, 2); (250, 1); (86, 0); (295, 2); (286, 2); (21, 2); (187, 2); (338, 2); (136, 2); (316, 2); (410, 0); (1, 0)];
   [(1277, 2); (343, 2); (198, 2); (160, 1); (80, 0); (163, 2); (125, 2); (43, 2); (83, 2); (34, 1); (7, 1); (212, 2); (372, 0); (1, 0)];
   [(1253, 2); (551, 2); (264, 2); (250, 1); (96, 0); (179, 2); (6, 1); (63, 2); (11, 1); (50, 1); (82, 2); (169, 2); (515, 0); (2, 0)];
   [(1327, 2); (428, 2); (226, 2); (200, 1); (120, 0); (159, 2); (69, 2); (43, 2); (135, 2); (102, 1); (59, 2); (156, 2); (835, 0); (2, 0)];
   [(1196, 2); (109, 2); (23, 1); (210, 1); (101, 0); (338, 2); (214, 2); (13, 2); (165, 2); (321, 2); (99, 2); (313, 2); (886, 0); (1, 0)];
   [(1162, 2); (199, 2); (228, 2); (180, 1); (98, 0); (302, 2); (226, 2); (17, 2); (135, 2); (325, 2); (116, 2); (296, 2); (345, 0); (1, 0)];
   [(1279, 2); (267, 2); (248, 2); (220, 1); (112, 0); (148, 2); (136, 2); (24, 2); (126, 2); (108, 1); (48, 2); (147, 2); (480, 0); (2, 0)];
   [(1229, 2); (283, 2); (222, 2); (180, 1); (88, 0); (245, 2); (225, 2); (25, 2); (199, 2); (215, 2); (115, 2); (33, 1); (290, 0); (1, 0)];
   [(1419, 2); (159, 2); (248, 2); (165, 1); (108, 0); (33, 1); (393, 2); (32, 2); (186, 2); (87, 1); (123, 2); (282, 2); (1680, 0); (0, 0)];
   [(133, 1); (172, 2); (214, 2); (170, 1); (94, 0); (24, 1); (219, 2); (27, 2); (135, 2); (395, 2); (102, 2); (277, 2); (1285, 0); (0, 0)];
   [(1328, 2); (164, 2); (284, 2); (155, 1); (110, 0); (26, 1); (268, 2); (34, 2); (136, 2); (46, 1); (109, 2); (278, 2); (880, 0); (0, 0)];
   [(1329, 2); (197, 2); (268, 2); (168, 1); (102, 0); (30, 1); (323, 2); (31, 2); (166, 2); (60, 1); (107, 2); (284, 2); (1270, 0); (0, 0)];
   [(1358, 2); (166, 2); (236, 2); (191, 1); (106, 0); (286, 2); (319, 2); (22, 2); (195, 2); (69, 1); (109, 2); (288, 2); (1515, 0); (0, 0)];
   [(1237, 2); (121, 2); (256, 2); (181, 1); (98, 0); (242, 2); (265, 2); (37, 2); (208, 2); (46, 1); (119, 2); (23, 1); (678, 0); (1, 0)];
   [(1293, 2); (281, 2); (27, 1); (210, 1); (96, 0); (154, 2); (5, 1); (53, 2); (75, 2); (46, 1); (77, 2); (231, 2); (600, 0); (2, 0)];
   [(1208, 2); (133, 2); (23, 1); (236, 1); (70, 0); (22, 1); (159, 2); (42, 2); (138, 2); (174, 2); (107, 2); (321, 2); (625, 0); (1, 0)];
   [(1373, 2); (15, 1); (27, 1); (225, 1); (101, 0); (30, 1); (325, 2); (29, 2); (238, 2); (57, 1); (119, 2); (271, 2); (1285, 0); (0, 0)];
   [(1216, 2); (161, 2); (231, 2); (228, 1); (90, 0); (178, 2); (169, 2); (43, 2); (156, 2); (245, 2); (133, 2); (226, 2); (495, 0); (1, 0)];
   [(1269, 2); (153, 2); (226, 2); (207, 1); (80, 0); (138, 2); (146, 2); (58, 2); (162, 2); (305, 2); (96, 2); (206, 2); (495, 0); (1, 0)];
   [(1336, 2); (256, 2); (235, 2); (200, 1); (89, 0); (14, 1); (5, 1); (37, 2); (64, 2); (56, 1); (7, 1); (247, 2); (780, 0); (2, 0)];
   [(1243, 2); (153, 2); (229, 2); (215, 1); (86, 0); (274, 2); (315, 2); (39, 2); (177, 2); (394, 2); (69, 2); (284, 2); (352, 0); (1, 0)];
   [(1475, 2); (173, 2); (239, 2); (114, 1); (91, 0); (31, 1); (369, 2); (43, 2); (281, 2); (54, 1); (125, 2); (273, 2); (1150, 0); (0, 0)];
   [(1184, 2); (289, 2); (223, 2); (180, 1); (112, 0); (172, 2); (132, 2); (43, 2); (95, 2); (265, 2); (96, 2); (252, 2); (500, 0); (1, 0)];
   [(1348, 2); (167, 2); (264, 2); (225, 1); (89, 0); (26, 1); (11, 1); (52, 2); (229, 2); (1175, 2); (57, 2); (178, 2); (620, 0); (2, 0)];
   [(1369, 2); (326, 2); (254, 2); (200, 1); (107, 0); (183, 2); (56, 2); (5, 1); (8, 1); (588, 2); (96, 2); (182, 2); (680, 0); (2, 0)];
   [(1376, 2); (153, 2); (27, 1); (195, 1); (132, 0); (295, 2); (274, 2); (5, 1); (135, 2); (54, 1); (125, 2); (30, 1); (1235, 0); (0, 0)];
   [(1367, 2); (125, 2); (192, 2); (180, 1); (94, 0); (21, 1); (179, 2); (32, 2); (73, 2); (38, 1); (123, 2); (246, 2); (630, 0); (1, 0)];
   [(1242, 2); (443, 2); (273, 2); (265, 1); (102, 0); (22, 1); (213, 2); (43, 2); (171, 2); (208, 2); (92, 2); (312, 2); (365, 0); (1, 0)];
   [(1272, 2); (175, 2); (228, 2); (225, 1); (84, 0); (138, 2); (176, 2); (48, 2); (163, 2); (33, 1); (88, 2); (242, 2); (488, 0); (1, 0)];
   [(1164, 2); (206, 2); (246, 2); (216, 1); (84, 0); (195, 2); (169, 2); (48, 2); (135, 2); (28, 1); (10, 1); (275, 2); (680, 0); (1, 0)];
   [(1374, 2); (167, 2); (225, 2); (164, 1); (118, 0); (26, 1); (29, 1); (21, 2); (162, 2); (585, 2); (92, 2); (32, 1); (1060, 0); (0, 0)];
   [(1284, 2); (296, 2); (261, 2); (240, 1); (101, 0); (232, 2); (6, 1); (53, 2); (81, 2); (492, 2); (89, 2); (215, 2); (590, 0); (2, 0)];
   [(1208, 2); (208, 2); (17, 1); (175, 1); (97, 0); (223, 2); (217, 2); (26, 2); (14, 1); (33, 1); (127, 2); (296, 2); (710, 0); (1, 0)];
   [(143, 1); (192, 2); (272, 2); (200, 1); (120, 0); (28, 1); (314, 2); (33, 2); (197, 2); (62, 1); (107, 2); (265, 2); (1280, 0); (0, 0)];
   [(1103, 2); (151, 2); (22, 1); (215, 1); (85, 0); (246, 2); (217, 2); (52, 2); (201, 2); (19, 1); (171, 2); (287, 2); (407, 0); (1, 0)];
   [(1378, 2); (276, 2); (23, 1); (220, 1); (90, 0); (135, 2); (68, 2); (41, 2); (103, 2); (958, 2); (7, 1); (168, 2); (615, 0); (2, 0)];
   [(1356, 2); (171, 2); (231, 2); (162, 1); (117, 0); (315, 2); (329, 2); (34, 2); (234, 2); (613, 2); (95, 2); (338, 2); (795, 0); (0, 0)];
   [(1423, 2); (171, 2); (243, 2); (156, 1); (127, 0); (28, 1); (306, 2); (28, 2); (229, 2); (564, 2); (104, 2); (392, 2); (1065, 0); (0, 0)];
   [(1299, 2); (167, 2); (26, 1); (300, 1); (139, 0); (33, 1); (289, 2); (21, 2); (196, 2); (335, 2); (131, 2); (35, 1); (985, 0); (1, 0)];
   [(1483, 2); (164, 2); (217, 2); (140, 1); (97, 0); (28, 1); (298, 2); (29, 2); (198, 2); (52, 1); (108, 2); (285, 2); (1045, 0); (0, 0)];
   [(1371, 2); (565, 2); (245, 2); (205, 1); (95, 0); (168, 2); (61, 2); (52, 2); (106, 2); (77, 1); (64, 2); (174, 2); (740, 0); (2, 0)];
   [(1245, 2); (303, 2); (264, 2); (270, 1); (97, 0); (19, 1); (58, 2); (63, 2); (114, 2); (75, 1); (67, 2); (173, 2); (880, 0); (2, 0)];
   [(1384, 2); (412, 2); (238, 2); (195, 1); (89, 0); (18, 1); (83, 2); (48, 2); (156, 2); (901, 2); (57, 2); (164, 2); (480, 0); (2, 0)];
   [(1305, 2); (58, 1); (213, 2); (215, 1); (86, 0); (262, 2); (265, 2); (3, 1); (201, 2); (26, 1); (73, 2); (31, 1); (380, 0); (1, 0)];
   [(1141, 2); (74, 2); (25, 1); (210, 1); (88, 0); (248, 2); (201, 2); (42, 2); (144, 2); (308, 2); (11, 1); (231, 2); (434, 0); (1, 0)];
   [(1217, 2); (145, 2); (253, 2); (190, 1); (104, 0); (189, 2); (175, 2); (45, 2); (103, 2); (295, 2); (145, 2); (223, 2); (355, 0); (1, 0)];
   [(1363, 2); (181, 2); (27, 1); (172, 1); (112, 0); (285, 2); (291, 2); (3, 1); (146, 2); (73, 1); (128, 2); (288, 2); (1310, 0); (0, 0)];
   [(1207, 2); (216, 2); (217, 2); (210, 1); (85, 0); (26, 1); (265, 2); (37, 2); (135, 2); (276, 2); (86, 2); (328, 2); (378, 0); (1, 0)];
   [(1386, 2); (135, 2); (227, 2); (160, 1); (98, 0); (298, 2); (315, 2); (22, 2); (185, 2); (722, 2); (101, 2); (355, 2); (1045, 0); (0, 0)]].

(** wine_test.csv *)
Definition wine_test_header : list string := ["Alcohol"; "Malic.acid"; "Ash"; "Acl"; "Mg"; "Phenols"; "Flavanoids"; "Nonflavanoid.phenols"; "Proanth"; "Color.int"; "Hue"; "OD"; "Proline"; "Wine"].
Definition wine_test_records : list (list (Z * Z)) :=
  [[(1221, 2); (119, 2); (175, 2); (168, 1); (151, 0); (185, 2); (128, 2); (14, 2); (25, 1); (285, 2); (128, 2); (307, 2); (718, 0); (1, 0)];
   [(1182, 2); (172, 2); (188, 2); (195, 1); (86, 0); (25, 1); (164, 2); (37, 2); (142, 2); (206, 2); (94, 2); (244, 2); (415, 0); (1, 0)];
   [(1406, 2); (163, 2); (228, 2); (160, 1); (126, 0); (30, 1); (317, 2); (24, 2); (21, 1); (565, 2); (109, 2); (371, 2); (780, 0); (0, 0)];
   [(1182, 2); (147, 2); (199, 2); (208, 1); (86, 0); (198, 2); (16, 1); (3, 1); (153, 2); (195, 2); (95, 2); (333, 2); (495, 0); (1, 0)];
   [(1422, 2); (17, 1); (23, 1); (163, 1); (118, 0); (32, 1); (30, 1); (26, 2); (203, 2); (638, 2); (94, 2); (331, 2); (970, 0); (0, 0)];
   [(1229, 2); (141, 2); (198, 2); (160, 1); (85, 0); (255, 2); (25, 1); (29, 2); (177, 2); (29, 1); (123, 2); (274, 2); (428, 0); (1, 0)];
   [(1242, 2); (161, 2); (219, 2); (225, 1); (108, 0); (20, 1); (209, 2); (34, 2); (161, 2); (206, 2); (106, 2); (296, 2); (345, 0); (1, 0)];
   [(1422, 2); (399, 2); (251, 2); (132, 1); (128, 0); (30, 1); (304, 2); (2, 1); (208, 2); (51, 1); (89, 2); (353, 2); (760, 0); (0, 0)];
   [(1416, 2); (251, 2); (248, 2); (200, 1); (91, 0); (168, 2); (7, 1); (44, 2); (124, 2); (97, 1); (62, 2); (171, 2); (660, 0); (2, 0)];
   [(141, 1); (216, 2); (23, 1); (180, 1); (105, 0); (295, 2); (332, 2); (22, 2); (238, 2); (575, 2); (125, 2); (317, 2); (1510, 0); (0, 0)];
   [(1364, 2); (31, 1); (256, 2); (152, 1); (116, 0); (27, 1); (303, 2); (17, 2); (166, 2); (51, 1); (96, 2); (336, 2); (845, 0); (0, 0)];
   [(1311, 2); (101, 2); (17, 1); (150, 1); (78, 0); (298, 2); (318, 2); (26, 2); (228, 2); (53, 1); (112, 2); (318, 2); (502, 0); (1, 0)];
   [(1356, 2); (173, 2); (246, 2); (205, 1); (116, 0); (296, 2); (278, 2); (2, 1); (245, 2); (625, 2); (98, 2); (303, 2); (1120, 0); (0, 0)];
   [(1264, 2); (136, 2); (202, 2); (168, 1); (100, 0); (202, 2); (141, 2); (53, 2); (62, 2); (575, 2); (98, 2); (159, 2); (450, 0); (1, 0)];
   [(1234, 2); (245, 2); (246, 2); (210, 1); (98, 0); (256, 2); (211, 2); (34, 2); (131, 2); (28, 1); (8, 1); (338, 2); (438, 0); (1, 0)];
   [(1237, 2); (94, 2); (136, 2); (106, 1); (88, 0); (198, 2); (57, 2); (28, 2); (42, 2); (195, 2); (105, 2); (182, 2); (520, 0); (1, 0)];
   [(1305, 2); (386, 2); (232, 2); (225, 1); (85, 0); (165, 2); (159, 2); (61, 2); (162, 2); (48, 1); (84, 2); (201, 2); (515, 0); (1, 0)];
   [(1233, 2); (99, 2); (195, 2); (148, 1); (136, 0); (19, 1); (185, 2); (35, 2); (276, 2); (34, 1); (106, 2); (231, 2); (750, 0); (1, 0)];
   [(1146, 2); (374, 2); (182, 2); (195, 1); (107, 0); (318, 2); (258, 2); (24, 2); (358, 2); (29, 1); (75, 2); (281, 2); (562, 0); (1, 0)];
   [(1296, 2); (345, 2); (235, 2); (185, 1); (106, 0); (139, 2); (7, 1); (4, 1); (94, 2); (528, 2); (68, 2); (175, 2); (675, 0); (2, 0)];
   [(132, 1); (178, 2); (214, 2); (112, 1); (100, 0); (265, 2); (276, 2); (26, 2); (128, 2); (438, 2); (105, 2); (34, 1); (1050, 0); (0, 0)];
   [(1236, 2); (383, 2); (238, 2); (210, 1); (88, 0); (23, 1); (92, 2); (5, 1); (104, 2); (765, 2); (56, 2); (158, 2); (520, 0); (2, 0)];
   [(139, 1); (168, 2); (212, 2); (160, 1); (101, 0); (31, 1); (339, 2); (21, 2); (214, 2); (61, 1); (91, 2); (333, 2); (985, 0); (0, 0)];
   [(1394, 2); (173, 2); (227, 2); (174, 1); (108, 0); (288, 2); (354, 2); (32, 2); (208, 2); (89, 1); (112, 2); (31, 1); (1260, 0); (0, 0)];
   [(1237, 2); (117, 2); (192, 2); (196, 1); (78, 0); (211, 2); (20, 1); (27, 2); (104, 2); (468, 2); (112, 2); (348, 2); (510, 0); (1, 0)];
   [(1225, 2); (472, 2); (254, 2); (210, 1); (89, 0); (138, 2); (47, 2); (53, 2); (8, 1); (385, 2); (75, 2); (127, 2); (720, 0); (2, 0)];
   [(1334, 2); (94, 2); (236, 2); (170, 1); (110, 0); (253, 2); (13, 1); (55, 2); (42, 2); (317, 2); (102, 2); (193, 2); (750, 0); (1, 0)];
   [(127, 1); (355, 2); (236, 2); (215, 1); (106, 0); (17, 1); (12, 1); (17, 2); (84, 2); (50, 1); (78, 2); (129, 2); (600, 0); (2, 0)];
   [(1233, 2); (11, 1); (228, 2); (160, 1); (101, 0); (205, 2); (109, 2); (63, 2); (41, 2); (327, 2); (125, 2); (167, 2); (680, 0); (1, 0)];
   [(1303, 2); (9, 1); (171, 2); (160, 1); (86, 0); (195, 2); (203, 2); (24, 2); (146, 2); (46, 1); (119, 2); (248, 2); (392, 0); (1, 0)];
   [(1277, 2); (239, 2); (228, 2); (195, 1); (86, 0); (139, 2); (51, 2); (48, 2); (64, 2); (9899999, 6); (57, 2); (163, 2); (470, 0); (2, 0)];
   [(122, 1); (303, 2); (232, 2); (190, 1); (96, 0); (125, 2); (49, 2); (4, 1); (73, 2); (55, 1); (66, 2); (183, 2); (510, 0); (2, 0)];
   [(1229, 2); (161, 2); (221, 2); (204, 1); (103, 0); (11, 1); (102, 2); (37, 2); (146, 2); (305, 2); (906, 3); (182, 2); (870, 0); (1, 0)];
   [(1358, 2); (258, 2); (269, 2); (245, 1); (105, 0); (155, 2); (84, 2); (39, 2); (154, 2); (866, 2); (74, 2); (18, 1); (750, 0); (2, 0)];
   [(1187, 2); (431, 2); (239, 2); (210, 1); (82, 0); (286, 2); (303, 2); (21, 2); (291, 2); (28, 1); (75, 2); (364, 2); (380, 0); (1, 0)];
   [(1339, 2); (177, 2); (262, 2); (161, 1); (93, 0); (285, 2); (294, 2); (34, 2); (145, 2); (48, 1); (92, 2); (322, 2); (1195, 0); (0, 0)];
   [(1247, 2); (152, 2); (22, 1); (190, 1); (162, 0); (25, 1); (227, 2); (32, 2); (328, 2); (26, 1); (116, 2); (263, 2); (937, 0); (1, 0)];
   [(120, 1); (151, 2); (242, 2); (220, 1); (86, 0); (145, 2); (125, 2); (5, 1); (163, 2); (36, 1); (105, 2); (265, 2); (450, 0); (1, 0)];
   [(135, 1); (181, 2); (261, 2); (200, 1); (96, 0); (253, 2); (261, 2); (28, 2); (166, 2); (352, 2); (112, 2); (382, 2); (845, 0); (0, 0)];
   [(1161, 2); (135, 2); (27, 1); (200, 1); (94, 0); (274, 2); (292, 2); (29, 2); (249, 2); (265, 2); (96, 2); (326, 2); (680, 0); (1, 0)];
   [(1156, 2); (205, 2); (323, 2); (285, 1); (119, 0); (318, 2); (508, 2); (47, 2); (187, 2); (60, 1); (93, 2); (369, 2); (465, 0); (1, 0)];
   [(1293, 2); (38, 1); (265, 2); (186, 1); (102, 0); (241, 2); (241, 2); (25, 2); (198, 2); (45, 1); (103, 2); (352, 2); (770, 0); (0, 0)];
   [(1317, 2); (259, 2); (237, 2); (200, 1); (120, 0); (165, 2); (68, 2); (53, 2); (146, 2); (93, 1); (6, 1); (162, 2); (840, 0); (2, 0)];
   [(1237, 2); (113, 2); (216, 2); (190, 1); (87, 0); (35, 1); (31, 1); (19, 2); (187, 2); (445, 2); (122, 2); (287, 2); (420, 0); (1, 0)];
   [(1372, 2); (143, 2); (25, 1); (167, 1); (108, 0); (34, 1); (367, 2); (19, 2); (204, 2); (68, 1); (89, 2); (287, 2); (1285, 0); (0, 0)]].
