(** GENERATED from the Unicode 15.0 data shipped with perl 5.38 (properties
    Grapheme_Cluster_Break and Extended_Pictographic).  Used only for concrete
    instances and witnesses: no general theorem depends on the table.
    Precomposed Hangul syllables are computed. *)
From Verif Require Import Base Utf8 Grapheme.
Local Open Scope N_scope.

Definition gcb_ranges : list (N * N * gcb) := [
(0, 9, GC_Control);
(10, 10, GC_LF);
(11, 12, GC_Control);
(13, 13, GC_CR);
(14, 31, GC_Control);
(127, 159, GC_Control);
(169, 169, GC_Extended_Pictographic);
(173, 173, GC_Control);
(174, 174, GC_Extended_Pictographic);
(768, 879, GC_Extend);
(1155, 1161, GC_Extend);
(1425, 1469, GC_Extend);
(1471, 1471, GC_Extend);
(1473, 1474, GC_Extend);
(1476, 1477, GC_Extend);
(1479, 1479, GC_Extend);
(1536, 1541, GC_Prepend);
(1552, 1562, GC_Extend);
(1564, 1564, GC_Control);
(1611, 1631, GC_Extend);
(1648, 1648, GC_Extend);
(1750, 1756, GC_Extend);
(1757, 1757, GC_Prepend);
(1759, 1764, GC_Extend);
(1767, 1768, GC_Extend);
(1770, 1773, GC_Extend);
(1807, 1807, GC_Prepend);
(1809, 1809, GC_Extend);
(1840, 1866, GC_Extend);
(1958, 1968, GC_Extend);
(2027, 2035, GC_Extend);
(2045, 2045, GC_Extend);
(2070, 2073, GC_Extend);
(2075, 2083, GC_Extend);
(2085, 2087, GC_Extend);
(2089, 2093, GC_Extend);
(2137, 2139, GC_Extend);
(2192, 2193, GC_Prepend);
(2200, 2207, GC_Extend);
(2250, 2273, GC_Extend);
(2274, 2274, GC_Prepend);
(2275, 2306, GC_Extend);
(2307, 2307, GC_SpacingMark);
(2362, 2362, GC_Extend);
(2363, 2363, GC_SpacingMark);
(2364, 2364, GC_Extend);
(2366, 2368, GC_SpacingMark);
(2369, 2376, GC_Extend);
(2377, 2380, GC_SpacingMark);
(2381, 2381, GC_Extend);
(2382, 2383, GC_SpacingMark);
(2385, 2391, GC_Extend);
(2402, 2403, GC_Extend);
(2433, 2433, GC_Extend);
(2434, 2435, GC_SpacingMark);
(2492, 2492, GC_Extend);
(2494, 2494, GC_Extend);
(2495, 2496, GC_SpacingMark);
(2497, 2500, GC_Extend);
(2503, 2504, GC_SpacingMark);
(2507, 2508, GC_SpacingMark);
(2509, 2509, GC_Extend);
(2519, 2519, GC_Extend);
(2530, 2531, GC_Extend);
(2558, 2558, GC_Extend);
(2561, 2562, GC_Extend);
(2563, 2563, GC_SpacingMark);
(2620, 2620, GC_Extend);
(2622, 2624, GC_SpacingMark);
(2625, 2626, GC_Extend);
(2631, 2632, GC_Extend);
(2635, 2637, GC_Extend);
(2641, 2641, GC_Extend);
(2672, 2673, GC_Extend);
(2677, 2677, GC_Extend);
(2689, 2690, GC_Extend);
(2691, 2691, GC_SpacingMark);
(2748, 2748, GC_Extend);
(2750, 2752, GC_SpacingMark);
(2753, 2757, GC_Extend);
(2759, 2760, GC_Extend);
(2761, 2761, GC_SpacingMark);
(2763, 2764, GC_SpacingMark);
(2765, 2765, GC_Extend);
(2786, 2787, GC_Extend);
(2810, 2815, GC_Extend);
(2817, 2817, GC_Extend);
(2818, 2819, GC_SpacingMark);
(2876, 2876, GC_Extend);
(2878, 2879, GC_Extend);
(2880, 2880, GC_SpacingMark);
(2881, 2884, GC_Extend);
(2887, 2888, GC_SpacingMark);
(2891, 2892, GC_SpacingMark);
(2893, 2893, GC_Extend);
(2901, 2903, GC_Extend);
(2914, 2915, GC_Extend);
(2946, 2946, GC_Extend);
(3006, 3006, GC_Extend);
(3007, 3007, GC_SpacingMark);
(3008, 3008, GC_Extend);
(3009, 3010, GC_SpacingMark);
(3014, 3016, GC_SpacingMark);
(3018, 3020, GC_SpacingMark);
(3021, 3021, GC_Extend);
(3031, 3031, GC_Extend);
(3072, 3072, GC_Extend);
(3073, 3075, GC_SpacingMark);
(3076, 3076, GC_Extend);
(3132, 3132, GC_Extend);
(3134, 3136, GC_Extend);
(3137, 3140, GC_SpacingMark);
(3142, 3144, GC_Extend);
(3146, 3149, GC_Extend);
(3157, 3158, GC_Extend);
(3170, 3171, GC_Extend);
(3201, 3201, GC_Extend);
(3202, 3203, GC_SpacingMark);
(3260, 3260, GC_Extend);
(3262, 3262, GC_SpacingMark);
(3263, 3263, GC_Extend);
(3264, 3265, GC_SpacingMark);
(3266, 3266, GC_Extend);
(3267, 3268, GC_SpacingMark);
(3270, 3270, GC_Extend);
(3271, 3272, GC_SpacingMark);
(3274, 3275, GC_SpacingMark);
(3276, 3277, GC_Extend);
(3285, 3286, GC_Extend);
(3298, 3299, GC_Extend);
(3315, 3315, GC_SpacingMark);
(3328, 3329, GC_Extend);
(3330, 3331, GC_SpacingMark);
(3387, 3388, GC_Extend);
(3390, 3390, GC_Extend);
(3391, 3392, GC_SpacingMark);
(3393, 3396, GC_Extend);
(3398, 3400, GC_SpacingMark);
(3402, 3404, GC_SpacingMark);
(3405, 3405, GC_Extend);
(3406, 3406, GC_Prepend);
(3415, 3415, GC_Extend);
(3426, 3427, GC_Extend);
(3457, 3457, GC_Extend);
(3458, 3459, GC_SpacingMark);
(3530, 3530, GC_Extend);
(3535, 3535, GC_Extend);
(3536, 3537, GC_SpacingMark);
(3538, 3540, GC_Extend);
(3542, 3542, GC_Extend);
(3544, 3550, GC_SpacingMark);
(3551, 3551, GC_Extend);
(3570, 3571, GC_SpacingMark);
(3633, 3633, GC_Extend);
(3635, 3635, GC_SpacingMark);
(3636, 3642, GC_Extend);
(3655, 3662, GC_Extend);
(3761, 3761, GC_Extend);
(3763, 3763, GC_SpacingMark);
(3764, 3772, GC_Extend);
(3784, 3790, GC_Extend);
(3864, 3865, GC_Extend);
(3893, 3893, GC_Extend);
(3895, 3895, GC_Extend);
(3897, 3897, GC_Extend);
(3902, 3903, GC_SpacingMark);
(3953, 3966, GC_Extend);
(3967, 3967, GC_SpacingMark);
(3968, 3972, GC_Extend);
(3974, 3975, GC_Extend);
(3981, 3991, GC_Extend);
(3993, 4028, GC_Extend);
(4038, 4038, GC_Extend);
(4141, 4144, GC_Extend);
(4145, 4145, GC_SpacingMark);
(4146, 4151, GC_Extend);
(4153, 4154, GC_Extend);
(4155, 4156, GC_SpacingMark);
(4157, 4158, GC_Extend);
(4182, 4183, GC_SpacingMark);
(4184, 4185, GC_Extend);
(4190, 4192, GC_Extend);
(4209, 4212, GC_Extend);
(4226, 4226, GC_Extend);
(4228, 4228, GC_SpacingMark);
(4229, 4230, GC_Extend);
(4237, 4237, GC_Extend);
(4253, 4253, GC_Extend);
(4352, 4447, GC_L);
(4448, 4519, GC_V);
(4520, 4607, GC_T);
(4957, 4959, GC_Extend);
(5906, 5908, GC_Extend);
(5909, 5909, GC_SpacingMark);
(5938, 5939, GC_Extend);
(5940, 5940, GC_SpacingMark);
(5970, 5971, GC_Extend);
(6002, 6003, GC_Extend);
(6068, 6069, GC_Extend);
(6070, 6070, GC_SpacingMark);
(6071, 6077, GC_Extend);
(6078, 6085, GC_SpacingMark);
(6086, 6086, GC_Extend);
(6087, 6088, GC_SpacingMark);
(6089, 6099, GC_Extend);
(6109, 6109, GC_Extend);
(6155, 6157, GC_Extend);
(6158, 6158, GC_Control);
(6159, 6159, GC_Extend);
(6277, 6278, GC_Extend);
(6313, 6313, GC_Extend);
(6432, 6434, GC_Extend);
(6435, 6438, GC_SpacingMark);
(6439, 6440, GC_Extend);
(6441, 6443, GC_SpacingMark);
(6448, 6449, GC_SpacingMark);
(6450, 6450, GC_Extend);
(6451, 6456, GC_SpacingMark);
(6457, 6459, GC_Extend);
(6679, 6680, GC_Extend);
(6681, 6682, GC_SpacingMark);
(6683, 6683, GC_Extend);
(6741, 6741, GC_SpacingMark);
(6742, 6742, GC_Extend);
(6743, 6743, GC_SpacingMark);
(6744, 6750, GC_Extend);
(6752, 6752, GC_Extend);
(6754, 6754, GC_Extend);
(6757, 6764, GC_Extend);
(6765, 6770, GC_SpacingMark);
(6771, 6780, GC_Extend);
(6783, 6783, GC_Extend);
(6832, 6862, GC_Extend);
(6912, 6915, GC_Extend);
(6916, 6916, GC_SpacingMark);
(6964, 6970, GC_Extend);
(6971, 6971, GC_SpacingMark);
(6972, 6972, GC_Extend);
(6973, 6977, GC_SpacingMark);
(6978, 6978, GC_Extend);
(6979, 6980, GC_SpacingMark);
(7019, 7027, GC_Extend);
(7040, 7041, GC_Extend);
(7042, 7042, GC_SpacingMark);
(7073, 7073, GC_SpacingMark);
(7074, 7077, GC_Extend);
(7078, 7079, GC_SpacingMark);
(7080, 7081, GC_Extend);
(7082, 7082, GC_SpacingMark);
(7083, 7085, GC_Extend);
(7142, 7142, GC_Extend);
(7143, 7143, GC_SpacingMark);
(7144, 7145, GC_Extend);
(7146, 7148, GC_SpacingMark);
(7149, 7149, GC_Extend);
(7150, 7150, GC_SpacingMark);
(7151, 7153, GC_Extend);
(7154, 7155, GC_SpacingMark);
(7204, 7211, GC_SpacingMark);
(7212, 7219, GC_Extend);
(7220, 7221, GC_SpacingMark);
(7222, 7223, GC_Extend);
(7376, 7378, GC_Extend);
(7380, 7392, GC_Extend);
(7393, 7393, GC_SpacingMark);
(7394, 7400, GC_Extend);
(7405, 7405, GC_Extend);
(7412, 7412, GC_Extend);
(7415, 7415, GC_SpacingMark);
(7416, 7417, GC_Extend);
(7616, 7679, GC_Extend);
(8203, 8203, GC_Control);
(8204, 8204, GC_Extend);
(8205, 8205, GC_ZWJ);
(8206, 8207, GC_Control);
(8232, 8238, GC_Control);
(8252, 8252, GC_Extended_Pictographic);
(8265, 8265, GC_Extended_Pictographic);
(8288, 8303, GC_Control);
(8400, 8432, GC_Extend);
(8482, 8482, GC_Extended_Pictographic);
(8505, 8505, GC_Extended_Pictographic);
(8596, 8601, GC_Extended_Pictographic);
(8617, 8618, GC_Extended_Pictographic);
(8986, 8987, GC_Extended_Pictographic);
(9000, 9000, GC_Extended_Pictographic);
(9096, 9096, GC_Extended_Pictographic);
(9167, 9167, GC_Extended_Pictographic);
(9193, 9203, GC_Extended_Pictographic);
(9208, 9210, GC_Extended_Pictographic);
(9410, 9410, GC_Extended_Pictographic);
(9642, 9643, GC_Extended_Pictographic);
(9654, 9654, GC_Extended_Pictographic);
(9664, 9664, GC_Extended_Pictographic);
(9723, 9726, GC_Extended_Pictographic);
(9728, 9733, GC_Extended_Pictographic);
(9735, 9746, GC_Extended_Pictographic);
(9748, 9861, GC_Extended_Pictographic);
(9872, 9989, GC_Extended_Pictographic);
(9992, 10002, GC_Extended_Pictographic);
(10004, 10004, GC_Extended_Pictographic);
(10006, 10006, GC_Extended_Pictographic);
(10013, 10013, GC_Extended_Pictographic);
(10017, 10017, GC_Extended_Pictographic);
(10024, 10024, GC_Extended_Pictographic);
(10035, 10036, GC_Extended_Pictographic);
(10052, 10052, GC_Extended_Pictographic);
(10055, 10055, GC_Extended_Pictographic);
(10060, 10060, GC_Extended_Pictographic);
(10062, 10062, GC_Extended_Pictographic);
(10067, 10069, GC_Extended_Pictographic);
(10071, 10071, GC_Extended_Pictographic);
(10083, 10087, GC_Extended_Pictographic);
(10133, 10135, GC_Extended_Pictographic);
(10145, 10145, GC_Extended_Pictographic);
(10160, 10160, GC_Extended_Pictographic);
(10175, 10175, GC_Extended_Pictographic);
(10548, 10549, GC_Extended_Pictographic);
(11013, 11015, GC_Extended_Pictographic);
(11035, 11036, GC_Extended_Pictographic);
(11088, 11088, GC_Extended_Pictographic);
(11093, 11093, GC_Extended_Pictographic);
(11503, 11505, GC_Extend);
(11647, 11647, GC_Extend);
(11744, 11775, GC_Extend);
(12330, 12335, GC_Extend);
(12336, 12336, GC_Extended_Pictographic);
(12349, 12349, GC_Extended_Pictographic);
(12441, 12442, GC_Extend);
(12951, 12951, GC_Extended_Pictographic);
(12953, 12953, GC_Extended_Pictographic);
(42607, 42610, GC_Extend);
(42612, 42621, GC_Extend);
(42654, 42655, GC_Extend);
(42736, 42737, GC_Extend);
(43010, 43010, GC_Extend);
(43014, 43014, GC_Extend);
(43019, 43019, GC_Extend);
(43043, 43044, GC_SpacingMark);
(43045, 43046, GC_Extend);
(43047, 43047, GC_SpacingMark);
(43052, 43052, GC_Extend);
(43136, 43137, GC_SpacingMark);
(43188, 43203, GC_SpacingMark);
(43204, 43205, GC_Extend);
(43232, 43249, GC_Extend);
(43263, 43263, GC_Extend);
(43302, 43309, GC_Extend);
(43335, 43345, GC_Extend);
(43346, 43347, GC_SpacingMark);
(43360, 43388, GC_L);
(43392, 43394, GC_Extend);
(43395, 43395, GC_SpacingMark);
(43443, 43443, GC_Extend);
(43444, 43445, GC_SpacingMark);
(43446, 43449, GC_Extend);
(43450, 43451, GC_SpacingMark);
(43452, 43453, GC_Extend);
(43454, 43456, GC_SpacingMark);
(43493, 43493, GC_Extend);
(43561, 43566, GC_Extend);
(43567, 43568, GC_SpacingMark);
(43569, 43570, GC_Extend);
(43571, 43572, GC_SpacingMark);
(43573, 43574, GC_Extend);
(43587, 43587, GC_Extend);
(43596, 43596, GC_Extend);
(43597, 43597, GC_SpacingMark);
(43644, 43644, GC_Extend);
(43696, 43696, GC_Extend);
(43698, 43700, GC_Extend);
(43703, 43704, GC_Extend);
(43710, 43711, GC_Extend);
(43713, 43713, GC_Extend);
(43755, 43755, GC_SpacingMark);
(43756, 43757, GC_Extend);
(43758, 43759, GC_SpacingMark);
(43765, 43765, GC_SpacingMark);
(43766, 43766, GC_Extend);
(44003, 44004, GC_SpacingMark);
(44005, 44005, GC_Extend);
(44006, 44007, GC_SpacingMark);
(44008, 44008, GC_Extend);
(44009, 44010, GC_SpacingMark);
(44012, 44012, GC_SpacingMark);
(44013, 44013, GC_Extend);
(55216, 55238, GC_V);
(55243, 55291, GC_T);
(64286, 64286, GC_Extend);
(65024, 65039, GC_Extend);
(65056, 65071, GC_Extend);
(65279, 65279, GC_Control);
(65438, 65439, GC_Extend);
(65520, 65531, GC_Control);
(66045, 66045, GC_Extend);
(66272, 66272, GC_Extend);
(66422, 66426, GC_Extend);
(68097, 68099, GC_Extend);
(68101, 68102, GC_Extend);
(68108, 68111, GC_Extend);
(68152, 68154, GC_Extend);
(68159, 68159, GC_Extend);
(68325, 68326, GC_Extend);
(68900, 68903, GC_Extend);
(69291, 69292, GC_Extend);
(69373, 69375, GC_Extend);
(69446, 69456, GC_Extend);
(69506, 69509, GC_Extend);
(69632, 69632, GC_SpacingMark);
(69633, 69633, GC_Extend);
(69634, 69634, GC_SpacingMark);
(69688, 69702, GC_Extend);
(69744, 69744, GC_Extend);
(69747, 69748, GC_Extend);
(69759, 69761, GC_Extend);
(69762, 69762, GC_SpacingMark);
(69808, 69810, GC_SpacingMark);
(69811, 69814, GC_Extend);
(69815, 69816, GC_SpacingMark);
(69817, 69818, GC_Extend);
(69821, 69821, GC_Prepend);
(69826, 69826, GC_Extend);
(69837, 69837, GC_Prepend);
(69888, 69890, GC_Extend);
(69927, 69931, GC_Extend);
(69932, 69932, GC_SpacingMark);
(69933, 69940, GC_Extend);
(69957, 69958, GC_SpacingMark);
(70003, 70003, GC_Extend);
(70016, 70017, GC_Extend);
(70018, 70018, GC_SpacingMark);
(70067, 70069, GC_SpacingMark);
(70070, 70078, GC_Extend);
(70079, 70080, GC_SpacingMark);
(70082, 70083, GC_Prepend);
(70089, 70092, GC_Extend);
(70094, 70094, GC_SpacingMark);
(70095, 70095, GC_Extend);
(70188, 70190, GC_SpacingMark);
(70191, 70193, GC_Extend);
(70194, 70195, GC_SpacingMark);
(70196, 70196, GC_Extend);
(70197, 70197, GC_SpacingMark);
(70198, 70199, GC_Extend);
(70206, 70206, GC_Extend);
(70209, 70209, GC_Extend);
(70367, 70367, GC_Extend);
(70368, 70370, GC_SpacingMark);
(70371, 70378, GC_Extend);
(70400, 70401, GC_Extend);
(70402, 70403, GC_SpacingMark);
(70459, 70460, GC_Extend);
(70462, 70462, GC_Extend);
(70463, 70463, GC_SpacingMark);
(70464, 70464, GC_Extend);
(70465, 70468, GC_SpacingMark);
(70471, 70472, GC_SpacingMark);
(70475, 70477, GC_SpacingMark);
(70487, 70487, GC_Extend);
(70498, 70499, GC_SpacingMark);
(70502, 70508, GC_Extend);
(70512, 70516, GC_Extend);
(70709, 70711, GC_SpacingMark);
(70712, 70719, GC_Extend);
(70720, 70721, GC_SpacingMark);
(70722, 70724, GC_Extend);
(70725, 70725, GC_SpacingMark);
(70726, 70726, GC_Extend);
(70750, 70750, GC_Extend);
(70832, 70832, GC_Extend);
(70833, 70834, GC_SpacingMark);
(70835, 70840, GC_Extend);
(70841, 70841, GC_SpacingMark);
(70842, 70842, GC_Extend);
(70843, 70844, GC_SpacingMark);
(70845, 70845, GC_Extend);
(70846, 70846, GC_SpacingMark);
(70847, 70848, GC_Extend);
(70849, 70849, GC_SpacingMark);
(70850, 70851, GC_Extend);
(71087, 71087, GC_Extend);
(71088, 71089, GC_SpacingMark);
(71090, 71093, GC_Extend);
(71096, 71099, GC_SpacingMark);
(71100, 71101, GC_Extend);
(71102, 71102, GC_SpacingMark);
(71103, 71104, GC_Extend);
(71132, 71133, GC_Extend);
(71216, 71218, GC_SpacingMark);
(71219, 71226, GC_Extend);
(71227, 71228, GC_SpacingMark);
(71229, 71229, GC_Extend);
(71230, 71230, GC_SpacingMark);
(71231, 71232, GC_Extend);
(71339, 71339, GC_Extend);
(71340, 71340, GC_SpacingMark);
(71341, 71341, GC_Extend);
(71342, 71343, GC_SpacingMark);
(71344, 71349, GC_Extend);
(71350, 71350, GC_SpacingMark);
(71351, 71351, GC_Extend);
(71453, 71455, GC_Extend);
(71458, 71461, GC_Extend);
(71462, 71462, GC_SpacingMark);
(71463, 71467, GC_Extend);
(71724, 71726, GC_SpacingMark);
(71727, 71735, GC_Extend);
(71736, 71736, GC_SpacingMark);
(71737, 71738, GC_Extend);
(71984, 71984, GC_Extend);
(71985, 71989, GC_SpacingMark);
(71991, 71992, GC_SpacingMark);
(71995, 71996, GC_Extend);
(71997, 71997, GC_SpacingMark);
(71998, 71998, GC_Extend);
(71999, 71999, GC_Prepend);
(72000, 72000, GC_SpacingMark);
(72001, 72001, GC_Prepend);
(72002, 72002, GC_SpacingMark);
(72003, 72003, GC_Extend);
(72145, 72147, GC_SpacingMark);
(72148, 72151, GC_Extend);
(72154, 72155, GC_Extend);
(72156, 72159, GC_SpacingMark);
(72160, 72160, GC_Extend);
(72164, 72164, GC_SpacingMark);
(72193, 72202, GC_Extend);
(72243, 72248, GC_Extend);
(72249, 72249, GC_SpacingMark);
(72250, 72250, GC_Prepend);
(72251, 72254, GC_Extend);
(72263, 72263, GC_Extend);
(72273, 72278, GC_Extend);
(72279, 72280, GC_SpacingMark);
(72281, 72283, GC_Extend);
(72324, 72329, GC_Prepend);
(72330, 72342, GC_Extend);
(72343, 72343, GC_SpacingMark);
(72344, 72345, GC_Extend);
(72751, 72751, GC_SpacingMark);
(72752, 72758, GC_Extend);
(72760, 72765, GC_Extend);
(72766, 72766, GC_SpacingMark);
(72767, 72767, GC_Extend);
(72850, 72871, GC_Extend);
(72873, 72873, GC_SpacingMark);
(72874, 72880, GC_Extend);
(72881, 72881, GC_SpacingMark);
(72882, 72883, GC_Extend);
(72884, 72884, GC_SpacingMark);
(72885, 72886, GC_Extend);
(73009, 73014, GC_Extend);
(73018, 73018, GC_Extend);
(73020, 73021, GC_Extend);
(73023, 73029, GC_Extend);
(73030, 73030, GC_Prepend);
(73031, 73031, GC_Extend);
(73098, 73102, GC_SpacingMark);
(73104, 73105, GC_Extend);
(73107, 73108, GC_SpacingMark);
(73109, 73109, GC_Extend);
(73110, 73110, GC_SpacingMark);
(73111, 73111, GC_Extend);
(73459, 73460, GC_Extend);
(73461, 73462, GC_SpacingMark);
(73472, 73473, GC_Extend);
(73474, 73474, GC_Prepend);
(73475, 73475, GC_SpacingMark);
(73524, 73525, GC_SpacingMark);
(73526, 73530, GC_Extend);
(73534, 73535, GC_SpacingMark);
(73536, 73536, GC_Extend);
(73537, 73537, GC_SpacingMark);
(73538, 73538, GC_Extend);
(78896, 78911, GC_Control);
(78912, 78912, GC_Extend);
(78919, 78933, GC_Extend);
(92912, 92916, GC_Extend);
(92976, 92982, GC_Extend);
(94031, 94031, GC_Extend);
(94033, 94087, GC_SpacingMark);
(94095, 94098, GC_Extend);
(94180, 94180, GC_Extend);
(94192, 94193, GC_SpacingMark);
(113821, 113822, GC_Extend);
(113824, 113827, GC_Control);
(118528, 118573, GC_Extend);
(118576, 118598, GC_Extend);
(119141, 119141, GC_Extend);
(119142, 119142, GC_SpacingMark);
(119143, 119145, GC_Extend);
(119149, 119149, GC_SpacingMark);
(119150, 119154, GC_Extend);
(119155, 119162, GC_Control);
(119163, 119170, GC_Extend);
(119173, 119179, GC_Extend);
(119210, 119213, GC_Extend);
(119362, 119364, GC_Extend);
(121344, 121398, GC_Extend);
(121403, 121452, GC_Extend);
(121461, 121461, GC_Extend);
(121476, 121476, GC_Extend);
(121499, 121503, GC_Extend);
(121505, 121519, GC_Extend);
(122880, 122886, GC_Extend);
(122888, 122904, GC_Extend);
(122907, 122913, GC_Extend);
(122915, 122916, GC_Extend);
(122918, 122922, GC_Extend);
(123023, 123023, GC_Extend);
(123184, 123190, GC_Extend);
(123566, 123566, GC_Extend);
(123628, 123631, GC_Extend);
(124140, 124143, GC_Extend);
(125136, 125142, GC_Extend);
(125252, 125258, GC_Extend);
(126976, 127231, GC_Extended_Pictographic);
(127245, 127247, GC_Extended_Pictographic);
(127279, 127279, GC_Extended_Pictographic);
(127340, 127345, GC_Extended_Pictographic);
(127358, 127359, GC_Extended_Pictographic);
(127374, 127374, GC_Extended_Pictographic);
(127377, 127386, GC_Extended_Pictographic);
(127405, 127461, GC_Extended_Pictographic);
(127462, 127487, GC_Regional_Indicator);
(127489, 127503, GC_Extended_Pictographic);
(127514, 127514, GC_Extended_Pictographic);
(127535, 127535, GC_Extended_Pictographic);
(127538, 127546, GC_Extended_Pictographic);
(127548, 127551, GC_Extended_Pictographic);
(127561, 127994, GC_Extended_Pictographic);
(127995, 127999, GC_Extend);
(128000, 128317, GC_Extended_Pictographic);
(128326, 128591, GC_Extended_Pictographic);
(128640, 128767, GC_Extended_Pictographic);
(128884, 128895, GC_Extended_Pictographic);
(128981, 129023, GC_Extended_Pictographic);
(129036, 129039, GC_Extended_Pictographic);
(129096, 129103, GC_Extended_Pictographic);
(129114, 129119, GC_Extended_Pictographic);
(129160, 129167, GC_Extended_Pictographic);
(129198, 129279, GC_Extended_Pictographic);
(129292, 129338, GC_Extended_Pictographic);
(129340, 129349, GC_Extended_Pictographic);
(129351, 129791, GC_Extended_Pictographic);
(130048, 131069, GC_Extended_Pictographic);
(917504, 917535, GC_Control);
(917536, 917631, GC_Extend);
(917632, 917759, GC_Control);
(917760, 917999, GC_Extend);
(918000, 921599, GC_Control)].

(** [grapheme_category] of the crate unicode-segmentation. *)
Definition gcb15 (c : char) : gcb :=
  if (44032 <=? c) && (c <=? 55203) then
    if (c - 44032) mod 28 =? 0 then GC_LV else GC_LVT
  else match find (fun r => (fst (fst r) <=? c) && (c <=? snd (fst r))) gcb_ranges with
       | Some r => snd r
       | None => GC_Any
       end.

(** Extended grapheme clusters per Unicode 15.0. *)
Definition uax29_15 : brk_rule := uax29 gcb15.
