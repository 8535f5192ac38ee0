(** Generated by tools/nametables.py: the range tables of xml/xml.go, unchanged. *)
From Coq Require Import ZArith List.
Import ListNotations.
Open Scope Z_scope.

(** xml/xml.go:1339-1532 var first: (Lo, Hi, Stride) *)
Definition first_table : list (Z * Z * Z) :=
  [(58,58,1); (65,90,1); (95,95,1); (97,122,1); (192,214,1); (216,246,1);
   (248,255,1); (256,305,1); (308,318,1); (321,328,1); (330,382,1); (384,451,1);
   (461,496,1); (500,501,1); (506,535,1); (592,680,1); (699,705,1); (902,902,1);
   (904,906,1); (908,908,1); (910,929,1); (931,974,1); (976,982,1); (986,992,2);
   (994,1011,1); (1025,1036,1); (1038,1103,1); (1105,1116,1); (1118,1153,1); (1168,1220,1);
   (1223,1224,1); (1227,1228,1); (1232,1259,1); (1262,1269,1); (1272,1273,1); (1329,1366,1);
   (1369,1369,1); (1377,1414,1); (1488,1514,1); (1520,1522,1); (1569,1594,1); (1601,1610,1);
   (1649,1719,1); (1722,1726,1); (1728,1742,1); (1744,1747,1); (1749,1749,1); (1765,1766,1);
   (2309,2361,1); (2365,2365,1); (2392,2401,1); (2437,2444,1); (2447,2448,1); (2451,2472,1);
   (2474,2480,1); (2482,2482,1); (2486,2489,1); (2524,2525,1); (2527,2529,1); (2544,2545,1);
   (2565,2570,1); (2575,2576,1); (2579,2600,1); (2602,2608,1); (2610,2611,1); (2613,2614,1);
   (2616,2617,1); (2649,2652,1); (2654,2654,1); (2674,2676,1); (2693,2699,1); (2701,2701,1);
   (2703,2705,1); (2707,2728,1); (2730,2736,1); (2738,2739,1); (2741,2745,1); (2821,2828,1);
   (2831,2832,1); (2835,2856,1); (2858,2864,1); (2866,2867,1); (2870,2873,1); (2877,2877,1);
   (2908,2909,1); (2911,2913,1); (2949,2954,1); (2958,2960,1); (2962,2965,1); (2969,2970,1);
   (2972,2972,1); (2974,2975,1); (2979,2980,1); (2984,2986,1); (2990,2997,1); (2999,3001,1);
   (3077,3084,1); (3086,3088,1); (3090,3112,1); (3114,3123,1); (3125,3129,1); (3168,3169,1);
   (3205,3212,1); (3214,3216,1); (3218,3240,1); (3242,3251,1); (3253,3257,1); (3294,3294,1);
   (3296,3297,1); (3333,3340,1); (3342,3344,1); (3346,3368,1); (3370,3385,1); (3424,3425,1);
   (3585,3630,1); (3632,3632,1); (3634,3635,1); (3648,3653,1); (3713,3714,1); (3716,3716,1);
   (3719,3720,1); (3722,3725,3); (3732,3735,1); (3737,3743,1); (3745,3747,1); (3749,3751,2);
   (3754,3755,1); (3757,3758,1); (3760,3760,1); (3762,3763,1); (3773,3773,1); (3776,3780,1);
   (3904,3911,1); (3913,3945,1); (4256,4293,1); (4304,4342,1); (4352,4352,1); (4354,4355,1);
   (4357,4359,1); (4361,4361,1); (4363,4364,1); (4366,4370,1); (4412,4416,2); (4428,4432,2);
   (4436,4437,1); (4441,4441,1); (4447,4449,1); (4451,4457,2); (4461,4462,1); (4466,4467,1);
   (4526,4527,1); (4535,4536,1); (4538,4538,1); (4540,4546,1); (4601,4601,1); (7680,7835,1);
   (7840,7929,1); (7936,7957,1); (7960,7965,1); (7968,8005,1); (8008,8013,1); (8016,8023,1);
   (8029,8029,1); (8031,8061,1); (8064,8116,1); (8118,8124,1); (8126,8126,1); (8130,8132,1);
   (8134,8140,1); (8144,8147,1); (8150,8155,1); (8160,8172,1); (8178,8180,1); (8182,8188,1);
   (8486,8486,1); (8490,8491,1); (8494,8494,1); (8576,8578,1); (12295,12295,1); (12321,12329,1);
   (12353,12436,1); (12449,12538,1); (12549,12588,1); (19968,40869,1); (44032,55203,1)].

(** xml/xml.go:1534-1649 var second: (Lo, Hi, Stride) *)
Definition second_table : list (Z * Z * Z) :=
  [(45,46,1); (48,57,1); (183,183,1); (720,721,1); (768,837,1); (864,865,1);
   (903,903,1); (1155,1158,1); (1425,1441,1); (1443,1465,1); (1467,1469,1); (1471,1471,1);
   (1473,1474,1); (1611,1618,1); (1632,1641,1); (1648,1648,1); (1750,1756,1); (1757,1759,1);
   (1760,1764,1); (1767,1768,1); (1770,1773,1); (1776,1785,1); (2305,2307,1); (2364,2364,1);
   (2366,2380,1); (2381,2381,1); (2385,2388,1); (2402,2403,1); (2406,2415,1); (2433,2435,1);
   (2492,2492,1); (2494,2495,1); (2496,2500,1); (2503,2504,1); (2507,2509,1); (2519,2519,1);
   (2530,2531,1); (2534,2543,1); (2622,2623,1); (2624,2626,1); (2631,2632,1); (2635,2637,1);
   (2662,2671,1); (2672,2673,1); (2689,2691,1); (2748,2748,1); (2750,2757,1); (2759,2761,1);
   (2763,2765,1); (2790,2799,1); (2817,2819,1); (2876,2876,1); (2878,2883,1); (2887,2888,1);
   (2891,2893,1); (2902,2903,1); (2918,2927,1); (2946,2947,1); (3006,3010,1); (3014,3016,1);
   (3018,3021,1); (3031,3031,1); (3047,3055,1); (3073,3075,1); (3134,3140,1); (3142,3144,1);
   (3146,3149,1); (3157,3158,1); (3174,3183,1); (3202,3203,1); (3262,3268,1); (3270,3272,1);
   (3274,3277,1); (3285,3286,1); (3302,3311,1); (3330,3331,1); (3390,3395,1); (3398,3400,1);
   (3402,3405,1); (3415,3415,1); (3430,3439,1); (3633,3633,1); (3636,3642,1); (3654,3654,1);
   (3655,3662,1); (3664,3673,1); (3761,3761,1); (3764,3769,1); (3771,3772,1); (3782,3782,1);
   (3784,3789,1); (3792,3801,1); (3864,3865,1); (3872,3881,1); (3893,3897,2); (3902,3903,1);
   (3953,3972,1); (3974,3979,1); (3984,3989,1); (3991,3991,1); (3993,4013,1); (4017,4023,1);
   (4025,4025,1); (8400,8412,1); (12330,12335,1); (12337,12341,1); (12441,12442,1); (12445,12446,1);
   (12540,12542,1)].
