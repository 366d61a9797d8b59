(** GENERATED by tools/gen_kin.py from src/kinematics/robots/mini_cheetah/*.cpp; do not edit.
    One definition per function: its assignments to p_output1, in program order, as (cell,
    value).  Cos/Sin/Power macros as in those files; decimal literals exact. *)
From Coq Require Import Reals List.
Import ListNotations.
Local Open Scope R_scope.

(** H_Body_to_FrontLeftFoot.cpp:54-135, 4x4 *)
Definition out_H_Body_to_FrontLeftFoot (q : nat -> R) : list (nat * R) :=
  let t682 := cos (q 5%nat) in
  let t697 := sin (q 4%nat) in
  let t668 := cos (q 4%nat) in
  let t703 := sin (q 3%nat) in
  let t698 := sin (q 5%nat) in
  let t718 := cos (q 3%nat) in
  let t754 := -1 * t682 in
  let t756 := 1 + t754 in
  let t735 := -1 * t682 * t697 in
  let t739 := -1 * t668 * t698 in
  let t694 := t668 * t682 in
  let t701 := -1 * t697 * t698 in
  let t757 := (19 / 100) * t756 in
  let t759 := -(209 / 1000) * t698 in
  let t761 := 0 + t757 + t759 in
  let t763 := -(209 / 1000) * t756 in
  let t765 := -(19 / 100) * t698 in
  let t766 := 0 + t763 + t765 in
  let t711 := -1 * t682 * t703 * t697 in
  let t715 := -1 * t668 * t703 * t698 in
  let t742 := -1 * t668 * t682 * t703 in
  let t744 := t703 * t697 * t698 in
  let t777 := -(19 / 100) * t697 in
  let t778 := 0 + t777 in
  let t721 := t718 * t682 * t697 in
  let t722 := t718 * t668 * t698 in
  let t746 := t718 * t668 * t682 in
  let t749 := -1 * t718 * t697 * t698 in
  [(0%nat, 0 + t694 + t701);
   (1%nat, 0 + t711 + t715);
   (2%nat, 0 + t721 + t722);
   (3%nat, 0);
   (4%nat, 0);
   (5%nat, 0 + t718);
   (6%nat, 0 + t703);
   (7%nat, 0);
   (8%nat, 0 + t735 + t739);
   (9%nat, 0 + t742 + t744);
   (10%nat, 0 + t746 + t749);
   (11%nat, 0);
   (12%nat, 0 + (19 / 100) * (1 - 1 * t668) + (19 / 100) * (t694 + t701) - (4165 / 10000) * (t735 + t739) + t668 * t761 - 1 * t697 * t766);
   (13%nat, 0 + (19 / 100) * (t711 + t715) + (49 / 1000) * (1 - 1 * t718) + (111 / 1000) * t718 - (4165 / 10000) * (t742 + t744) - 1 * t697 * t703 * t761 - 1 * t668 * t703 * t766 - 1 * t703 * t778);
   (14%nat, 0 + (62 / 1000) * t703 + (19 / 100) * (t721 + t722) - (4165 / 10000) * (t746 + t749) + t697 * t718 * t761 + t668 * t718 * t766 + t718 * t778);
   (15%nat, 1)].

(** H_Body_to_FrontRightFoot.cpp:54-135, 4x4 *)
Definition out_H_Body_to_FrontRightFoot (q : nat -> R) : list (nat * R) :=
  let t810 := cos (q 2%nat) in
  let t820 := sin (q 1%nat) in
  let t794 := cos (q 1%nat) in
  let t824 := sin (q 0%nat) in
  let t821 := sin (q 2%nat) in
  let t836 := cos (q 0%nat) in
  let t872 := -1 * t810 in
  let t874 := 1 + t872 in
  let t853 := -1 * t810 * t820 in
  let t857 := -1 * t794 * t821 in
  let t817 := t794 * t810 in
  let t822 := -1 * t820 * t821 in
  let t875 := (19 / 100) * t874 in
  let t877 := -(209 / 1000) * t821 in
  let t879 := 0 + t875 + t877 in
  let t881 := -(209 / 1000) * t874 in
  let t883 := -(19 / 100) * t821 in
  let t884 := 0 + t881 + t883 in
  let t831 := -1 * t810 * t824 * t820 in
  let t834 := -1 * t794 * t824 * t821 in
  let t860 := -1 * t794 * t810 * t824 in
  let t862 := t824 * t820 * t821 in
  let t895 := -(19 / 100) * t820 in
  let t896 := 0 + t895 in
  let t839 := t836 * t810 * t820 in
  let t840 := t836 * t794 * t821 in
  let t864 := t836 * t794 * t810 in
  let t867 := -1 * t836 * t820 * t821 in
  [(0%nat, 0 + t817 + t822);
   (1%nat, 0 + t831 + t834);
   (2%nat, 0 + t839 + t840);
   (3%nat, 0);
   (4%nat, 0);
   (5%nat, 0 + t836);
   (6%nat, 0 + t824);
   (7%nat, 0);
   (8%nat, 0 + t853 + t857);
   (9%nat, 0 + t860 + t862);
   (10%nat, 0 + t864 + t867);
   (11%nat, 0);
   (12%nat, 0 + (19 / 100) * (1 - 1 * t794) + (19 / 100) * (t817 + t822) - (4165 / 10000) * (t853 + t857) + t794 * t879 - 1 * t820 * t884);
   (13%nat, 0 + (19 / 100) * (t831 + t834) - (49 / 1000) * (1 - 1 * t836) - (111 / 1000) * t836 - (4165 / 10000) * (t860 + t862) - 1 * t820 * t824 * t879 - 1 * t794 * t824 * t884 - 1 * t824 * t896);
   (14%nat, 0 - (62 / 1000) * t824 + (19 / 100) * (t839 + t840) - (4165 / 10000) * (t864 + t867) + t820 * t836 * t879 + t794 * t836 * t884 + t836 * t896);
   (15%nat, 1)].

(** H_Body_to_HindLeftFoot.cpp:54-135, 4x4 *)
Definition out_H_Body_to_HindLeftFoot (q : nat -> R) : list (nat * R) :=
  let t928 := cos (q 11%nat) in
  let t938 := sin (q 10%nat) in
  let t912 := cos (q 10%nat) in
  let t942 := sin (q 9%nat) in
  let t939 := sin (q 11%nat) in
  let t954 := cos (q 9%nat) in
  let t990 := -1 * t928 in
  let t992 := 1 + t990 in
  let t971 := -1 * t928 * t938 in
  let t975 := -1 * t912 * t939 in
  let t935 := t912 * t928 in
  let t940 := -1 * t938 * t939 in
  let t993 := -(19 / 100) * t992 in
  let t995 := -(209 / 1000) * t939 in
  let t997 := 0 + t993 + t995 in
  let t999 := -(209 / 1000) * t992 in
  let t1001 := (19 / 100) * t939 in
  let t1002 := 0 + t999 + t1001 in
  let t949 := -1 * t928 * t942 * t938 in
  let t952 := -1 * t912 * t942 * t939 in
  let t978 := -1 * t912 * t928 * t942 in
  let t980 := t942 * t938 * t939 in
  let t1013 := (19 / 100) * t938 in
  let t1014 := 0 + t1013 in
  let t957 := t954 * t928 * t938 in
  let t958 := t954 * t912 * t939 in
  let t982 := t954 * t912 * t928 in
  let t985 := -1 * t954 * t938 * t939 in
  [(0%nat, 0 + t935 + t940);
   (1%nat, 0 + t949 + t952);
   (2%nat, 0 + t957 + t958);
   (3%nat, 0);
   (4%nat, 0);
   (5%nat, 0 + t954);
   (6%nat, 0 + t942);
   (7%nat, 0);
   (8%nat, 0 + t971 + t975);
   (9%nat, 0 + t978 + t980);
   (10%nat, 0 + t982 + t985);
   (11%nat, 0);
   (12%nat, 0 - (19 / 100) * (1 - 1 * t912) - 1 * t1002 * t938 - (19 / 100) * (t935 + t940) - (4165 / 10000) * (t971 + t975) + t912 * t997);
   (13%nat, 0 - 1 * t1014 * t942 - 1 * t1002 * t912 * t942 - (19 / 100) * (t949 + t952) + (49 / 1000) * (1 - 1 * t954) + (111 / 1000) * t954 - (4165 / 10000) * (t978 + t980) - 1 * t938 * t942 * t997);
   (14%nat, 0 + (62 / 1000) * t942 + t1014 * t954 + t1002 * t912 * t954 - (19 / 100) * (t957 + t958) - (4165 / 10000) * (t982 + t985) + t938 * t954 * t997);
   (15%nat, 1)].

(** H_Body_to_HindRightFoot.cpp:54-136, 4x4 *)
Definition out_H_Body_to_HindRightFoot (q : nat -> R) : list (nat * R) :=
  let t1046 := cos (q 8%nat) in
  let t1056 := sin (q 7%nat) in
  let t1030 := cos (q 7%nat) in
  let t1060 := sin (q 6%nat) in
  let t1057 := sin (q 8%nat) in
  let t1072 := cos (q 6%nat) in
  let t1108 := -1 * t1046 in
  let t1110 := 1 + t1108 in
  let t1089 := -1 * t1046 * t1056 in
  let t1093 := -1 * t1030 * t1057 in
  let t1053 := t1030 * t1046 in
  let t1058 := -1 * t1056 * t1057 in
  let t1111 := -(19 / 100) * t1110 in
  let t1113 := -(209 / 1000) * t1057 in
  let t1115 := 0 + t1111 + t1113 in
  let t1117 := -(209 / 1000) * t1110 in
  let t1119 := (19 / 100) * t1057 in
  let t1120 := 0 + t1117 + t1119 in
  let t1067 := -1 * t1046 * t1060 * t1056 in
  let t1070 := -1 * t1030 * t1060 * t1057 in
  let t1096 := -1 * t1030 * t1046 * t1060 in
  let t1098 := t1060 * t1056 * t1057 in
  let t1131 := (19 / 100) * t1056 in
  let t1132 := 0 + t1131 in
  let t1075 := t1072 * t1046 * t1056 in
  let t1076 := t1072 * t1030 * t1057 in
  let t1100 := t1072 * t1030 * t1046 in
  let t1103 := -1 * t1072 * t1056 * t1057 in
  [(0%nat, 0 + t1053 + t1058);
   (1%nat, 0 + t1067 + t1070);
   (2%nat, 0 + t1075 + t1076);
   (3%nat, 0);
   (4%nat, 0);
   (5%nat, 0 + t1072);
   (6%nat, 0 + t1060);
   (7%nat, 0);
   (8%nat, 0 + t1089 + t1093);
   (9%nat, 0 + t1096 + t1098);
   (10%nat, 0 + t1100 + t1103);
   (11%nat, 0);
   (12%nat, 0 - (19 / 100) * (1 - 1 * t1030) - (19 / 100) * (t1053 + t1058) - (4165 / 10000) * (t1089 + t1093) + t1030 * t1115 - 1 * t1056 * t1120);
   (13%nat, 0 - (19 / 100) * (t1067 + t1070) - (49 / 1000) * (1 - 1 * t1072) - (111 / 1000) * t1072 - (4165 / 10000) * (t1096 + t1098) - 1 * t1056 * t1060 * t1115 - 1 * t1030 * t1060 * t1120 - 1 * t1060 * t1132);
   (14%nat, 0 - (62 / 1000) * t1060 - (19 / 100) * (t1075 + t1076) - (4165 / 10000) * (t1100 + t1103) + t1056 * t1072 * t1115 + t1030 * t1072 * t1120 + t1072 * t1132);
   (15%nat, 1)].

(** Jb_Body_to_FrontLeftFoot.cpp:54-194, 6x12 *)
Definition out_Jb_Body_to_FrontLeftFoot (q : nat -> R) : list (nat * R) :=
  let t1893 := cos (q 5%nat) in
  let t1898 := sin (q 4%nat) in
  let t1879 := cos (q 4%nat) in
  let t1899 := sin (q 5%nat) in
  let t1907 := -1 * t1893 * t1898 in
  let t1908 := -1 * t1879 * t1899 in
  let t1910 := 0 + t1907 + t1908 in
  let t1920 := -1 * t1893 in
  let t1923 := 1 + t1920 in
  let t1914 := t1893 * t1898 in
  let t1915 := t1879 * t1899 in
  let t1916 := 0 + t1914 + t1915 in
  let t1925 := -(209 / 1000) * t1923 in
  let t1927 := -(4165 / 10000) * t1893 in
  let t1928 := 0 + t1925 + t1927 in
  let t1931 := (19 / 100) * t1923 in
  let t1932 := (19 / 100) * t1893 in
  let t1933 := (2075 / 10000) * t1899 in
  let t1934 := 0 + t1931 + t1932 + t1933 in
  let t1897 := t1879 * t1893 in
  let t1901 := -1 * t1898 * t1899 in
  let t1902 := 0 + t1897 + t1901 in
  let t1938 := -1 * t1879 in
  let t1939 := 1 + t1938 in
  let t1940 := (19 / 100) * t1939 in
  let t1941 := -1 * t1928 * t1898 in
  let t1942 := t1879 * t1934 in
  let t1943 := 0 + t1940 + t1941 + t1942 in
  let t1929 := t1879 * t1928 in
  let t1930 := -(19 / 100) * t1898 in
  let t1935 := t1898 * t1934 in
  let t1936 := 0 + t1929 + t1930 + t1935 in
  [(0%nat, 0);
   (1%nat, 0);
   (2%nat, 0);
   (3%nat, 0);
   (4%nat, 0);
   (5%nat, 0);
   (6%nat, 0);
   (7%nat, 0);
   (8%nat, 0);
   (9%nat, 0);
   (10%nat, 0);
   (11%nat, 0);
   (12%nat, 0);
   (13%nat, 0);
   (14%nat, 0);
   (15%nat, 0);
   (16%nat, 0);
   (17%nat, 0);
   (18%nat, t1902);
   (19%nat, 0);
   (20%nat, t1910);
   (21%nat, 0 - (111 / 1000) * t1910 - (49 / 1000) * t1916);
   (22%nat, 0 + t1910 * (0 + t1916 * t1936 + t1902 * t1943) + t1902 * (0 - 1 * t1902 * t1936 - 1 * t1910 * t1943));
   (23%nat, 0 + (62 / 1000) * t1902);
   (24%nat, 0);
   (25%nat, -1);
   (26%nat, 0);
   (27%nat, 0 - (19 / 100) * t1899 - 1 * t1893 * t1928 + t1899 * t1934);
   (28%nat, 0);
   (29%nat, 0 - (19 / 100) * t1893 + t1899 * t1928 + t1893 * t1934);
   (30%nat, 0);
   (31%nat, -1);
   (32%nat, 0);
   (33%nat, (2075 / 10000));
   (34%nat, 0);
   (35%nat, 0);
   (36%nat, 0);
   (37%nat, 0);
   (38%nat, 0);
   (39%nat, 0);
   (40%nat, 0);
   (41%nat, 0);
   (42%nat, 0);
   (43%nat, 0);
   (44%nat, 0);
   (45%nat, 0);
   (46%nat, 0);
   (47%nat, 0);
   (48%nat, 0);
   (49%nat, 0);
   (50%nat, 0);
   (51%nat, 0);
   (52%nat, 0);
   (53%nat, 0);
   (54%nat, 0);
   (55%nat, 0);
   (56%nat, 0);
   (57%nat, 0);
   (58%nat, 0);
   (59%nat, 0);
   (60%nat, 0);
   (61%nat, 0);
   (62%nat, 0);
   (63%nat, 0);
   (64%nat, 0);
   (65%nat, 0);
   (66%nat, 0);
   (67%nat, 0);
   (68%nat, 0);
   (69%nat, 0);
   (70%nat, 0);
   (71%nat, 0)].

(** Jb_Body_to_FrontRightFoot.cpp:54-194, 6x12 *)
Definition out_Jb_Body_to_FrontRightFoot (q : nat -> R) : list (nat * R) :=
  let t2013 := cos (q 2%nat) in
  let t2016 := sin (q 1%nat) in
  let t1997 := cos (q 1%nat) in
  let t2017 := sin (q 2%nat) in
  let t2025 := -1 * t2013 * t2016 in
  let t2026 := -1 * t1997 * t2017 in
  let t2028 := 0 + t2025 + t2026 in
  let t2038 := -1 * t2013 in
  let t2041 := 1 + t2038 in
  let t2032 := t2013 * t2016 in
  let t2033 := t1997 * t2017 in
  let t2034 := 0 + t2032 + t2033 in
  let t2043 := -(209 / 1000) * t2041 in
  let t2045 := -(4165 / 10000) * t2013 in
  let t2046 := 0 + t2043 + t2045 in
  let t2049 := (19 / 100) * t2041 in
  let t2050 := (19 / 100) * t2013 in
  let t2051 := (2075 / 10000) * t2017 in
  let t2052 := 0 + t2049 + t2050 + t2051 in
  let t2015 := t1997 * t2013 in
  let t2019 := -1 * t2016 * t2017 in
  let t2020 := 0 + t2015 + t2019 in
  let t2056 := -1 * t1997 in
  let t2057 := 1 + t2056 in
  let t2058 := (19 / 100) * t2057 in
  let t2059 := -1 * t2046 * t2016 in
  let t2060 := t1997 * t2052 in
  let t2061 := 0 + t2058 + t2059 + t2060 in
  let t2047 := t1997 * t2046 in
  let t2048 := -(19 / 100) * t2016 in
  let t2053 := t2016 * t2052 in
  let t2054 := 0 + t2047 + t2048 + t2053 in
  [(0%nat, t2020);
   (1%nat, 0);
   (2%nat, t2028);
   (3%nat, 0 + (111 / 1000) * t2028 + (49 / 1000) * t2034);
   (4%nat, 0 + t2028 * (0 + t2034 * t2054 + t2020 * t2061) + t2020 * (0 - 1 * t2020 * t2054 - 1 * t2028 * t2061));
   (5%nat, 0 - (62 / 1000) * t2020);
   (6%nat, 0);
   (7%nat, -1);
   (8%nat, 0);
   (9%nat, 0 - (19 / 100) * t2017 - 1 * t2013 * t2046 + t2017 * t2052);
   (10%nat, 0);
   (11%nat, 0 - (19 / 100) * t2013 + t2017 * t2046 + t2013 * t2052);
   (12%nat, 0);
   (13%nat, -1);
   (14%nat, 0);
   (15%nat, (2075 / 10000));
   (16%nat, 0);
   (17%nat, 0);
   (18%nat, 0);
   (19%nat, 0);
   (20%nat, 0);
   (21%nat, 0);
   (22%nat, 0);
   (23%nat, 0);
   (24%nat, 0);
   (25%nat, 0);
   (26%nat, 0);
   (27%nat, 0);
   (28%nat, 0);
   (29%nat, 0);
   (30%nat, 0);
   (31%nat, 0);
   (32%nat, 0);
   (33%nat, 0);
   (34%nat, 0);
   (35%nat, 0);
   (36%nat, 0);
   (37%nat, 0);
   (38%nat, 0);
   (39%nat, 0);
   (40%nat, 0);
   (41%nat, 0);
   (42%nat, 0);
   (43%nat, 0);
   (44%nat, 0);
   (45%nat, 0);
   (46%nat, 0);
   (47%nat, 0);
   (48%nat, 0);
   (49%nat, 0);
   (50%nat, 0);
   (51%nat, 0);
   (52%nat, 0);
   (53%nat, 0);
   (54%nat, 0);
   (55%nat, 0);
   (56%nat, 0);
   (57%nat, 0);
   (58%nat, 0);
   (59%nat, 0);
   (60%nat, 0);
   (61%nat, 0);
   (62%nat, 0);
   (63%nat, 0);
   (64%nat, 0);
   (65%nat, 0);
   (66%nat, 0);
   (67%nat, 0);
   (68%nat, 0);
   (69%nat, 0);
   (70%nat, 0);
   (71%nat, 0)].

(** Jb_Body_to_HindLeftFoot.cpp:54-194, 6x12 *)
Definition out_Jb_Body_to_HindLeftFoot (q : nat -> R) : list (nat * R) :=
  let t2131 := cos (q 11%nat) in
  let t2134 := sin (q 10%nat) in
  let t2115 := cos (q 10%nat) in
  let t2135 := sin (q 11%nat) in
  let t2143 := -1 * t2131 * t2134 in
  let t2144 := -1 * t2115 * t2135 in
  let t2146 := 0 + t2143 + t2144 in
  let t2156 := -1 * t2131 in
  let t2159 := 1 + t2156 in
  let t2150 := t2131 * t2134 in
  let t2151 := t2115 * t2135 in
  let t2152 := 0 + t2150 + t2151 in
  let t2161 := -(209 / 1000) * t2159 in
  let t2163 := -(4165 / 10000) * t2131 in
  let t2164 := 0 + t2161 + t2163 in
  let t2167 := -(19 / 100) * t2159 in
  let t2168 := -(19 / 100) * t2131 in
  let t2169 := (2075 / 10000) * t2135 in
  let t2170 := 0 + t2167 + t2168 + t2169 in
  let t2133 := t2115 * t2131 in
  let t2137 := -1 * t2134 * t2135 in
  let t2138 := 0 + t2133 + t2137 in
  let t2174 := -1 * t2115 in
  let t2175 := 1 + t2174 in
  let t2176 := -(19 / 100) * t2175 in
  let t2177 := -1 * t2164 * t2134 in
  let t2178 := t2115 * t2170 in
  let t2179 := 0 + t2176 + t2177 + t2178 in
  let t2165 := t2115 * t2164 in
  let t2166 := (19 / 100) * t2134 in
  let t2171 := t2134 * t2170 in
  let t2172 := 0 + t2165 + t2166 + t2171 in
  [(0%nat, 0);
   (1%nat, 0);
   (2%nat, 0);
   (3%nat, 0);
   (4%nat, 0);
   (5%nat, 0);
   (6%nat, 0);
   (7%nat, 0);
   (8%nat, 0);
   (9%nat, 0);
   (10%nat, 0);
   (11%nat, 0);
   (12%nat, 0);
   (13%nat, 0);
   (14%nat, 0);
   (15%nat, 0);
   (16%nat, 0);
   (17%nat, 0);
   (18%nat, 0);
   (19%nat, 0);
   (20%nat, 0);
   (21%nat, 0);
   (22%nat, 0);
   (23%nat, 0);
   (24%nat, 0);
   (25%nat, 0);
   (26%nat, 0);
   (27%nat, 0);
   (28%nat, 0);
   (29%nat, 0);
   (30%nat, 0);
   (31%nat, 0);
   (32%nat, 0);
   (33%nat, 0);
   (34%nat, 0);
   (35%nat, 0);
   (36%nat, 0);
   (37%nat, 0);
   (38%nat, 0);
   (39%nat, 0);
   (40%nat, 0);
   (41%nat, 0);
   (42%nat, 0);
   (43%nat, 0);
   (44%nat, 0);
   (45%nat, 0);
   (46%nat, 0);
   (47%nat, 0);
   (48%nat, 0);
   (49%nat, 0);
   (50%nat, 0);
   (51%nat, 0);
   (52%nat, 0);
   (53%nat, 0);
   (54%nat, t2138);
   (55%nat, 0);
   (56%nat, t2146);
   (57%nat, 0 - (111 / 1000) * t2146 - (49 / 1000) * t2152);
   (58%nat, 0 + t2146 * (0 + t2152 * t2172 + t2138 * t2179) + t2138 * (0 - 1 * t2138 * t2172 - 1 * t2146 * t2179));
   (59%nat, 0 + (62 / 1000) * t2138);
   (60%nat, 0);
   (61%nat, -1);
   (62%nat, 0);
   (63%nat, 0 + (19 / 100) * t2135 - 1 * t2131 * t2164 + t2135 * t2170);
   (64%nat, 0);
   (65%nat, 0 + (19 / 100) * t2131 + t2135 * t2164 + t2131 * t2170);
   (66%nat, 0);
   (67%nat, -1);
   (68%nat, 0);
   (69%nat, (2075 / 10000));
   (70%nat, 0);
   (71%nat, 0)].

(** Jb_Body_to_HindRightFoot.cpp:54-194, 6x12 *)
Definition out_Jb_Body_to_HindRightFoot (q : nat -> R) : list (nat * R) :=
  let t2249 := cos (q 8%nat) in
  let t2252 := sin (q 7%nat) in
  let t2233 := cos (q 7%nat) in
  let t2253 := sin (q 8%nat) in
  let t2261 := -1 * t2249 * t2252 in
  let t2262 := -1 * t2233 * t2253 in
  let t2264 := 0 + t2261 + t2262 in
  let t2274 := -1 * t2249 in
  let t2277 := 1 + t2274 in
  let t2268 := t2249 * t2252 in
  let t2269 := t2233 * t2253 in
  let t2270 := 0 + t2268 + t2269 in
  let t2279 := -(209 / 1000) * t2277 in
  let t2281 := -(4165 / 10000) * t2249 in
  let t2282 := 0 + t2279 + t2281 in
  let t2285 := -(19 / 100) * t2277 in
  let t2286 := -(19 / 100) * t2249 in
  let t2287 := (2075 / 10000) * t2253 in
  let t2288 := 0 + t2285 + t2286 + t2287 in
  let t2251 := t2233 * t2249 in
  let t2255 := -1 * t2252 * t2253 in
  let t2256 := 0 + t2251 + t2255 in
  let t2292 := -1 * t2233 in
  let t2293 := 1 + t2292 in
  let t2294 := -(19 / 100) * t2293 in
  let t2295 := -1 * t2282 * t2252 in
  let t2296 := t2233 * t2288 in
  let t2297 := 0 + t2294 + t2295 + t2296 in
  let t2283 := t2233 * t2282 in
  let t2284 := (19 / 100) * t2252 in
  let t2289 := t2252 * t2288 in
  let t2290 := 0 + t2283 + t2284 + t2289 in
  [(0%nat, 0);
   (1%nat, 0);
   (2%nat, 0);
   (3%nat, 0);
   (4%nat, 0);
   (5%nat, 0);
   (6%nat, 0);
   (7%nat, 0);
   (8%nat, 0);
   (9%nat, 0);
   (10%nat, 0);
   (11%nat, 0);
   (12%nat, 0);
   (13%nat, 0);
   (14%nat, 0);
   (15%nat, 0);
   (16%nat, 0);
   (17%nat, 0);
   (18%nat, 0);
   (19%nat, 0);
   (20%nat, 0);
   (21%nat, 0);
   (22%nat, 0);
   (23%nat, 0);
   (24%nat, 0);
   (25%nat, 0);
   (26%nat, 0);
   (27%nat, 0);
   (28%nat, 0);
   (29%nat, 0);
   (30%nat, 0);
   (31%nat, 0);
   (32%nat, 0);
   (33%nat, 0);
   (34%nat, 0);
   (35%nat, 0);
   (36%nat, t2256);
   (37%nat, 0);
   (38%nat, t2264);
   (39%nat, 0 + (111 / 1000) * t2264 + (49 / 1000) * t2270);
   (40%nat, 0 + t2264 * (0 + t2270 * t2290 + t2256 * t2297) + t2256 * (0 - 1 * t2256 * t2290 - 1 * t2264 * t2297));
   (41%nat, 0 - (62 / 1000) * t2256);
   (42%nat, 0);
   (43%nat, -1);
   (44%nat, 0);
   (45%nat, 0 + (19 / 100) * t2253 - 1 * t2249 * t2282 + t2253 * t2288);
   (46%nat, 0);
   (47%nat, 0 + (19 / 100) * t2249 + t2253 * t2282 + t2249 * t2288);
   (48%nat, 0);
   (49%nat, -1);
   (50%nat, 0);
   (51%nat, (2075 / 10000));
   (52%nat, 0);
   (53%nat, 0);
   (54%nat, 0);
   (55%nat, 0);
   (56%nat, 0);
   (57%nat, 0);
   (58%nat, 0);
   (59%nat, 0);
   (60%nat, 0);
   (61%nat, 0);
   (62%nat, 0);
   (63%nat, 0);
   (64%nat, 0);
   (65%nat, 0);
   (66%nat, 0);
   (67%nat, 0);
   (68%nat, 0);
   (69%nat, 0);
   (70%nat, 0);
   (71%nat, 0)].

(** Jp_Body_to_FrontLeftFoot.cpp:54-191, 3x12 *)
Definition out_Jp_Body_to_FrontLeftFoot (q : nat -> R) : list (nat * R) :=
  let t780 := cos (q 3%nat) in
  let t786 := sin (q 4%nat) in
  let t795 := cos (q 5%nat) in
  let t798 := -1 * t795 in
  let t802 := 1 + t798 in
  let t805 := sin (q 5%nat) in
  let t809 := cos (q 4%nat) in
  let t752 := sin (q 3%nat) in
  let t788 := -(19 / 100) * t786 in
  let t791 := 0 + t788 in
  let t804 := (19 / 100) * t802 in
  let t806 := -(209 / 1000) * t805 in
  let t807 := 0 + t804 + t806 in
  let t810 := -(209 / 1000) * t802 in
  let t811 := -(19 / 100) * t805 in
  let t812 := 0 + t810 + t811 in
  let t837 := -1 * t809 * t795 * t752 in
  let t838 := t752 * t786 * t805 in
  let t839 := t837 + t838 in
  let t814 := -1 * t780 * t795 * t786 in
  let t815 := -1 * t780 * t809 * t805 in
  let t816 := t814 + t815 in
  let t847 := -1 * t795 * t786 in
  let t848 := -1 * t809 * t805 in
  let t850 := t847 + t848 in
  let t851 := (19 / 100) * t850 in
  let t852 := -1 * t809 * t795 in
  let t853 := t786 * t805 in
  let t855 := t852 + t853 in
  let t856 := -(4165 / 10000) * t855 in
  let t877 := -(19 / 100) * t795 in
  let t878 := t877 + t806 in
  let t880 := -(209 / 1000) * t795 in
  let t881 := (19 / 100) * t805 in
  let t882 := t880 + t881 in
  let t862 := t795 * t752 * t786 in
  let t863 := t809 * t752 * t805 in
  let t864 := t862 + t863 in
  let t865 := -(4165 / 10000) * t864 in
  let t866 := (19 / 100) * t839 in
  let t871 := -(4165 / 10000) * t816 in
  let t872 := t780 * t809 * t795 in
  let t873 := -1 * t780 * t786 * t805 in
  let t874 := t872 + t873 in
  let t875 := (19 / 100) * t874 in
  [(0%nat, 0);
   (1%nat, 0);
   (2%nat, 0);
   (3%nat, 0);
   (4%nat, 0);
   (5%nat, 0);
   (6%nat, 0);
   (7%nat, 0);
   (8%nat, 0);
   (9%nat, 0);
   (10%nat, -(62 / 1000) * t752 - 1 * t780 * t791 - 1 * t780 * t786 * t807 - (4165 / 10000) * (t780 * t786 * t805 - 1 * t780 * t795 * t809) - 1 * t780 * t809 * t812 + (19 / 100) * t816);
   (11%nat, (62 / 1000) * t780 - 1 * t752 * t791 - 1 * t752 * t786 * t807 + (19 / 100) * (-1 * t752 * t786 * t795 - 1 * t752 * t805 * t809) - 1 * t752 * t809 * t812 - (4165 / 10000) * t839);
   (12%nat, (19 / 100) * t786 - 1 * t786 * t807 - 1 * t809 * t812 + t851 + t856);
   (13%nat, (19 / 100) * t752 * t809 - 1 * t752 * t807 * t809 + t752 * t786 * t812 + t865 + t866);
   (14%nat, -(19 / 100) * t780 * t809 + t780 * t807 * t809 - 1 * t780 * t786 * t812 + t871 + t875);
   (15%nat, t851 + t856 - 1 * t786 * t878 + t809 * t882);
   (16%nat, t865 + t866 - 1 * t752 * t809 * t878 - 1 * t752 * t786 * t882);
   (17%nat, t871 + t875 + t780 * t809 * t878 + t780 * t786 * t882);
   (18%nat, 0);
   (19%nat, 0);
   (20%nat, 0);
   (21%nat, 0);
   (22%nat, 0);
   (23%nat, 0);
   (24%nat, 0);
   (25%nat, 0);
   (26%nat, 0);
   (27%nat, 0);
   (28%nat, 0);
   (29%nat, 0);
   (30%nat, 0);
   (31%nat, 0);
   (32%nat, 0);
   (33%nat, 0);
   (34%nat, 0);
   (35%nat, 0)].

(** Jp_Body_to_FrontRightFoot.cpp:54-191, 3x12 *)
Definition out_Jp_Body_to_FrontRightFoot (q : nat -> R) : list (nat * R) :=
  let t898 := cos (q 0%nat) in
  let t904 := sin (q 1%nat) in
  let t913 := cos (q 2%nat) in
  let t916 := -1 * t913 in
  let t920 := 1 + t916 in
  let t923 := sin (q 2%nat) in
  let t927 := cos (q 1%nat) in
  let t870 := sin (q 0%nat) in
  let t906 := -(19 / 100) * t904 in
  let t909 := 0 + t906 in
  let t922 := (19 / 100) * t920 in
  let t924 := -(209 / 1000) * t923 in
  let t925 := 0 + t922 + t924 in
  let t928 := -(209 / 1000) * t920 in
  let t929 := -(19 / 100) * t923 in
  let t930 := 0 + t928 + t929 in
  let t955 := -1 * t927 * t913 * t870 in
  let t956 := t870 * t904 * t923 in
  let t957 := t955 + t956 in
  let t932 := -1 * t898 * t913 * t904 in
  let t933 := -1 * t898 * t927 * t923 in
  let t934 := t932 + t933 in
  let t965 := -1 * t913 * t904 in
  let t966 := -1 * t927 * t923 in
  let t968 := t965 + t966 in
  let t969 := (19 / 100) * t968 in
  let t970 := -1 * t927 * t913 in
  let t971 := t904 * t923 in
  let t973 := t970 + t971 in
  let t974 := -(4165 / 10000) * t973 in
  let t995 := -(19 / 100) * t913 in
  let t996 := t995 + t924 in
  let t998 := -(209 / 1000) * t913 in
  let t999 := (19 / 100) * t923 in
  let t1000 := t998 + t999 in
  let t980 := t913 * t870 * t904 in
  let t981 := t927 * t870 * t923 in
  let t982 := t980 + t981 in
  let t983 := -(4165 / 10000) * t982 in
  let t984 := (19 / 100) * t957 in
  let t989 := -(4165 / 10000) * t934 in
  let t990 := t898 * t927 * t913 in
  let t991 := -1 * t898 * t904 * t923 in
  let t992 := t990 + t991 in
  let t993 := (19 / 100) * t992 in
  [(0%nat, 0);
   (1%nat, (62 / 1000) * t870 - 1 * t898 * t909 - 1 * t898 * t904 * t925 - (4165 / 10000) * (t898 * t904 * t923 - 1 * t898 * t913 * t927) - 1 * t898 * t927 * t930 + (19 / 100) * t934);
   (2%nat, -(62 / 1000) * t898 - 1 * t870 * t909 - 1 * t870 * t904 * t925 + (19 / 100) * (-1 * t870 * t904 * t913 - 1 * t870 * t923 * t927) - 1 * t870 * t927 * t930 - (4165 / 10000) * t957);
   (3%nat, (19 / 100) * t904 - 1 * t904 * t925 - 1 * t927 * t930 + t969 + t974);
   (4%nat, (19 / 100) * t870 * t927 - 1 * t870 * t925 * t927 + t870 * t904 * t930 + t983 + t984);
   (5%nat, -(19 / 100) * t898 * t927 + t898 * t925 * t927 - 1 * t898 * t904 * t930 + t989 + t993);
   (6%nat, t1000 * t927 + t969 + t974 - 1 * t904 * t996);
   (7%nat, -1 * t1000 * t870 * t904 + t983 + t984 - 1 * t870 * t927 * t996);
   (8%nat, t1000 * t898 * t904 + t989 + t993 + t898 * t927 * t996);
   (9%nat, 0);
   (10%nat, 0);
   (11%nat, 0);
   (12%nat, 0);
   (13%nat, 0);
   (14%nat, 0);
   (15%nat, 0);
   (16%nat, 0);
   (17%nat, 0);
   (18%nat, 0);
   (19%nat, 0);
   (20%nat, 0);
   (21%nat, 0);
   (22%nat, 0);
   (23%nat, 0);
   (24%nat, 0);
   (25%nat, 0);
   (26%nat, 0);
   (27%nat, 0);
   (28%nat, 0);
   (29%nat, 0);
   (30%nat, 0);
   (31%nat, 0);
   (32%nat, 0);
   (33%nat, 0);
   (34%nat, 0);
   (35%nat, 0)].

(** Jp_Body_to_HindLeftFoot.cpp:54-193, 3x12 *)
Definition out_Jp_Body_to_HindLeftFoot (q : nat -> R) : list (nat * R) :=
  let t1016 := cos (q 9%nat) in
  let t1022 := sin (q 10%nat) in
  let t1031 := cos (q 11%nat) in
  let t1034 := -1 * t1031 in
  let t1038 := 1 + t1034 in
  let t1041 := sin (q 11%nat) in
  let t1045 := cos (q 10%nat) in
  let t988 := sin (q 9%nat) in
  let t1024 := (19 / 100) * t1022 in
  let t1027 := 0 + t1024 in
  let t1040 := -(19 / 100) * t1038 in
  let t1042 := -(209 / 1000) * t1041 in
  let t1043 := 0 + t1040 + t1042 in
  let t1046 := -(209 / 1000) * t1038 in
  let t1047 := (19 / 100) * t1041 in
  let t1048 := 0 + t1046 + t1047 in
  let t1073 := -1 * t1045 * t1031 * t988 in
  let t1074 := t988 * t1022 * t1041 in
  let t1075 := t1073 + t1074 in
  let t1050 := -1 * t1016 * t1031 * t1022 in
  let t1051 := -1 * t1016 * t1045 * t1041 in
  let t1052 := t1050 + t1051 in
  let t1083 := -1 * t1031 * t1022 in
  let t1084 := -1 * t1045 * t1041 in
  let t1086 := t1083 + t1084 in
  let t1087 := -(19 / 100) * t1086 in
  let t1088 := -1 * t1045 * t1031 in
  let t1089 := t1022 * t1041 in
  let t1091 := t1088 + t1089 in
  let t1092 := -(4165 / 10000) * t1091 in
  let t1113 := (19 / 100) * t1031 in
  let t1114 := t1113 + t1042 in
  let t1116 := -(209 / 1000) * t1031 in
  let t1117 := -(19 / 100) * t1041 in
  let t1118 := t1116 + t1117 in
  let t1098 := t1031 * t988 * t1022 in
  let t1099 := t1045 * t988 * t1041 in
  let t1100 := t1098 + t1099 in
  let t1101 := -(4165 / 10000) * t1100 in
  let t1102 := -(19 / 100) * t1075 in
  let t1107 := -(4165 / 10000) * t1052 in
  let t1108 := t1016 * t1045 * t1031 in
  let t1109 := -1 * t1016 * t1022 * t1041 in
  let t1110 := t1108 + t1109 in
  let t1111 := -(19 / 100) * t1110 in
  [(0%nat, 0);
   (1%nat, 0);
   (2%nat, 0);
   (3%nat, 0);
   (4%nat, 0);
   (5%nat, 0);
   (6%nat, 0);
   (7%nat, 0);
   (8%nat, 0);
   (9%nat, 0);
   (10%nat, 0);
   (11%nat, 0);
   (12%nat, 0);
   (13%nat, 0);
   (14%nat, 0);
   (15%nat, 0);
   (16%nat, 0);
   (17%nat, 0);
   (18%nat, 0);
   (19%nat, 0);
   (20%nat, 0);
   (21%nat, 0);
   (22%nat, 0);
   (23%nat, 0);
   (24%nat, 0);
   (25%nat, 0);
   (26%nat, 0);
   (27%nat, 0);
   (28%nat, -1 * t1016 * t1027 - 1 * t1016 * t1022 * t1043 - (4165 / 10000) * (t1016 * t1022 * t1041 - 1 * t1016 * t1031 * t1045) - 1 * t1016 * t1045 * t1048 - (19 / 100) * t1052 - (62 / 1000) * t988);
   (29%nat, (62 / 1000) * t1016 - (4165 / 10000) * t1075 - 1 * t1027 * t988 - 1 * t1022 * t1043 * t988 - 1 * t1045 * t1048 * t988 - (19 / 100) * (-1 * t1022 * t1031 * t988 - 1 * t1041 * t1045 * t988));
   (30%nat, -(19 / 100) * t1022 - 1 * t1022 * t1043 - 1 * t1045 * t1048 + t1087 + t1092);
   (31%nat, t1101 + t1102 - (19 / 100) * t1045 * t988 - 1 * t1043 * t1045 * t988 + t1022 * t1048 * t988);
   (32%nat, (19 / 100) * t1016 * t1045 + t1016 * t1043 * t1045 - 1 * t1016 * t1022 * t1048 + t1107 + t1111);
   (33%nat, t1087 + t1092 - 1 * t1022 * t1114 + t1045 * t1118);
   (34%nat, t1101 + t1102 - 1 * t1045 * t1114 * t988 - 1 * t1022 * t1118 * t988);
   (35%nat, t1107 + t1111 + t1016 * t1045 * t1114 + t1016 * t1022 * t1118)].

(** Jp_Body_to_HindRightFoot.cpp:54-193, 3x12 *)
Definition out_Jp_Body_to_HindRightFoot (q : nat -> R) : list (nat * R) :=
  let t1134 := cos (q 6%nat) in
  let t1140 := sin (q 7%nat) in
  let t1149 := cos (q 8%nat) in
  let t1152 := -1 * t1149 in
  let t1156 := 1 + t1152 in
  let t1159 := sin (q 8%nat) in
  let t1163 := cos (q 7%nat) in
  let t1106 := sin (q 6%nat) in
  let t1142 := (19 / 100) * t1140 in
  let t1145 := 0 + t1142 in
  let t1158 := -(19 / 100) * t1156 in
  let t1160 := -(209 / 1000) * t1159 in
  let t1161 := 0 + t1158 + t1160 in
  let t1164 := -(209 / 1000) * t1156 in
  let t1165 := (19 / 100) * t1159 in
  let t1166 := 0 + t1164 + t1165 in
  let t1191 := -1 * t1163 * t1149 * t1106 in
  let t1192 := t1106 * t1140 * t1159 in
  let t1193 := t1191 + t1192 in
  let t1168 := -1 * t1134 * t1149 * t1140 in
  let t1169 := -1 * t1134 * t1163 * t1159 in
  let t1170 := t1168 + t1169 in
  let t1201 := -1 * t1149 * t1140 in
  let t1202 := -1 * t1163 * t1159 in
  let t1204 := t1201 + t1202 in
  let t1205 := -(19 / 100) * t1204 in
  let t1206 := -1 * t1163 * t1149 in
  let t1207 := t1140 * t1159 in
  let t1209 := t1206 + t1207 in
  let t1210 := -(4165 / 10000) * t1209 in
  let t1231 := (19 / 100) * t1149 in
  let t1232 := t1231 + t1160 in
  let t1234 := -(209 / 1000) * t1149 in
  let t1235 := -(19 / 100) * t1159 in
  let t1236 := t1234 + t1235 in
  let t1216 := t1149 * t1106 * t1140 in
  let t1217 := t1163 * t1106 * t1159 in
  let t1218 := t1216 + t1217 in
  let t1219 := -(4165 / 10000) * t1218 in
  let t1220 := -(19 / 100) * t1193 in
  let t1225 := -(4165 / 10000) * t1170 in
  let t1226 := t1134 * t1163 * t1149 in
  let t1227 := -1 * t1134 * t1140 * t1159 in
  let t1228 := t1226 + t1227 in
  let t1229 := -(19 / 100) * t1228 in
  [(0%nat, 0);
   (1%nat, 0);
   (2%nat, 0);
   (3%nat, 0);
   (4%nat, 0);
   (5%nat, 0);
   (6%nat, 0);
   (7%nat, 0);
   (8%nat, 0);
   (9%nat, 0);
   (10%nat, 0);
   (11%nat, 0);
   (12%nat, 0);
   (13%nat, 0);
   (14%nat, 0);
   (15%nat, 0);
   (16%nat, 0);
   (17%nat, 0);
   (18%nat, 0);
   (19%nat, (62 / 1000) * t1106 - 1 * t1134 * t1145 - 1 * t1134 * t1140 * t1161 - (4165 / 10000) * (t1134 * t1140 * t1159 - 1 * t1134 * t1149 * t1163) - 1 * t1134 * t1163 * t1166 - (19 / 100) * t1170);
   (20%nat, -(62 / 1000) * t1134 - 1 * t1106 * t1145 - 1 * t1106 * t1140 * t1161 - (19 / 100) * (-1 * t1106 * t1140 * t1149 - 1 * t1106 * t1159 * t1163) - 1 * t1106 * t1163 * t1166 - (4165 / 10000) * t1193);
   (21%nat, -(19 / 100) * t1140 - 1 * t1140 * t1161 - 1 * t1163 * t1166 + t1205 + t1210);
   (22%nat, -(19 / 100) * t1106 * t1163 - 1 * t1106 * t1161 * t1163 + t1106 * t1140 * t1166 + t1219 + t1220);
   (23%nat, (19 / 100) * t1134 * t1163 + t1134 * t1161 * t1163 - 1 * t1134 * t1140 * t1166 + t1225 + t1229);
   (24%nat, t1205 + t1210 - 1 * t1140 * t1232 + t1163 * t1236);
   (25%nat, t1219 + t1220 - 1 * t1106 * t1163 * t1232 - 1 * t1106 * t1140 * t1236);
   (26%nat, t1225 + t1229 + t1134 * t1163 * t1232 + t1134 * t1140 * t1236);
   (27%nat, 0);
   (28%nat, 0);
   (29%nat, 0);
   (30%nat, 0);
   (31%nat, 0);
   (32%nat, 0);
   (33%nat, 0);
   (34%nat, 0);
   (35%nat, 0)].

(** Js_Body_to_FrontLeftFoot.cpp:54-163, 6x12 *)
Definition out_Js_Body_to_FrontLeftFoot (q : nat -> R) : list (nat * R) :=
  let t1952 := cos (q 3%nat) in
  let t1962 := sin (q 3%nat) in
  let t1955 := -1 * t1952 in
  let t1959 := 0 + t1955 in
  let t1966 := -1 * t1962 in
  let t1970 := 0 + t1966 in
  let t1971 := (49 / 1000) * t1962 in
  let t1974 := 1 + t1955 in
  let t1976 := (49 / 1000) * t1974 in
  let t1994 := sin (q 4%nat) in
  let t1995 := -(19 / 100) * t1994 in
  let t1996 := 0 + t1995 in
  let t1992 := cos (q 4%nat) in
  let t2007 := -1 * t1992 in
  let t2008 := 1 + t2007 in
  [(0%nat, 0);
   (1%nat, 0);
   (2%nat, 0);
   (3%nat, 0);
   (4%nat, 0);
   (5%nat, 0);
   (6%nat, 0);
   (7%nat, 0);
   (8%nat, 0);
   (9%nat, 0);
   (10%nat, 0);
   (11%nat, 0);
   (12%nat, 0);
   (13%nat, 0);
   (14%nat, 0);
   (15%nat, 0);
   (16%nat, 0);
   (17%nat, 0);
   (18%nat, 1);
   (19%nat, 0);
   (20%nat, 0);
   (21%nat, 0);
   (22%nat, 0);
   (23%nat, -(49 / 1000));
   (24%nat, 0);
   (25%nat, t1959);
   (26%nat, t1970);
   (27%nat, 0 - 1 * t1952 * (0 + t1971) - 1 * t1962 * (0 + t1976));
   (28%nat, 0 + (19 / 100) * t1962);
   (29%nat, 0 - (19 / 100) * t1952);
   (30%nat, 0);
   (31%nat, t1959);
   (32%nat, t1970);
   (33%nat, -(209 / 1000) * t1992 + (19 / 100) * t1994 - 1 * t1952 * (0 + t1971 - 1 * t1952 * t1996) - 1 * t1962 * (0 + t1976 - 1 * t1962 * t1996));
   (34%nat, 0 + (19 / 100) * t1962 * t1992 + (209 / 1000) * t1962 * t1994 - 1 * t1962 * (0 - (19 / 100) * t2008));
   (35%nat, -(19 / 100) * t1952 * t1992 - (209 / 1000) * t1952 * t1994 - 1 * t1952 * (0 + (19 / 100) * t2008));
   (36%nat, 0);
   (37%nat, 0);
   (38%nat, 0);
   (39%nat, 0);
   (40%nat, 0);
   (41%nat, 0);
   (42%nat, 0);
   (43%nat, 0);
   (44%nat, 0);
   (45%nat, 0);
   (46%nat, 0);
   (47%nat, 0);
   (48%nat, 0);
   (49%nat, 0);
   (50%nat, 0);
   (51%nat, 0);
   (52%nat, 0);
   (53%nat, 0);
   (54%nat, 0);
   (55%nat, 0);
   (56%nat, 0);
   (57%nat, 0);
   (58%nat, 0);
   (59%nat, 0);
   (60%nat, 0);
   (61%nat, 0);
   (62%nat, 0);
   (63%nat, 0);
   (64%nat, 0);
   (65%nat, 0);
   (66%nat, 0);
   (67%nat, 0);
   (68%nat, 0);
   (69%nat, 0);
   (70%nat, 0);
   (71%nat, 0)].

(** Js_Body_to_FrontRightFoot.cpp:54-163, 6x12 *)
Definition out_Js_Body_to_FrontRightFoot (q : nat -> R) : list (nat * R) :=
  let t2070 := cos (q 0%nat) in
  let t2080 := sin (q 0%nat) in
  let t2073 := -1 * t2070 in
  let t2077 := 0 + t2073 in
  let t2084 := -1 * t2080 in
  let t2088 := 0 + t2084 in
  let t2089 := -(49 / 1000) * t2080 in
  let t2092 := 1 + t2073 in
  let t2094 := -(49 / 1000) * t2092 in
  let t2112 := sin (q 1%nat) in
  let t2113 := -(19 / 100) * t2112 in
  let t2114 := 0 + t2113 in
  let t2110 := cos (q 1%nat) in
  let t2125 := -1 * t2110 in
  let t2126 := 1 + t2125 in
  [(0%nat, 1);
   (1%nat, 0);
   (2%nat, 0);
   (3%nat, 0);
   (4%nat, 0);
   (5%nat, (49 / 1000));
   (6%nat, 0);
   (7%nat, t2077);
   (8%nat, t2088);
   (9%nat, 0 - 1 * t2070 * (0 + t2089) - 1 * t2080 * (0 + t2094));
   (10%nat, 0 + (19 / 100) * t2080);
   (11%nat, 0 - (19 / 100) * t2070);
   (12%nat, 0);
   (13%nat, t2077);
   (14%nat, t2088);
   (15%nat, -(209 / 1000) * t2110 + (19 / 100) * t2112 - 1 * t2070 * (0 + t2089 - 1 * t2070 * t2114) - 1 * t2080 * (0 + t2094 - 1 * t2080 * t2114));
   (16%nat, 0 + (19 / 100) * t2080 * t2110 + (209 / 1000) * t2080 * t2112 - 1 * t2080 * (0 - (19 / 100) * t2126));
   (17%nat, -(19 / 100) * t2070 * t2110 - (209 / 1000) * t2070 * t2112 - 1 * t2070 * (0 + (19 / 100) * t2126));
   (18%nat, 0);
   (19%nat, 0);
   (20%nat, 0);
   (21%nat, 0);
   (22%nat, 0);
   (23%nat, 0);
   (24%nat, 0);
   (25%nat, 0);
   (26%nat, 0);
   (27%nat, 0);
   (28%nat, 0);
   (29%nat, 0);
   (30%nat, 0);
   (31%nat, 0);
   (32%nat, 0);
   (33%nat, 0);
   (34%nat, 0);
   (35%nat, 0);
   (36%nat, 0);
   (37%nat, 0);
   (38%nat, 0);
   (39%nat, 0);
   (40%nat, 0);
   (41%nat, 0);
   (42%nat, 0);
   (43%nat, 0);
   (44%nat, 0);
   (45%nat, 0);
   (46%nat, 0);
   (47%nat, 0);
   (48%nat, 0);
   (49%nat, 0);
   (50%nat, 0);
   (51%nat, 0);
   (52%nat, 0);
   (53%nat, 0);
   (54%nat, 0);
   (55%nat, 0);
   (56%nat, 0);
   (57%nat, 0);
   (58%nat, 0);
   (59%nat, 0);
   (60%nat, 0);
   (61%nat, 0);
   (62%nat, 0);
   (63%nat, 0);
   (64%nat, 0);
   (65%nat, 0);
   (66%nat, 0);
   (67%nat, 0);
   (68%nat, 0);
   (69%nat, 0);
   (70%nat, 0);
   (71%nat, 0)].

(** Js_Body_to_HindLeftFoot.cpp:54-163, 6x12 *)
Definition out_Js_Body_to_HindLeftFoot (q : nat -> R) : list (nat * R) :=
  let t2188 := cos (q 9%nat) in
  let t2198 := sin (q 9%nat) in
  let t2191 := -1 * t2188 in
  let t2195 := 0 + t2191 in
  let t2202 := -1 * t2198 in
  let t2206 := 0 + t2202 in
  let t2207 := (49 / 1000) * t2198 in
  let t2210 := 1 + t2191 in
  let t2212 := (49 / 1000) * t2210 in
  let t2230 := sin (q 10%nat) in
  let t2231 := (19 / 100) * t2230 in
  let t2232 := 0 + t2231 in
  let t2228 := cos (q 10%nat) in
  let t2243 := -1 * t2228 in
  let t2244 := 1 + t2243 in
  [(0%nat, 0);
   (1%nat, 0);
   (2%nat, 0);
   (3%nat, 0);
   (4%nat, 0);
   (5%nat, 0);
   (6%nat, 0);
   (7%nat, 0);
   (8%nat, 0);
   (9%nat, 0);
   (10%nat, 0);
   (11%nat, 0);
   (12%nat, 0);
   (13%nat, 0);
   (14%nat, 0);
   (15%nat, 0);
   (16%nat, 0);
   (17%nat, 0);
   (18%nat, 0);
   (19%nat, 0);
   (20%nat, 0);
   (21%nat, 0);
   (22%nat, 0);
   (23%nat, 0);
   (24%nat, 0);
   (25%nat, 0);
   (26%nat, 0);
   (27%nat, 0);
   (28%nat, 0);
   (29%nat, 0);
   (30%nat, 0);
   (31%nat, 0);
   (32%nat, 0);
   (33%nat, 0);
   (34%nat, 0);
   (35%nat, 0);
   (36%nat, 0);
   (37%nat, 0);
   (38%nat, 0);
   (39%nat, 0);
   (40%nat, 0);
   (41%nat, 0);
   (42%nat, 0);
   (43%nat, 0);
   (44%nat, 0);
   (45%nat, 0);
   (46%nat, 0);
   (47%nat, 0);
   (48%nat, 0);
   (49%nat, 0);
   (50%nat, 0);
   (51%nat, 0);
   (52%nat, 0);
   (53%nat, 0);
   (54%nat, 1);
   (55%nat, 0);
   (56%nat, 0);
   (57%nat, 0);
   (58%nat, 0);
   (59%nat, -(49 / 1000));
   (60%nat, 0);
   (61%nat, t2195);
   (62%nat, t2206);
   (63%nat, 0 - 1 * t2188 * (0 + t2207) - 1 * t2198 * (0 + t2212));
   (64%nat, 0 - (19 / 100) * t2198);
   (65%nat, 0 + (19 / 100) * t2188);
   (66%nat, 0);
   (67%nat, t2195);
   (68%nat, t2206);
   (69%nat, -(209 / 1000) * t2228 - (19 / 100) * t2230 - 1 * t2188 * (0 + t2207 - 1 * t2188 * t2232) - 1 * t2198 * (0 + t2212 - 1 * t2198 * t2232));
   (70%nat, 0 - (19 / 100) * t2198 * t2228 + (209 / 1000) * t2198 * t2230 - 1 * t2198 * (0 + (19 / 100) * t2244));
   (71%nat, (19 / 100) * t2188 * t2228 - (209 / 1000) * t2188 * t2230 - 1 * t2188 * (0 - (19 / 100) * t2244))].

(** Js_Body_to_HindRightFoot.cpp:54-163, 6x12 *)
Definition out_Js_Body_to_HindRightFoot (q : nat -> R) : list (nat * R) :=
  let t2306 := cos (q 6%nat) in
  let t2316 := sin (q 6%nat) in
  let t2309 := -1 * t2306 in
  let t2313 := 0 + t2309 in
  let t2320 := -1 * t2316 in
  let t2324 := 0 + t2320 in
  let t2325 := -(49 / 1000) * t2316 in
  let t2328 := 1 + t2309 in
  let t2330 := -(49 / 1000) * t2328 in
  let t2348 := sin (q 7%nat) in
  let t2349 := (19 / 100) * t2348 in
  let t2350 := 0 + t2349 in
  let t2346 := cos (q 7%nat) in
  let t2361 := -1 * t2346 in
  let t2362 := 1 + t2361 in
  [(0%nat, 0);
   (1%nat, 0);
   (2%nat, 0);
   (3%nat, 0);
   (4%nat, 0);
   (5%nat, 0);
   (6%nat, 0);
   (7%nat, 0);
   (8%nat, 0);
   (9%nat, 0);
   (10%nat, 0);
   (11%nat, 0);
   (12%nat, 0);
   (13%nat, 0);
   (14%nat, 0);
   (15%nat, 0);
   (16%nat, 0);
   (17%nat, 0);
   (18%nat, 0);
   (19%nat, 0);
   (20%nat, 0);
   (21%nat, 0);
   (22%nat, 0);
   (23%nat, 0);
   (24%nat, 0);
   (25%nat, 0);
   (26%nat, 0);
   (27%nat, 0);
   (28%nat, 0);
   (29%nat, 0);
   (30%nat, 0);
   (31%nat, 0);
   (32%nat, 0);
   (33%nat, 0);
   (34%nat, 0);
   (35%nat, 0);
   (36%nat, 1);
   (37%nat, 0);
   (38%nat, 0);
   (39%nat, 0);
   (40%nat, 0);
   (41%nat, (49 / 1000));
   (42%nat, 0);
   (43%nat, t2313);
   (44%nat, t2324);
   (45%nat, 0 - 1 * t2306 * (0 + t2325) - 1 * t2316 * (0 + t2330));
   (46%nat, 0 - (19 / 100) * t2316);
   (47%nat, 0 + (19 / 100) * t2306);
   (48%nat, 0);
   (49%nat, t2313);
   (50%nat, t2324);
   (51%nat, -(209 / 1000) * t2346 - (19 / 100) * t2348 - 1 * t2306 * (0 + t2325 - 1 * t2306 * t2350) - 1 * t2316 * (0 + t2330 - 1 * t2316 * t2350));
   (52%nat, 0 - (19 / 100) * t2316 * t2346 + (209 / 1000) * t2316 * t2348 - 1 * t2316 * (0 + (19 / 100) * t2362));
   (53%nat, (19 / 100) * t2306 * t2346 - (209 / 1000) * t2306 * t2348 - 1 * t2306 * (0 - (19 / 100) * t2362));
   (54%nat, 0);
   (55%nat, 0);
   (56%nat, 0);
   (57%nat, 0);
   (58%nat, 0);
   (59%nat, 0);
   (60%nat, 0);
   (61%nat, 0);
   (62%nat, 0);
   (63%nat, 0);
   (64%nat, 0);
   (65%nat, 0);
   (66%nat, 0);
   (67%nat, 0);
   (68%nat, 0);
   (69%nat, 0);
   (70%nat, 0);
   (71%nat, 0)].

(** Jvb_Body_to_FrontLeftFoot.cpp:54-158, 3x12 *)
Definition out_Jvb_Body_to_FrontLeftFoot (q : nat -> R) : list (nat * R) :=
  let t1935 := cos (q 5%nat) in
  let t1937 := sin (q 4%nat) in
  let t1942 := cos (q 4%nat) in
  let t1944 := sin (q 5%nat) in
  let t1940 := -1 * t1935 * t1937 in
  let t1945 := -1 * t1942 * t1944 in
  let t1948 := 0 + t1940 + t1945 in
  let t1956 := -1 * t1935 in
  let t1957 := 1 + t1956 in
  let t1951 := t1935 * t1937 in
  let t1952 := t1942 * t1944 in
  let t1953 := 0 + t1951 + t1952 in
  let t1959 := -(209 / 1000) * t1957 in
  let t1962 := -(4165 / 10000) * t1935 in
  let t1964 := 0 + t1959 + t1962 in
  let t1970 := (19 / 100) * t1957 in
  let t1971 := (19 / 100) * t1935 in
  let t1972 := (2075 / 10000) * t1944 in
  let t1973 := 0 + t1970 + t1971 + t1972 in
  let t1983 := t1942 * t1935 in
  let t1984 := -1 * t1937 * t1944 in
  let t1985 := 0 + t1983 + t1984 in
  let t1977 := -1 * t1942 in
  let t1978 := 1 + t1977 in
  let t1979 := (19 / 100) * t1978 in
  let t1980 := -1 * t1964 * t1937 in
  let t1981 := t1942 * t1973 in
  let t1982 := 0 + t1979 + t1980 + t1981 in
  let t1966 := t1942 * t1964 in
  let t1969 := -(19 / 100) * t1937 in
  let t1974 := t1937 * t1973 in
  let t1975 := 0 + t1966 + t1969 + t1974 in
  [(0%nat, 0);
   (1%nat, 0);
   (2%nat, 0);
   (3%nat, 0);
   (4%nat, 0);
   (5%nat, 0);
   (6%nat, 0);
   (7%nat, 0);
   (8%nat, 0);
   (9%nat, 0 - (111 / 1000) * t1948 - (49 / 1000) * t1953);
   (10%nat, 0 + t1985 * (0 - 1 * t1948 * t1982 - 1 * t1975 * t1985) + t1948 * (0 + t1953 * t1975 + t1982 * t1985));
   (11%nat, 0 + (62 / 1000) * t1985);
   (12%nat, 0 - (19 / 100) * t1944 - 1 * t1935 * t1964 + t1944 * t1973);
   (13%nat, 0);
   (14%nat, 0 - (19 / 100) * t1935 + t1944 * t1964 + t1935 * t1973);
   (15%nat, (2075 / 10000));
   (16%nat, 0);
   (17%nat, 0);
   (18%nat, 0);
   (19%nat, 0);
   (20%nat, 0);
   (21%nat, 0);
   (22%nat, 0);
   (23%nat, 0);
   (24%nat, 0);
   (25%nat, 0);
   (26%nat, 0);
   (27%nat, 0);
   (28%nat, 0);
   (29%nat, 0);
   (30%nat, 0);
   (31%nat, 0);
   (32%nat, 0);
   (33%nat, 0);
   (34%nat, 0);
   (35%nat, 0)].

(** Jvb_Body_to_FrontRightFoot.cpp:54-158, 3x12 *)
Definition out_Jvb_Body_to_FrontRightFoot (q : nat -> R) : list (nat * R) :=
  let t2053 := cos (q 2%nat) in
  let t2055 := sin (q 1%nat) in
  let t2060 := cos (q 1%nat) in
  let t2062 := sin (q 2%nat) in
  let t2058 := -1 * t2053 * t2055 in
  let t2063 := -1 * t2060 * t2062 in
  let t2066 := 0 + t2058 + t2063 in
  let t2074 := -1 * t2053 in
  let t2075 := 1 + t2074 in
  let t2069 := t2053 * t2055 in
  let t2070 := t2060 * t2062 in
  let t2071 := 0 + t2069 + t2070 in
  let t2077 := -(209 / 1000) * t2075 in
  let t2080 := -(4165 / 10000) * t2053 in
  let t2082 := 0 + t2077 + t2080 in
  let t2088 := (19 / 100) * t2075 in
  let t2089 := (19 / 100) * t2053 in
  let t2090 := (2075 / 10000) * t2062 in
  let t2091 := 0 + t2088 + t2089 + t2090 in
  let t2101 := t2060 * t2053 in
  let t2102 := -1 * t2055 * t2062 in
  let t2103 := 0 + t2101 + t2102 in
  let t2095 := -1 * t2060 in
  let t2096 := 1 + t2095 in
  let t2097 := (19 / 100) * t2096 in
  let t2098 := -1 * t2082 * t2055 in
  let t2099 := t2060 * t2091 in
  let t2100 := 0 + t2097 + t2098 + t2099 in
  let t2084 := t2060 * t2082 in
  let t2087 := -(19 / 100) * t2055 in
  let t2092 := t2055 * t2091 in
  let t2093 := 0 + t2084 + t2087 + t2092 in
  [(0%nat, 0 + (111 / 1000) * t2066 + (49 / 1000) * t2071);
   (1%nat, 0 + t2103 * (0 - 1 * t2066 * t2100 - 1 * t2093 * t2103) + t2066 * (0 + t2071 * t2093 + t2100 * t2103));
   (2%nat, 0 - (62 / 1000) * t2103);
   (3%nat, 0 - (19 / 100) * t2062 - 1 * t2053 * t2082 + t2062 * t2091);
   (4%nat, 0);
   (5%nat, 0 - (19 / 100) * t2053 + t2062 * t2082 + t2053 * t2091);
   (6%nat, (2075 / 10000));
   (7%nat, 0);
   (8%nat, 0);
   (9%nat, 0);
   (10%nat, 0);
   (11%nat, 0);
   (12%nat, 0);
   (13%nat, 0);
   (14%nat, 0);
   (15%nat, 0);
   (16%nat, 0);
   (17%nat, 0);
   (18%nat, 0);
   (19%nat, 0);
   (20%nat, 0);
   (21%nat, 0);
   (22%nat, 0);
   (23%nat, 0);
   (24%nat, 0);
   (25%nat, 0);
   (26%nat, 0);
   (27%nat, 0);
   (28%nat, 0);
   (29%nat, 0);
   (30%nat, 0);
   (31%nat, 0);
   (32%nat, 0);
   (33%nat, 0);
   (34%nat, 0);
   (35%nat, 0)].

(** Jvb_Body_to_HindLeftFoot.cpp:54-158, 3x12 *)
Definition out_Jvb_Body_to_HindLeftFoot (q : nat -> R) : list (nat * R) :=
  let t2171 := cos (q 11%nat) in
  let t2173 := sin (q 10%nat) in
  let t2178 := cos (q 10%nat) in
  let t2180 := sin (q 11%nat) in
  let t2176 := -1 * t2171 * t2173 in
  let t2181 := -1 * t2178 * t2180 in
  let t2184 := 0 + t2176 + t2181 in
  let t2192 := -1 * t2171 in
  let t2193 := 1 + t2192 in
  let t2187 := t2171 * t2173 in
  let t2188 := t2178 * t2180 in
  let t2189 := 0 + t2187 + t2188 in
  let t2195 := -(209 / 1000) * t2193 in
  let t2198 := -(4165 / 10000) * t2171 in
  let t2200 := 0 + t2195 + t2198 in
  let t2206 := -(19 / 100) * t2193 in
  let t2207 := -(19 / 100) * t2171 in
  let t2208 := (2075 / 10000) * t2180 in
  let t2209 := 0 + t2206 + t2207 + t2208 in
  let t2219 := t2178 * t2171 in
  let t2220 := -1 * t2173 * t2180 in
  let t2221 := 0 + t2219 + t2220 in
  let t2213 := -1 * t2178 in
  let t2214 := 1 + t2213 in
  let t2215 := -(19 / 100) * t2214 in
  let t2216 := -1 * t2200 * t2173 in
  let t2217 := t2178 * t2209 in
  let t2218 := 0 + t2215 + t2216 + t2217 in
  let t2202 := t2178 * t2200 in
  let t2205 := (19 / 100) * t2173 in
  let t2210 := t2173 * t2209 in
  let t2211 := 0 + t2202 + t2205 + t2210 in
  [(0%nat, 0);
   (1%nat, 0);
   (2%nat, 0);
   (3%nat, 0);
   (4%nat, 0);
   (5%nat, 0);
   (6%nat, 0);
   (7%nat, 0);
   (8%nat, 0);
   (9%nat, 0);
   (10%nat, 0);
   (11%nat, 0);
   (12%nat, 0);
   (13%nat, 0);
   (14%nat, 0);
   (15%nat, 0);
   (16%nat, 0);
   (17%nat, 0);
   (18%nat, 0);
   (19%nat, 0);
   (20%nat, 0);
   (21%nat, 0);
   (22%nat, 0);
   (23%nat, 0);
   (24%nat, 0);
   (25%nat, 0);
   (26%nat, 0);
   (27%nat, 0 - (111 / 1000) * t2184 - (49 / 1000) * t2189);
   (28%nat, 0 + t2221 * (0 - 1 * t2184 * t2218 - 1 * t2211 * t2221) + t2184 * (0 + t2189 * t2211 + t2218 * t2221));
   (29%nat, 0 + (62 / 1000) * t2221);
   (30%nat, 0 + (19 / 100) * t2180 - 1 * t2171 * t2200 + t2180 * t2209);
   (31%nat, 0);
   (32%nat, 0 + (19 / 100) * t2171 + t2180 * t2200 + t2171 * t2209);
   (33%nat, (2075 / 10000));
   (34%nat, 0);
   (35%nat, 0)].

(** Jvb_Body_to_HindRightFoot.cpp:54-158, 3x12 *)
Definition out_Jvb_Body_to_HindRightFoot (q : nat -> R) : list (nat * R) :=
  let t2289 := cos (q 8%nat) in
  let t2291 := sin (q 7%nat) in
  let t2296 := cos (q 7%nat) in
  let t2298 := sin (q 8%nat) in
  let t2294 := -1 * t2289 * t2291 in
  let t2299 := -1 * t2296 * t2298 in
  let t2302 := 0 + t2294 + t2299 in
  let t2310 := -1 * t2289 in
  let t2311 := 1 + t2310 in
  let t2305 := t2289 * t2291 in
  let t2306 := t2296 * t2298 in
  let t2307 := 0 + t2305 + t2306 in
  let t2313 := -(209 / 1000) * t2311 in
  let t2316 := -(4165 / 10000) * t2289 in
  let t2318 := 0 + t2313 + t2316 in
  let t2324 := -(19 / 100) * t2311 in
  let t2325 := -(19 / 100) * t2289 in
  let t2326 := (2075 / 10000) * t2298 in
  let t2327 := 0 + t2324 + t2325 + t2326 in
  let t2337 := t2296 * t2289 in
  let t2338 := -1 * t2291 * t2298 in
  let t2339 := 0 + t2337 + t2338 in
  let t2331 := -1 * t2296 in
  let t2332 := 1 + t2331 in
  let t2333 := -(19 / 100) * t2332 in
  let t2334 := -1 * t2318 * t2291 in
  let t2335 := t2296 * t2327 in
  let t2336 := 0 + t2333 + t2334 + t2335 in
  let t2320 := t2296 * t2318 in
  let t2323 := (19 / 100) * t2291 in
  let t2328 := t2291 * t2327 in
  let t2329 := 0 + t2320 + t2323 + t2328 in
  [(0%nat, 0);
   (1%nat, 0);
   (2%nat, 0);
   (3%nat, 0);
   (4%nat, 0);
   (5%nat, 0);
   (6%nat, 0);
   (7%nat, 0);
   (8%nat, 0);
   (9%nat, 0);
   (10%nat, 0);
   (11%nat, 0);
   (12%nat, 0);
   (13%nat, 0);
   (14%nat, 0);
   (15%nat, 0);
   (16%nat, 0);
   (17%nat, 0);
   (18%nat, 0 + (111 / 1000) * t2302 + (49 / 1000) * t2307);
   (19%nat, 0 + t2339 * (0 - 1 * t2302 * t2336 - 1 * t2329 * t2339) + t2302 * (0 + t2307 * t2329 + t2336 * t2339));
   (20%nat, 0 - (62 / 1000) * t2339);
   (21%nat, 0 + (19 / 100) * t2298 - 1 * t2289 * t2318 + t2298 * t2327);
   (22%nat, 0);
   (23%nat, 0 + (19 / 100) * t2289 + t2298 * t2318 + t2289 * t2327);
   (24%nat, (2075 / 10000));
   (25%nat, 0);
   (26%nat, 0);
   (27%nat, 0);
   (28%nat, 0);
   (29%nat, 0);
   (30%nat, 0);
   (31%nat, 0);
   (32%nat, 0);
   (33%nat, 0);
   (34%nat, 0);
   (35%nat, 0)].

(** Jvs_Body_to_FrontLeftFoot.cpp:54-121, 3x12 *)
Definition out_Jvs_Body_to_FrontLeftFoot (q : nat -> R) : list (nat * R) :=
  let t1988 := cos (q 3%nat) in
  let t1990 := sin (q 3%nat) in
  let t1991 := (49 / 1000) * t1990 in
  let t2000 := -1 * t1988 in
  let t2001 := 1 + t2000 in
  let t2002 := (49 / 1000) * t2001 in
  let t2016 := sin (q 4%nat) in
  let t2017 := -(19 / 100) * t2016 in
  let t2018 := 0 + t2017 in
  let t2014 := cos (q 4%nat) in
  let t2029 := -1 * t2014 in
  let t2030 := 1 + t2029 in
  [(0%nat, 0);
   (1%nat, 0);
   (2%nat, 0);
   (3%nat, 0);
   (4%nat, 0);
   (5%nat, 0);
   (6%nat, 0);
   (7%nat, 0);
   (8%nat, 0);
   (9%nat, 0);
   (10%nat, 0);
   (11%nat, -(49 / 1000));
   (12%nat, 0 - 1 * t1988 * (0 + t1991) - 1 * t1990 * (0 + t2002));
   (13%nat, 0 + (19 / 100) * t1990);
   (14%nat, 0 - (19 / 100) * t1988);
   (15%nat, -(209 / 1000) * t2014 + (19 / 100) * t2016 - 1 * t1988 * (0 + t1991 - 1 * t1988 * t2018) - 1 * t1990 * (0 + t2002 - 1 * t1990 * t2018));
   (16%nat, 0 + (19 / 100) * t1990 * t2014 + (209 / 1000) * t1990 * t2016 - 1 * t1990 * (0 - (19 / 100) * t2030));
   (17%nat, -(19 / 100) * t1988 * t2014 - (209 / 1000) * t1988 * t2016 - 1 * t1988 * (0 + (19 / 100) * t2030));
   (18%nat, 0);
   (19%nat, 0);
   (20%nat, 0);
   (21%nat, 0);
   (22%nat, 0);
   (23%nat, 0);
   (24%nat, 0);
   (25%nat, 0);
   (26%nat, 0);
   (27%nat, 0);
   (28%nat, 0);
   (29%nat, 0);
   (30%nat, 0);
   (31%nat, 0);
   (32%nat, 0);
   (33%nat, 0);
   (34%nat, 0);
   (35%nat, 0)].

(** Jvs_Body_to_FrontRightFoot.cpp:54-121, 3x12 *)
Definition out_Jvs_Body_to_FrontRightFoot (q : nat -> R) : list (nat * R) :=
  let t2106 := cos (q 0%nat) in
  let t2108 := sin (q 0%nat) in
  let t2109 := -(49 / 1000) * t2108 in
  let t2118 := -1 * t2106 in
  let t2119 := 1 + t2118 in
  let t2120 := -(49 / 1000) * t2119 in
  let t2134 := sin (q 1%nat) in
  let t2135 := -(19 / 100) * t2134 in
  let t2136 := 0 + t2135 in
  let t2132 := cos (q 1%nat) in
  let t2147 := -1 * t2132 in
  let t2148 := 1 + t2147 in
  [(0%nat, 0);
   (1%nat, 0);
   (2%nat, (49 / 1000));
   (3%nat, 0 - 1 * t2106 * (0 + t2109) - 1 * t2108 * (0 + t2120));
   (4%nat, 0 + (19 / 100) * t2108);
   (5%nat, 0 - (19 / 100) * t2106);
   (6%nat, -(209 / 1000) * t2132 + (19 / 100) * t2134 - 1 * t2106 * (0 + t2109 - 1 * t2106 * t2136) - 1 * t2108 * (0 + t2120 - 1 * t2108 * t2136));
   (7%nat, 0 + (19 / 100) * t2108 * t2132 + (209 / 1000) * t2108 * t2134 - 1 * t2108 * (0 - (19 / 100) * t2148));
   (8%nat, -(19 / 100) * t2106 * t2132 - (209 / 1000) * t2106 * t2134 - 1 * t2106 * (0 + (19 / 100) * t2148));
   (9%nat, 0);
   (10%nat, 0);
   (11%nat, 0);
   (12%nat, 0);
   (13%nat, 0);
   (14%nat, 0);
   (15%nat, 0);
   (16%nat, 0);
   (17%nat, 0);
   (18%nat, 0);
   (19%nat, 0);
   (20%nat, 0);
   (21%nat, 0);
   (22%nat, 0);
   (23%nat, 0);
   (24%nat, 0);
   (25%nat, 0);
   (26%nat, 0);
   (27%nat, 0);
   (28%nat, 0);
   (29%nat, 0);
   (30%nat, 0);
   (31%nat, 0);
   (32%nat, 0);
   (33%nat, 0);
   (34%nat, 0);
   (35%nat, 0)].

(** Jvs_Body_to_HindLeftFoot.cpp:54-121, 3x12 *)
Definition out_Jvs_Body_to_HindLeftFoot (q : nat -> R) : list (nat * R) :=
  let t2224 := cos (q 9%nat) in
  let t2226 := sin (q 9%nat) in
  let t2227 := (49 / 1000) * t2226 in
  let t2236 := -1 * t2224 in
  let t2237 := 1 + t2236 in
  let t2238 := (49 / 1000) * t2237 in
  let t2252 := sin (q 10%nat) in
  let t2253 := (19 / 100) * t2252 in
  let t2254 := 0 + t2253 in
  let t2250 := cos (q 10%nat) in
  let t2265 := -1 * t2250 in
  let t2266 := 1 + t2265 in
  [(0%nat, 0);
   (1%nat, 0);
   (2%nat, 0);
   (3%nat, 0);
   (4%nat, 0);
   (5%nat, 0);
   (6%nat, 0);
   (7%nat, 0);
   (8%nat, 0);
   (9%nat, 0);
   (10%nat, 0);
   (11%nat, 0);
   (12%nat, 0);
   (13%nat, 0);
   (14%nat, 0);
   (15%nat, 0);
   (16%nat, 0);
   (17%nat, 0);
   (18%nat, 0);
   (19%nat, 0);
   (20%nat, 0);
   (21%nat, 0);
   (22%nat, 0);
   (23%nat, 0);
   (24%nat, 0);
   (25%nat, 0);
   (26%nat, 0);
   (27%nat, 0);
   (28%nat, 0);
   (29%nat, -(49 / 1000));
   (30%nat, 0 - 1 * t2224 * (0 + t2227) - 1 * t2226 * (0 + t2238));
   (31%nat, 0 - (19 / 100) * t2226);
   (32%nat, 0 + (19 / 100) * t2224);
   (33%nat, -(209 / 1000) * t2250 - (19 / 100) * t2252 - 1 * t2224 * (0 + t2227 - 1 * t2224 * t2254) - 1 * t2226 * (0 + t2238 - 1 * t2226 * t2254));
   (34%nat, 0 - (19 / 100) * t2226 * t2250 + (209 / 1000) * t2226 * t2252 - 1 * t2226 * (0 + (19 / 100) * t2266));
   (35%nat, (19 / 100) * t2224 * t2250 - (209 / 1000) * t2224 * t2252 - 1 * t2224 * (0 - (19 / 100) * t2266))].

(** Jvs_Body_to_HindRightFoot.cpp:54-121, 3x12 *)
Definition out_Jvs_Body_to_HindRightFoot (q : nat -> R) : list (nat * R) :=
  let t2342 := cos (q 6%nat) in
  let t2344 := sin (q 6%nat) in
  let t2345 := -(49 / 1000) * t2344 in
  let t2354 := -1 * t2342 in
  let t2355 := 1 + t2354 in
  let t2356 := -(49 / 1000) * t2355 in
  let t2370 := sin (q 7%nat) in
  let t2371 := (19 / 100) * t2370 in
  let t2372 := 0 + t2371 in
  let t2368 := cos (q 7%nat) in
  let t2383 := -1 * t2368 in
  let t2384 := 1 + t2383 in
  [(0%nat, 0);
   (1%nat, 0);
   (2%nat, 0);
   (3%nat, 0);
   (4%nat, 0);
   (5%nat, 0);
   (6%nat, 0);
   (7%nat, 0);
   (8%nat, 0);
   (9%nat, 0);
   (10%nat, 0);
   (11%nat, 0);
   (12%nat, 0);
   (13%nat, 0);
   (14%nat, 0);
   (15%nat, 0);
   (16%nat, 0);
   (17%nat, 0);
   (18%nat, 0);
   (19%nat, 0);
   (20%nat, (49 / 1000));
   (21%nat, 0 - 1 * t2342 * (0 + t2345) - 1 * t2344 * (0 + t2356));
   (22%nat, 0 - (19 / 100) * t2344);
   (23%nat, 0 + (19 / 100) * t2342);
   (24%nat, -(209 / 1000) * t2368 - (19 / 100) * t2370 - 1 * t2342 * (0 + t2345 - 1 * t2342 * t2372) - 1 * t2344 * (0 + t2356 - 1 * t2344 * t2372));
   (25%nat, 0 - (19 / 100) * t2344 * t2368 + (209 / 1000) * t2344 * t2370 - 1 * t2344 * (0 + (19 / 100) * t2384));
   (26%nat, (19 / 100) * t2342 * t2368 - (209 / 1000) * t2342 * t2370 - 1 * t2342 * (0 - (19 / 100) * t2384));
   (27%nat, 0);
   (28%nat, 0);
   (29%nat, 0);
   (30%nat, 0);
   (31%nat, 0);
   (32%nat, 0);
   (33%nat, 0);
   (34%nat, 0);
   (35%nat, 0)].

(** Jwb_Body_to_FrontLeftFoot.cpp:54-101, 3x12 *)
Definition out_Jwb_Body_to_FrontLeftFoot (q : nat -> R) : list (nat * R) :=
  let t1917 := cos (q 5%nat) in
  let t1925 := sin (q 4%nat) in
  let t1914 := cos (q 4%nat) in
  let t1927 := sin (q 5%nat) in
  [(0%nat, 0);
   (1%nat, 0);
   (2%nat, 0);
   (3%nat, 0);
   (4%nat, 0);
   (5%nat, 0);
   (6%nat, 0);
   (7%nat, 0);
   (8%nat, 0);
   (9%nat, 0 + t1914 * t1917 - 1 * t1925 * t1927);
   (10%nat, 0);
   (11%nat, 0 - 1 * t1917 * t1925 - 1 * t1914 * t1927);
   (12%nat, 0);
   (13%nat, -1);
   (14%nat, 0);
   (15%nat, 0);
   (16%nat, -1);
   (17%nat, 0);
   (18%nat, 0);
   (19%nat, 0);
   (20%nat, 0);
   (21%nat, 0);
   (22%nat, 0);
   (23%nat, 0);
   (24%nat, 0);
   (25%nat, 0);
   (26%nat, 0);
   (27%nat, 0);
   (28%nat, 0);
   (29%nat, 0);
   (30%nat, 0);
   (31%nat, 0);
   (32%nat, 0);
   (33%nat, 0);
   (34%nat, 0);
   (35%nat, 0)].

(** Jwb_Body_to_FrontRightFoot.cpp:54-101, 3x12 *)
Definition out_Jwb_Body_to_FrontRightFoot (q : nat -> R) : list (nat * R) :=
  let t2035 := cos (q 2%nat) in
  let t2043 := sin (q 1%nat) in
  let t2032 := cos (q 1%nat) in
  let t2045 := sin (q 2%nat) in
  [(0%nat, 0 + t2032 * t2035 - 1 * t2043 * t2045);
   (1%nat, 0);
   (2%nat, 0 - 1 * t2035 * t2043 - 1 * t2032 * t2045);
   (3%nat, 0);
   (4%nat, -1);
   (5%nat, 0);
   (6%nat, 0);
   (7%nat, -1);
   (8%nat, 0);
   (9%nat, 0);
   (10%nat, 0);
   (11%nat, 0);
   (12%nat, 0);
   (13%nat, 0);
   (14%nat, 0);
   (15%nat, 0);
   (16%nat, 0);
   (17%nat, 0);
   (18%nat, 0);
   (19%nat, 0);
   (20%nat, 0);
   (21%nat, 0);
   (22%nat, 0);
   (23%nat, 0);
   (24%nat, 0);
   (25%nat, 0);
   (26%nat, 0);
   (27%nat, 0);
   (28%nat, 0);
   (29%nat, 0);
   (30%nat, 0);
   (31%nat, 0);
   (32%nat, 0);
   (33%nat, 0);
   (34%nat, 0);
   (35%nat, 0)].

(** Jwb_Body_to_HindLeftFoot.cpp:54-101, 3x12 *)
Definition out_Jwb_Body_to_HindLeftFoot (q : nat -> R) : list (nat * R) :=
  let t2153 := cos (q 11%nat) in
  let t2161 := sin (q 10%nat) in
  let t2150 := cos (q 10%nat) in
  let t2163 := sin (q 11%nat) in
  [(0%nat, 0);
   (1%nat, 0);
   (2%nat, 0);
   (3%nat, 0);
   (4%nat, 0);
   (5%nat, 0);
   (6%nat, 0);
   (7%nat, 0);
   (8%nat, 0);
   (9%nat, 0);
   (10%nat, 0);
   (11%nat, 0);
   (12%nat, 0);
   (13%nat, 0);
   (14%nat, 0);
   (15%nat, 0);
   (16%nat, 0);
   (17%nat, 0);
   (18%nat, 0);
   (19%nat, 0);
   (20%nat, 0);
   (21%nat, 0);
   (22%nat, 0);
   (23%nat, 0);
   (24%nat, 0);
   (25%nat, 0);
   (26%nat, 0);
   (27%nat, 0 + t2150 * t2153 - 1 * t2161 * t2163);
   (28%nat, 0);
   (29%nat, 0 - 1 * t2153 * t2161 - 1 * t2150 * t2163);
   (30%nat, 0);
   (31%nat, -1);
   (32%nat, 0);
   (33%nat, 0);
   (34%nat, -1);
   (35%nat, 0)].

(** Jwb_Body_to_HindRightFoot.cpp:54-101, 3x12 *)
Definition out_Jwb_Body_to_HindRightFoot (q : nat -> R) : list (nat * R) :=
  let t2271 := cos (q 8%nat) in
  let t2279 := sin (q 7%nat) in
  let t2268 := cos (q 7%nat) in
  let t2281 := sin (q 8%nat) in
  [(0%nat, 0);
   (1%nat, 0);
   (2%nat, 0);
   (3%nat, 0);
   (4%nat, 0);
   (5%nat, 0);
   (6%nat, 0);
   (7%nat, 0);
   (8%nat, 0);
   (9%nat, 0);
   (10%nat, 0);
   (11%nat, 0);
   (12%nat, 0);
   (13%nat, 0);
   (14%nat, 0);
   (15%nat, 0);
   (16%nat, 0);
   (17%nat, 0);
   (18%nat, 0 + t2268 * t2271 - 1 * t2279 * t2281);
   (19%nat, 0);
   (20%nat, 0 - 1 * t2271 * t2279 - 1 * t2268 * t2281);
   (21%nat, 0);
   (22%nat, -1);
   (23%nat, 0);
   (24%nat, 0);
   (25%nat, -1);
   (26%nat, 0);
   (27%nat, 0);
   (28%nat, 0);
   (29%nat, 0);
   (30%nat, 0);
   (31%nat, 0);
   (32%nat, 0);
   (33%nat, 0);
   (34%nat, 0);
   (35%nat, 0)].

(** Jws_Body_to_FrontLeftFoot.cpp:54-105, 3x12 *)
Definition out_Jws_Body_to_FrontLeftFoot (q : nat -> R) : list (nat * R) :=
  let t1971 := cos (q 3%nat) in
  let t1976 := -1 * t1971 in
  let t1979 := 0 + t1976 in
  let t1981 := sin (q 3%nat) in
  let t1986 := -1 * t1981 in
  let t1987 := 0 + t1986 in
  [(0%nat, 0);
   (1%nat, 0);
   (2%nat, 0);
   (3%nat, 0);
   (4%nat, 0);
   (5%nat, 0);
   (6%nat, 0);
   (7%nat, 0);
   (8%nat, 0);
   (9%nat, 1);
   (10%nat, 0);
   (11%nat, 0);
   (12%nat, 0);
   (13%nat, t1979);
   (14%nat, t1987);
   (15%nat, 0);
   (16%nat, t1979);
   (17%nat, t1987);
   (18%nat, 0);
   (19%nat, 0);
   (20%nat, 0);
   (21%nat, 0);
   (22%nat, 0);
   (23%nat, 0);
   (24%nat, 0);
   (25%nat, 0);
   (26%nat, 0);
   (27%nat, 0);
   (28%nat, 0);
   (29%nat, 0);
   (30%nat, 0);
   (31%nat, 0);
   (32%nat, 0);
   (33%nat, 0);
   (34%nat, 0);
   (35%nat, 0)].

(** Jws_Body_to_FrontRightFoot.cpp:54-105, 3x12 *)
Definition out_Jws_Body_to_FrontRightFoot (q : nat -> R) : list (nat * R) :=
  let t2089 := cos (q 0%nat) in
  let t2094 := -1 * t2089 in
  let t2097 := 0 + t2094 in
  let t2099 := sin (q 0%nat) in
  let t2104 := -1 * t2099 in
  let t2105 := 0 + t2104 in
  [(0%nat, 1);
   (1%nat, 0);
   (2%nat, 0);
   (3%nat, 0);
   (4%nat, t2097);
   (5%nat, t2105);
   (6%nat, 0);
   (7%nat, t2097);
   (8%nat, t2105);
   (9%nat, 0);
   (10%nat, 0);
   (11%nat, 0);
   (12%nat, 0);
   (13%nat, 0);
   (14%nat, 0);
   (15%nat, 0);
   (16%nat, 0);
   (17%nat, 0);
   (18%nat, 0);
   (19%nat, 0);
   (20%nat, 0);
   (21%nat, 0);
   (22%nat, 0);
   (23%nat, 0);
   (24%nat, 0);
   (25%nat, 0);
   (26%nat, 0);
   (27%nat, 0);
   (28%nat, 0);
   (29%nat, 0);
   (30%nat, 0);
   (31%nat, 0);
   (32%nat, 0);
   (33%nat, 0);
   (34%nat, 0);
   (35%nat, 0)].

(** Jws_Body_to_HindLeftFoot.cpp:54-105, 3x12 *)
Definition out_Jws_Body_to_HindLeftFoot (q : nat -> R) : list (nat * R) :=
  let t2207 := cos (q 9%nat) in
  let t2212 := -1 * t2207 in
  let t2215 := 0 + t2212 in
  let t2217 := sin (q 9%nat) in
  let t2222 := -1 * t2217 in
  let t2223 := 0 + t2222 in
  [(0%nat, 0);
   (1%nat, 0);
   (2%nat, 0);
   (3%nat, 0);
   (4%nat, 0);
   (5%nat, 0);
   (6%nat, 0);
   (7%nat, 0);
   (8%nat, 0);
   (9%nat, 0);
   (10%nat, 0);
   (11%nat, 0);
   (12%nat, 0);
   (13%nat, 0);
   (14%nat, 0);
   (15%nat, 0);
   (16%nat, 0);
   (17%nat, 0);
   (18%nat, 0);
   (19%nat, 0);
   (20%nat, 0);
   (21%nat, 0);
   (22%nat, 0);
   (23%nat, 0);
   (24%nat, 0);
   (25%nat, 0);
   (26%nat, 0);
   (27%nat, 1);
   (28%nat, 0);
   (29%nat, 0);
   (30%nat, 0);
   (31%nat, t2215);
   (32%nat, t2223);
   (33%nat, 0);
   (34%nat, t2215);
   (35%nat, t2223)].

(** Jws_Body_to_HindRightFoot.cpp:54-105, 3x12 *)
Definition out_Jws_Body_to_HindRightFoot (q : nat -> R) : list (nat * R) :=
  let t2325 := cos (q 6%nat) in
  let t2330 := -1 * t2325 in
  let t2333 := 0 + t2330 in
  let t2335 := sin (q 6%nat) in
  let t2340 := -1 * t2335 in
  let t2341 := 0 + t2340 in
  [(0%nat, 0);
   (1%nat, 0);
   (2%nat, 0);
   (3%nat, 0);
   (4%nat, 0);
   (5%nat, 0);
   (6%nat, 0);
   (7%nat, 0);
   (8%nat, 0);
   (9%nat, 0);
   (10%nat, 0);
   (11%nat, 0);
   (12%nat, 0);
   (13%nat, 0);
   (14%nat, 0);
   (15%nat, 0);
   (16%nat, 0);
   (17%nat, 0);
   (18%nat, 1);
   (19%nat, 0);
   (20%nat, 0);
   (21%nat, 0);
   (22%nat, t2333);
   (23%nat, t2341);
   (24%nat, 0);
   (25%nat, t2333);
   (26%nat, t2341);
   (27%nat, 0);
   (28%nat, 0);
   (29%nat, 0);
   (30%nat, 0);
   (31%nat, 0);
   (32%nat, 0);
   (33%nat, 0);
   (34%nat, 0);
   (35%nat, 0)].

(** R_Body_to_FrontLeftFoot.cpp:54-78, 3x3 *)
Definition out_R_Body_to_FrontLeftFoot (q : nat -> R) : list (nat * R) :=
  let t725 := cos (q 5%nat) in
  let t741 := sin (q 4%nat) in
  let t717 := cos (q 4%nat) in
  let t751 := sin (q 3%nat) in
  let t744 := sin (q 5%nat) in
  let t759 := cos (q 3%nat) in
  [(0%nat, 0 + t717 * t725 - 1 * t741 * t744);
   (1%nat, 0 - 1 * t725 * t741 * t751 - 1 * t717 * t744 * t751);
   (2%nat, 0 + t725 * t741 * t759 + t717 * t744 * t759);
   (3%nat, 0);
   (4%nat, 0 + t759);
   (5%nat, 0 + t751);
   (6%nat, 0 - 1 * t725 * t741 - 1 * t717 * t744);
   (7%nat, 0 - 1 * t717 * t725 * t751 + t741 * t744 * t751);
   (8%nat, 0 + t717 * t725 * t759 - 1 * t741 * t744 * t759)].

(** R_Body_to_FrontRightFoot.cpp:54-78, 3x3 *)
Definition out_R_Body_to_FrontRightFoot (q : nat -> R) : list (nat * R) :=
  let t843 := cos (q 2%nat) in
  let t859 := sin (q 1%nat) in
  let t835 := cos (q 1%nat) in
  let t869 := sin (q 0%nat) in
  let t862 := sin (q 2%nat) in
  let t877 := cos (q 0%nat) in
  [(0%nat, 0 + t835 * t843 - 1 * t859 * t862);
   (1%nat, 0 - 1 * t843 * t859 * t869 - 1 * t835 * t862 * t869);
   (2%nat, 0 + t843 * t859 * t877 + t835 * t862 * t877);
   (3%nat, 0);
   (4%nat, 0 + t877);
   (5%nat, 0 + t869);
   (6%nat, 0 - 1 * t843 * t859 - 1 * t835 * t862);
   (7%nat, 0 - 1 * t835 * t843 * t869 + t859 * t862 * t869);
   (8%nat, 0 + t835 * t843 * t877 - 1 * t859 * t862 * t877)].

(** R_Body_to_HindLeftFoot.cpp:54-78, 3x3 *)
Definition out_R_Body_to_HindLeftFoot (q : nat -> R) : list (nat * R) :=
  let t961 := cos (q 11%nat) in
  let t977 := sin (q 10%nat) in
  let t953 := cos (q 10%nat) in
  let t987 := sin (q 9%nat) in
  let t980 := sin (q 11%nat) in
  let t995 := cos (q 9%nat) in
  [(0%nat, 0 + t953 * t961 - 1 * t977 * t980);
   (1%nat, 0 - 1 * t961 * t977 * t987 - 1 * t953 * t980 * t987);
   (2%nat, 0 + t961 * t977 * t995 + t953 * t980 * t995);
   (3%nat, 0);
   (4%nat, 0 + t995);
   (5%nat, 0 + t987);
   (6%nat, 0 - 1 * t961 * t977 - 1 * t953 * t980);
   (7%nat, 0 - 1 * t953 * t961 * t987 + t977 * t980 * t987);
   (8%nat, 0 + t953 * t961 * t995 - 1 * t977 * t980 * t995)].

(** R_Body_to_HindRightFoot.cpp:54-78, 3x3 *)
Definition out_R_Body_to_HindRightFoot (q : nat -> R) : list (nat * R) :=
  let t1079 := cos (q 8%nat) in
  let t1095 := sin (q 7%nat) in
  let t1071 := cos (q 7%nat) in
  let t1105 := sin (q 6%nat) in
  let t1098 := sin (q 8%nat) in
  let t1113 := cos (q 6%nat) in
  [(0%nat, 0 + t1071 * t1079 - 1 * t1095 * t1098);
   (1%nat, 0 - 1 * t1079 * t1095 * t1105 - 1 * t1071 * t1098 * t1105);
   (2%nat, 0 + t1079 * t1095 * t1113 + t1071 * t1098 * t1113);
   (3%nat, 0);
   (4%nat, 0 + t1113);
   (5%nat, 0 + t1105);
   (6%nat, 0 - 1 * t1079 * t1095 - 1 * t1071 * t1098);
   (7%nat, 0 - 1 * t1071 * t1079 * t1105 + t1095 * t1098 * t1105);
   (8%nat, 0 + t1071 * t1079 * t1113 - 1 * t1095 * t1098 * t1113)].

(** p_Body_to_FrontLeftFoot.cpp:54-101, 3x1 *)
Definition out_p_Body_to_FrontLeftFoot (q : nat -> R) : list (nat * R) :=
  let t745 := cos (q 4%nat) in
  let t767 := cos (q 5%nat) in
  let t769 := -1 * t767 in
  let t771 := 1 + t769 in
  let t774 := sin (q 5%nat) in
  let t779 := sin (q 4%nat) in
  let t796 := cos (q 3%nat) in
  let t801 := sin (q 3%nat) in
  let t772 := (19 / 100) * t771 in
  let t775 := -(209 / 1000) * t774 in
  let t776 := 0 + t772 + t775 in
  let t780 := -(209 / 1000) * t771 in
  let t781 := -(19 / 100) * t774 in
  let t782 := 0 + t780 + t781 in
  let t802 := -(19 / 100) * t779 in
  let t803 := 0 + t802 in
  [(0%nat, 0 + (19 / 100) * (1 - 1 * t745) + t745 * t776 - (4165 / 10000) * (-1 * t745 * t774 - 1 * t767 * t779) + (19 / 100) * (t745 * t767 - 1 * t774 * t779) - 1 * t779 * t782);
   (1%nat, 0 + (49 / 1000) * (1 - 1 * t796) + (111 / 1000) * t796 - 1 * t776 * t779 * t801 - 1 * t745 * t782 * t801 + (19 / 100) * (-1 * t745 * t774 * t801 - 1 * t767 * t779 * t801) - (4165 / 10000) * (-1 * t745 * t767 * t801 + t774 * t779 * t801) - 1 * t801 * t803);
   (2%nat, 0 + t776 * t779 * t796 + t745 * t782 * t796 + (19 / 100) * (t745 * t774 * t796 + t767 * t779 * t796) - (4165 / 10000) * (t745 * t767 * t796 - 1 * t774 * t779 * t796) + (62 / 1000) * t801 + t796 * t803)].

(** p_Body_to_FrontRightFoot.cpp:54-101, 3x1 *)
Definition out_p_Body_to_FrontRightFoot (q : nat -> R) : list (nat * R) :=
  let t863 := cos (q 1%nat) in
  let t885 := cos (q 2%nat) in
  let t887 := -1 * t885 in
  let t889 := 1 + t887 in
  let t892 := sin (q 2%nat) in
  let t897 := sin (q 1%nat) in
  let t914 := cos (q 0%nat) in
  let t919 := sin (q 0%nat) in
  let t890 := (19 / 100) * t889 in
  let t893 := -(209 / 1000) * t892 in
  let t894 := 0 + t890 + t893 in
  let t898 := -(209 / 1000) * t889 in
  let t899 := -(19 / 100) * t892 in
  let t900 := 0 + t898 + t899 in
  let t920 := -(19 / 100) * t897 in
  let t921 := 0 + t920 in
  [(0%nat, 0 + (19 / 100) * (1 - 1 * t863) + t863 * t894 - (4165 / 10000) * (-1 * t863 * t892 - 1 * t885 * t897) + (19 / 100) * (t863 * t885 - 1 * t892 * t897) - 1 * t897 * t900);
   (1%nat, 0 - (49 / 1000) * (1 - 1 * t914) - (111 / 1000) * t914 - 1 * t894 * t897 * t919 - 1 * t863 * t900 * t919 + (19 / 100) * (-1 * t863 * t892 * t919 - 1 * t885 * t897 * t919) - (4165 / 10000) * (-1 * t863 * t885 * t919 + t892 * t897 * t919) - 1 * t919 * t921);
   (2%nat, 0 + t894 * t897 * t914 + t863 * t900 * t914 + (19 / 100) * (t863 * t892 * t914 + t885 * t897 * t914) - (4165 / 10000) * (t863 * t885 * t914 - 1 * t892 * t897 * t914) - (62 / 1000) * t919 + t914 * t921)].

(** p_Body_to_HindLeftFoot.cpp:54-92, 3x1 *)
Definition out_p_Body_to_HindLeftFoot (q : nat -> R) : list (nat * R) :=
  let t981 := cos (q 10%nat) in
  let t1003 := cos (q 11%nat) in
  let t1005 := -1*t1003 in
  let t1007 := 1 + t1005 in
  let t1010 := sin (q 11%nat) in
  let t1015 := sin (q 10%nat) in
  let t1032 := cos (q 9%nat) in
  let t1037 := sin (q 9%nat) in
  let t1008 := -(19 / 100)*t1007 in
  let t1011 := -(209 / 1000)*t1010 in
  let t1012 := 0 + t1008 + t1011 in
  let t1016 := -(209 / 1000)*t1007 in
  let t1017 := (19 / 100)*t1010 in
  let t1018 := 0 + t1016 + t1017 in
  let t1038 := (19 / 100)*t1015 in
  let t1039 := 0 + t1038 in
  [(0%nat, 0 - 1*t1015*t1018 - (19 / 100)*(1 - 1*t981) + t1012*t981 - (19 / 100)*(-1*t1010*t1015 + t1003*t981) - (4165 / 10000)*(-1*t1003*t1015 - 1*t1010*t981));
   (1%nat, 0 + (49 / 1000)*(1 - 1*t1032) + (111 / 1000)*t1032 - 1*t1012*t1015*t1037 - 1*t1037*t1039 - 1*t1018*t1037*t981 - (4165 / 10000)*(t1010*t1015*t1037 - 1*t1003*t1037*t981) - (19 / 100)*(-1*t1003*t1015*t1037 - 1*t1010*t1037*t981));
   (2%nat, 0 + t1012*t1015*t1032 + (62 / 1000)*t1037 + t1032*t1039 + t1018*t1032*t981 - (4165 / 10000)*(-1*t1010*t1015*t1032 + t1003*t1032*t981) - (19 / 100)*(t1003*t1015*t1032 + t1010*t1032*t981))].

(** p_Body_to_HindRightFoot.cpp:54-103, 3x1 *)
Definition out_p_Body_to_HindRightFoot (q : nat -> R) : list (nat * R) :=
  let t1099 := cos (q 7%nat) in
  let t1121 := cos (q 8%nat) in
  let t1123 := -1 * t1121 in
  let t1125 := 1 + t1123 in
  let t1128 := sin (q 8%nat) in
  let t1133 := sin (q 7%nat) in
  let t1150 := cos (q 6%nat) in
  let t1155 := sin (q 6%nat) in
  let t1126 := -(19 / 100) * t1125 in
  let t1129 := -(209 / 1000) * t1128 in
  let t1130 := 0 + t1126 + t1129 in
  let t1134 := -(209 / 1000) * t1125 in
  let t1135 := (19 / 100) * t1128 in
  let t1136 := 0 + t1134 + t1135 in
  let t1156 := (19 / 100) * t1133 in
  let t1157 := 0 + t1156 in
  [(0%nat, 0 - (19 / 100) * (1 - 1 * t1099) + t1099 * t1130 - (4165 / 10000) * (-1 * t1099 * t1128 - 1 * t1121 * t1133) - (19 / 100) * (t1099 * t1121 - 1 * t1128 * t1133) - 1 * t1133 * t1136);
   (1%nat, 0 - (49 / 1000) * (1 - 1 * t1150) - (111 / 1000) * t1150 - 1 * t1130 * t1133 * t1155 - 1 * t1099 * t1136 * t1155 - (19 / 100) * (-1 * t1099 * t1128 * t1155 - 1 * t1121 * t1133 * t1155) - (4165 / 10000) * (-1 * t1099 * t1121 * t1155 + t1128 * t1133 * t1155) - 1 * t1155 * t1157);
   (2%nat, 0 + t1130 * t1133 * t1150 + t1099 * t1136 * t1150 - (19 / 100) * (t1099 * t1128 * t1150 + t1121 * t1133 * t1150) - (4165 / 10000) * (t1099 * t1121 * t1150 - 1 * t1128 * t1133 * t1150) - (62 / 1000) * t1155 + t1150 * t1157)].
