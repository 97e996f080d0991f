(** GENERATED from /repo/pillowcore/parser/parser.c lines 88-1139 by a mechanical translation of its
    [switch (cs)] (each [case N:] becomes [st_N]; [goto stM] becomes [TGo [] M], [goto trK] becomes [TGo]
    with the actions of label trK in their textual order, [goto st0] becomes [TErr]; tr22, which runs the
    [done] action and leaves the loop, becomes [TDone]).  [c] is the signed value of [*p]. *)
From Coq Require Import List ZArith Bool.
Import ListNotations.
Open Scope Z_scope.

(** The actions of parser.rl 22-71 as named there. *)
Inductive act :=
| A_mark            (* parser.rl 22 mark, and 30 start_value: both are MARK(mark, p) *)
| A_start_field     (* parser.rl 25 *)
| A_write_field     (* parser.rl 26-28 *)
| A_write_value     (* parser.rl 31-35 *)
| A_request_method  (* parser.rl 36-39 *)
| A_request_uri     (* parser.rl 40-43 *)
| A_fragment        (* parser.rl 44-47 *)
| A_start_query     (* parser.rl 49 *)
| A_query_string    (* parser.rl 50-53 *)
| A_http_version    (* parser.rl 55-58 *)
| A_request_path.   (* parser.rl 60-63 *)

Inductive tr :=
| TErr                          (* goto st0: cs = 0; p not advanced *)
| TGo (acts : list act) (next : Z)
| TDone.                        (* tr22, parser.c 379-388 *)

(* parser.c case 1, line 93 *)
Definition st_1 (c : Z) : tr :=
    if c =? 36 then TGo [A_mark] 2 else
    if c =? 95 then TGo [A_mark] 2 else
    (if (c <? 48) then (if ((45 <=? c) && (c <=? 46)) then TGo [A_mark] 2
     else TErr)
     else (if (57 <? c) then (if ((65 <=? c) && (c <=? 90)) then TGo [A_mark] 2
     else TErr)
     else TGo [A_mark] 2)).

(* parser.c case 2, line 117 *)
Definition st_2 (c : Z) : tr :=
    if c =? 32 then TGo [A_request_method] 3 else
    if c =? 36 then TGo [] 39 else
    if c =? 95 then TGo [] 39 else
    (if (c <? 48) then (if ((45 <=? c) && (c <=? 46)) then TGo [] 39
     else TErr)
     else (if (57 <? c) then (if ((65 <=? c) && (c <=? 90)) then TGo [] 39
     else TErr)
     else TGo [] 39)).

(* parser.c case 3, line 143 *)
Definition st_3 (c : Z) : tr :=
    if c =? 42 then TGo [A_mark] 4 else
    if c =? 43 then TGo [A_mark] 25 else
    if c =? 47 then TGo [A_mark] 30 else
    if c =? 58 then TGo [A_mark] 26 else
    (if (c <? 65) then (if ((45 <=? c) && (c <=? 57)) then TGo [A_mark] 25
     else TErr)
     else (if (90 <? c) then (if ((97 <=? c) && (c <=? 122)) then TGo [A_mark] 25
     else TErr)
     else TGo [A_mark] 25)).

(* parser.c case 4, line 167 *)
Definition st_4 (c : Z) : tr :=
    if c =? 32 then TGo [A_request_uri] 5 else
    if c =? 35 then TGo [A_request_uri] 20 else
    TErr.

(* parser.c case 5, line 238 *)
Definition st_5 (c : Z) : tr :=
    (if (c =? 72) then TGo [A_mark] 6
     else TErr).

(* parser.c case 6, line 250 *)
Definition st_6 (c : Z) : tr :=
    (if (c =? 84) then TGo [] 7
     else TErr).

(* parser.c case 7, line 258 *)
Definition st_7 (c : Z) : tr :=
    (if (c =? 84) then TGo [] 8
     else TErr).

(* parser.c case 8, line 265 *)
Definition st_8 (c : Z) : tr :=
    (if (c =? 80) then TGo [] 9
     else TErr).

(* parser.c case 9, line 272 *)
Definition st_9 (c : Z) : tr :=
    (if (c =? 47) then TGo [] 10
     else TErr).

(* parser.c case 10, line 279 *)
Definition st_10 (c : Z) : tr :=
    (if ((48 <=? c) && (c <=? 57)) then TGo [] 11
     else TErr).

(* parser.c case 11, line 286 *)
Definition st_11 (c : Z) : tr :=
    (if (c =? 46) then TGo [] 12
     else (if ((48 <=? c) && (c <=? 57)) then TGo [] 11
     else TErr)).

(* parser.c case 12, line 295 *)
Definition st_12 (c : Z) : tr :=
    (if ((48 <=? c) && (c <=? 57)) then TGo [] 13
     else TErr).

(* parser.c case 13, line 302 *)
Definition st_13 (c : Z) : tr :=
    (if (c =? 13) then TGo [A_http_version] 14
     else (if ((48 <=? c) && (c <=? 57)) then TGo [] 13
     else TErr)).

(* parser.c case 14, line 336 *)
Definition st_14 (c : Z) : tr :=
    (if (c =? 10) then TGo [] 15
     else TErr).

(* parser.c case 15, line 344 *)
Definition st_15 (c : Z) : tr :=
    if c =? 13 then TGo [] 16 else
    if c =? 33 then TGo [A_start_field] 17 else
    if c =? 124 then TGo [A_start_field] 17 else
    if c =? 126 then TGo [A_start_field] 17 else
    (if (c <? 45) then (if (39 <? c) then (if ((42 <=? c) && (c <=? 43)) then TGo [A_start_field] 17
     else TErr)
     else (if (35 <=? c) then TGo [A_start_field] 17
     else TErr))
     else (if (46 <? c) then (if (c <? 65) then (if ((48 <=? c) && (c <=? 57)) then TGo [A_start_field] 17
     else TErr)
     else (if (90 <? c) then (if ((94 <=? c) && (c <=? 122)) then TGo [A_start_field] 17
     else TErr)
     else TGo [A_start_field] 17))
     else TGo [A_start_field] 17)).

(* parser.c case 16, line 372 *)
Definition st_16 (c : Z) : tr :=
    (if (c =? 10) then TDone
     else TErr).

(* parser.c case 17, line 399 *)
Definition st_17 (c : Z) : tr :=
    if c =? 33 then TGo [] 17 else
    if c =? 58 then TGo [A_write_field] 18 else
    if c =? 124 then TGo [] 17 else
    if c =? 126 then TGo [] 17 else
    (if (c <? 45) then (if (39 <? c) then (if ((42 <=? c) && (c <=? 43)) then TGo [] 17
     else TErr)
     else (if (35 <=? c) then TGo [] 17
     else TErr))
     else (if (46 <? c) then (if (c <? 65) then (if ((48 <=? c) && (c <=? 57)) then TGo [] 17
     else TErr)
     else (if (90 <? c) then (if ((94 <=? c) && (c <=? 122)) then TGo [] 17
     else TErr)
     else TGo [] 17))
     else TGo [] 17)).

(* parser.c case 18, line 438 *)
Definition st_18 (c : Z) : tr :=
    if c =? 13 then TGo [A_mark; A_write_value] 14 else
    if c =? 32 then TGo [A_mark] 18 else
    TGo [A_mark] 19.

(* parser.c case 19, line 452 *)
Definition st_19 (c : Z) : tr :=
    (if (c =? 13) then TGo [A_write_value] 14
     else TGo [] 19).

(* parser.c case 20, line 505 *)
Definition st_20 (c : Z) : tr :=
    if c =? 32 then TGo [A_mark; A_fragment] 5 else
    if c =? 35 then TErr else
    if c =? 37 then TGo [A_mark] 22 else
    if c =? 127 then TErr else
    (if ((0 <=? c) && (c <=? 31)) then TErr
     else TGo [A_mark] 21).

(* parser.c case 21, line 523 *)
Definition st_21 (c : Z) : tr :=
    if c =? 32 then TGo [A_fragment] 5 else
    if c =? 35 then TErr else
    if c =? 37 then TGo [] 22 else
    if c =? 127 then TErr else
    (if ((0 <=? c) && (c <=? 31)) then TErr
     else TGo [] 21).

(* parser.c case 22, line 541 *)
Definition st_22 (c : Z) : tr :=
    (if (c =? 117) then TGo [] 24
     else (if (c <? 65) then (if ((48 <=? c) && (c <=? 57)) then TGo [] 23
     else TErr)
     else (if (70 <? c) then (if ((97 <=? c) && (c <=? 102)) then TGo [] 23
     else TErr)
     else TGo [] 23))).

(* parser.c case 23, line 557 *)
Definition st_23 (c : Z) : tr :=
    (if (c <? 65) then (if ((48 <=? c) && (c <=? 57)) then TGo [] 21
     else TErr)
     else (if (70 <? c) then (if ((97 <=? c) && (c <=? 102)) then TGo [] 21
     else TErr)
     else TGo [] 21)).

(* parser.c case 24, line 570 *)
Definition st_24 (c : Z) : tr :=
    (if (c <? 65) then (if ((48 <=? c) && (c <=? 57)) then TGo [] 23
     else TErr)
     else (if (70 <? c) then (if ((97 <=? c) && (c <=? 102)) then TGo [] 23
     else TErr)
     else TGo [] 23)).

(* parser.c case 25, line 587 *)
Definition st_25 (c : Z) : tr :=
    if c =? 43 then TGo [] 25 else
    if c =? 58 then TGo [] 26 else
    (if (c <? 48) then (if ((45 <=? c) && (c <=? 46)) then TGo [] 25
     else TErr)
     else (if (57 <? c) then (if (90 <? c) then (if ((97 <=? c) && (c <=? 122)) then TGo [] 25
     else TErr)
     else (if (65 <=? c) then TGo [] 25
     else TErr))
     else TGo [] 25)).

(* parser.c case 26, line 612 *)
Definition st_26 (c : Z) : tr :=
    if c =? 32 then TGo [A_request_uri] 5 else
    if c =? 35 then TGo [A_request_uri] 20 else
    if c =? 37 then TGo [] 27 else
    if c =? 127 then TErr else
    (if ((0 <=? c) && (c <=? 31)) then TErr
     else TGo [] 26).

(* parser.c case 27, line 626 *)
Definition st_27 (c : Z) : tr :=
    (if (c =? 117) then TGo [] 29
     else (if (c <? 65) then (if ((48 <=? c) && (c <=? 57)) then TGo [] 28
     else TErr)
     else (if (70 <? c) then (if ((97 <=? c) && (c <=? 102)) then TGo [] 28
     else TErr)
     else TGo [] 28))).

(* parser.c case 28, line 641 *)
Definition st_28 (c : Z) : tr :=
    (if (c <? 65) then (if ((48 <=? c) && (c <=? 57)) then TGo [] 26
     else TErr)
     else (if (70 <? c) then (if ((97 <=? c) && (c <=? 102)) then TGo [] 26
     else TErr)
     else TGo [] 26)).

(* parser.c case 29, line 654 *)
Definition st_29 (c : Z) : tr :=
    (if (c <? 65) then (if ((48 <=? c) && (c <=? 57)) then TGo [] 28
     else TErr)
     else (if (70 <? c) then (if ((97 <=? c) && (c <=? 102)) then TGo [] 28
     else TErr)
     else TGo [] 28)).

(* parser.c case 30, line 671 *)
Definition st_30 (c : Z) : tr :=
    if c =? 32 then TGo [A_request_path; A_request_uri] 5 else
    if c =? 35 then TGo [A_request_path; A_request_uri] 20 else
    if c =? 37 then TGo [] 31 else
    if c =? 63 then TGo [A_request_path] 34 else
    if c =? 127 then TErr else
    (if ((0 <=? c) && (c <=? 31)) then TErr
     else TGo [] 30).

(* parser.c case 31, line 686 *)
Definition st_31 (c : Z) : tr :=
    (if (c =? 117) then TGo [] 33
     else (if (c <? 65) then (if ((48 <=? c) && (c <=? 57)) then TGo [] 32
     else TErr)
     else (if (70 <? c) then (if ((97 <=? c) && (c <=? 102)) then TGo [] 32
     else TErr)
     else TGo [] 32))).

(* parser.c case 32, line 701 *)
Definition st_32 (c : Z) : tr :=
    (if (c <? 65) then (if ((48 <=? c) && (c <=? 57)) then TGo [] 30
     else TErr)
     else (if (70 <? c) then (if ((97 <=? c) && (c <=? 102)) then TGo [] 30
     else TErr)
     else TGo [] 30)).

(* parser.c case 33, line 714 *)
Definition st_33 (c : Z) : tr :=
    (if (c <? 65) then (if ((48 <=? c) && (c <=? 57)) then TGo [] 32
     else TErr)
     else (if (70 <? c) then (if ((97 <=? c) && (c <=? 102)) then TGo [] 32
     else TErr)
     else TGo [] 32)).

(* parser.c case 34, line 734 *)
Definition st_34 (c : Z) : tr :=
    if c =? 32 then TGo [A_start_query; A_query_string; A_request_uri] 5 else
    if c =? 35 then TGo [A_start_query; A_query_string; A_request_uri] 20 else
    if c =? 37 then TGo [A_start_query] 36 else
    if c =? 127 then TErr else
    (if ((0 <=? c) && (c <=? 31)) then TErr
     else TGo [A_start_query] 35).

(* parser.c case 35, line 752 *)
Definition st_35 (c : Z) : tr :=
    if c =? 32 then TGo [A_query_string; A_request_uri] 5 else
    if c =? 35 then TGo [A_query_string; A_request_uri] 20 else
    if c =? 37 then TGo [] 36 else
    if c =? 127 then TErr else
    (if ((0 <=? c) && (c <=? 31)) then TErr
     else TGo [] 35).

(* parser.c case 36, line 770 *)
Definition st_36 (c : Z) : tr :=
    (if (c =? 117) then TGo [] 38
     else (if (c <? 65) then (if ((48 <=? c) && (c <=? 57)) then TGo [] 37
     else TErr)
     else (if (70 <? c) then (if ((97 <=? c) && (c <=? 102)) then TGo [] 37
     else TErr)
     else TGo [] 37))).

(* parser.c case 37, line 786 *)
Definition st_37 (c : Z) : tr :=
    (if (c <? 65) then (if ((48 <=? c) && (c <=? 57)) then TGo [] 35
     else TErr)
     else (if (70 <? c) then (if ((97 <=? c) && (c <=? 102)) then TGo [] 35
     else TErr)
     else TGo [] 35)).

(* parser.c case 38, line 799 *)
Definition st_38 (c : Z) : tr :=
    (if (c <? 65) then (if ((48 <=? c) && (c <=? 57)) then TGo [] 37
     else TErr)
     else (if (70 <? c) then (if ((97 <=? c) && (c <=? 102)) then TGo [] 37
     else TErr)
     else TGo [] 37)).

(* parser.c case 39, line 812 *)
Definition st_39 (c : Z) : tr :=
    if c =? 32 then TGo [A_request_method] 3 else
    if c =? 36 then TGo [] 40 else
    if c =? 95 then TGo [] 40 else
    (if (c <? 48) then (if ((45 <=? c) && (c <=? 46)) then TGo [] 40
     else TErr)
     else (if (57 <? c) then (if ((65 <=? c) && (c <=? 90)) then TGo [] 40
     else TErr)
     else TGo [] 40)).

(* parser.c case 40, line 830 *)
Definition st_40 (c : Z) : tr :=
    if c =? 32 then TGo [A_request_method] 3 else
    if c =? 36 then TGo [] 41 else
    if c =? 95 then TGo [] 41 else
    (if (c <? 48) then (if ((45 <=? c) && (c <=? 46)) then TGo [] 41
     else TErr)
     else (if (57 <? c) then (if ((65 <=? c) && (c <=? 90)) then TGo [] 41
     else TErr)
     else TGo [] 41)).

(* parser.c case 41, line 848 *)
Definition st_41 (c : Z) : tr :=
    if c =? 32 then TGo [A_request_method] 3 else
    if c =? 36 then TGo [] 42 else
    if c =? 95 then TGo [] 42 else
    (if (c <? 48) then (if ((45 <=? c) && (c <=? 46)) then TGo [] 42
     else TErr)
     else (if (57 <? c) then (if ((65 <=? c) && (c <=? 90)) then TGo [] 42
     else TErr)
     else TGo [] 42)).

(* parser.c case 42, line 866 *)
Definition st_42 (c : Z) : tr :=
    if c =? 32 then TGo [A_request_method] 3 else
    if c =? 36 then TGo [] 43 else
    if c =? 95 then TGo [] 43 else
    (if (c <? 48) then (if ((45 <=? c) && (c <=? 46)) then TGo [] 43
     else TErr)
     else (if (57 <? c) then (if ((65 <=? c) && (c <=? 90)) then TGo [] 43
     else TErr)
     else TGo [] 43)).

(* parser.c case 43, line 884 *)
Definition st_43 (c : Z) : tr :=
    if c =? 32 then TGo [A_request_method] 3 else
    if c =? 36 then TGo [] 44 else
    if c =? 95 then TGo [] 44 else
    (if (c <? 48) then (if ((45 <=? c) && (c <=? 46)) then TGo [] 44
     else TErr)
     else (if (57 <? c) then (if ((65 <=? c) && (c <=? 90)) then TGo [] 44
     else TErr)
     else TGo [] 44)).

(* parser.c case 44, line 902 *)
Definition st_44 (c : Z) : tr :=
    if c =? 32 then TGo [A_request_method] 3 else
    if c =? 36 then TGo [] 45 else
    if c =? 95 then TGo [] 45 else
    (if (c <? 48) then (if ((45 <=? c) && (c <=? 46)) then TGo [] 45
     else TErr)
     else (if (57 <? c) then (if ((65 <=? c) && (c <=? 90)) then TGo [] 45
     else TErr)
     else TGo [] 45)).

(* parser.c case 45, line 920 *)
Definition st_45 (c : Z) : tr :=
    if c =? 32 then TGo [A_request_method] 3 else
    if c =? 36 then TGo [] 46 else
    if c =? 95 then TGo [] 46 else
    (if (c <? 48) then (if ((45 <=? c) && (c <=? 46)) then TGo [] 46
     else TErr)
     else (if (57 <? c) then (if ((65 <=? c) && (c <=? 90)) then TGo [] 46
     else TErr)
     else TGo [] 46)).

(* parser.c case 46, line 938 *)
Definition st_46 (c : Z) : tr :=
    if c =? 32 then TGo [A_request_method] 3 else
    if c =? 36 then TGo [] 47 else
    if c =? 95 then TGo [] 47 else
    (if (c <? 48) then (if ((45 <=? c) && (c <=? 46)) then TGo [] 47
     else TErr)
     else (if (57 <? c) then (if ((65 <=? c) && (c <=? 90)) then TGo [] 47
     else TErr)
     else TGo [] 47)).

(* parser.c case 47, line 956 *)
Definition st_47 (c : Z) : tr :=
    if c =? 32 then TGo [A_request_method] 3 else
    if c =? 36 then TGo [] 48 else
    if c =? 95 then TGo [] 48 else
    (if (c <? 48) then (if ((45 <=? c) && (c <=? 46)) then TGo [] 48
     else TErr)
     else (if (57 <? c) then (if ((65 <=? c) && (c <=? 90)) then TGo [] 48
     else TErr)
     else TGo [] 48)).

(* parser.c case 48, line 974 *)
Definition st_48 (c : Z) : tr :=
    if c =? 32 then TGo [A_request_method] 3 else
    if c =? 36 then TGo [] 49 else
    if c =? 95 then TGo [] 49 else
    (if (c <? 48) then (if ((45 <=? c) && (c <=? 46)) then TGo [] 49
     else TErr)
     else (if (57 <? c) then (if ((65 <=? c) && (c <=? 90)) then TGo [] 49
     else TErr)
     else TGo [] 49)).

(* parser.c case 49, line 992 *)
Definition st_49 (c : Z) : tr :=
    if c =? 32 then TGo [A_request_method] 3 else
    if c =? 36 then TGo [] 50 else
    if c =? 95 then TGo [] 50 else
    (if (c <? 48) then (if ((45 <=? c) && (c <=? 46)) then TGo [] 50
     else TErr)
     else (if (57 <? c) then (if ((65 <=? c) && (c <=? 90)) then TGo [] 50
     else TErr)
     else TGo [] 50)).

(* parser.c case 50, line 1010 *)
Definition st_50 (c : Z) : tr :=
    if c =? 32 then TGo [A_request_method] 3 else
    if c =? 36 then TGo [] 51 else
    if c =? 95 then TGo [] 51 else
    (if (c <? 48) then (if ((45 <=? c) && (c <=? 46)) then TGo [] 51
     else TErr)
     else (if (57 <? c) then (if ((65 <=? c) && (c <=? 90)) then TGo [] 51
     else TErr)
     else TGo [] 51)).

(* parser.c case 51, line 1028 *)
Definition st_51 (c : Z) : tr :=
    if c =? 32 then TGo [A_request_method] 3 else
    if c =? 36 then TGo [] 52 else
    if c =? 95 then TGo [] 52 else
    (if (c <? 48) then (if ((45 <=? c) && (c <=? 46)) then TGo [] 52
     else TErr)
     else (if (57 <? c) then (if ((65 <=? c) && (c <=? 90)) then TGo [] 52
     else TErr)
     else TGo [] 52)).

(* parser.c case 52, line 1046 *)
Definition st_52 (c : Z) : tr :=
    if c =? 32 then TGo [A_request_method] 3 else
    if c =? 36 then TGo [] 53 else
    if c =? 95 then TGo [] 53 else
    (if (c <? 48) then (if ((45 <=? c) && (c <=? 46)) then TGo [] 53
     else TErr)
     else (if (57 <? c) then (if ((65 <=? c) && (c <=? 90)) then TGo [] 53
     else TErr)
     else TGo [] 53)).

(* parser.c case 53, line 1064 *)
Definition st_53 (c : Z) : tr :=
    if c =? 32 then TGo [A_request_method] 3 else
    if c =? 36 then TGo [] 54 else
    if c =? 95 then TGo [] 54 else
    (if (c <? 48) then (if ((45 <=? c) && (c <=? 46)) then TGo [] 54
     else TErr)
     else (if (57 <? c) then (if ((65 <=? c) && (c <=? 90)) then TGo [] 54
     else TErr)
     else TGo [] 54)).

(* parser.c case 54, line 1082 *)
Definition st_54 (c : Z) : tr :=
    if c =? 32 then TGo [A_request_method] 3 else
    if c =? 36 then TGo [] 55 else
    if c =? 95 then TGo [] 55 else
    (if (c <? 48) then (if ((45 <=? c) && (c <=? 46)) then TGo [] 55
     else TErr)
     else (if (57 <? c) then (if ((65 <=? c) && (c <=? 90)) then TGo [] 55
     else TErr)
     else TGo [] 55)).

(* parser.c case 55, line 1100 *)
Definition st_55 (c : Z) : tr :=
    if c =? 32 then TGo [A_request_method] 3 else
    if c =? 36 then TGo [] 56 else
    if c =? 95 then TGo [] 56 else
    (if (c <? 48) then (if ((45 <=? c) && (c <=? 46)) then TGo [] 56
     else TErr)
     else (if (57 <? c) then (if ((65 <=? c) && (c <=? 90)) then TGo [] 56
     else TErr)
     else TGo [] 56)).

(* parser.c case 56, line 1118 *)
Definition st_56 (c : Z) : tr :=
    if c =? 32 then TGo [A_request_method] 3 else
    if c =? 36 then TGo [] 57 else
    if c =? 95 then TGo [] 57 else
    (if (c <? 48) then (if ((45 <=? c) && (c <=? 46)) then TGo [] 57
     else TErr)
     else (if (57 <? c) then (if ((65 <=? c) && (c <=? 90)) then TGo [] 57
     else TErr)
     else TGo [] 57)).

(* parser.c case 57, line 1136 *)
Definition st_57 (c : Z) : tr :=
    (if (c =? 32) then TGo [A_request_method] 3
     else TErr).

(* parser.c case 58, line 389 *)
Definition st_58 (c : Z) : tr :=
    TErr.

(* parser.c 91-1139 switch (cs); a value without a case (the error state 0) leaves the switch at once *)
Definition trans (cs c : Z) : tr :=
  match cs with
  | 1 => st_1 c
  | 2 => st_2 c
  | 3 => st_3 c
  | 4 => st_4 c
  | 5 => st_5 c
  | 6 => st_6 c
  | 7 => st_7 c
  | 8 => st_8 c
  | 9 => st_9 c
  | 10 => st_10 c
  | 11 => st_11 c
  | 12 => st_12 c
  | 13 => st_13 c
  | 14 => st_14 c
  | 15 => st_15 c
  | 16 => st_16 c
  | 17 => st_17 c
  | 18 => st_18 c
  | 19 => st_19 c
  | 20 => st_20 c
  | 21 => st_21 c
  | 22 => st_22 c
  | 23 => st_23 c
  | 24 => st_24 c
  | 25 => st_25 c
  | 26 => st_26 c
  | 27 => st_27 c
  | 28 => st_28 c
  | 29 => st_29 c
  | 30 => st_30 c
  | 31 => st_31 c
  | 32 => st_32 c
  | 33 => st_33 c
  | 34 => st_34 c
  | 35 => st_35 c
  | 36 => st_36 c
  | 37 => st_37 c
  | 38 => st_38 c
  | 39 => st_39 c
  | 40 => st_40 c
  | 41 => st_41 c
  | 42 => st_42 c
  | 43 => st_43 c
  | 44 => st_44 c
  | 45 => st_45 c
  | 46 => st_46 c
  | 47 => st_47 c
  | 48 => st_48 c
  | 49 => st_49 c
  | 50 => st_50 c
  | 51 => st_51 c
  | 52 => st_52 c
  | 53 => st_53 c
  | 54 => st_54 c
  | 55 => st_55 c
  | 56 => st_56 c
  | 57 => st_57 c
  | 58 => st_58 c
  | _ => TErr
  end.
