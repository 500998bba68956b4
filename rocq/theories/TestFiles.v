(** * The problem files of the repository's integration tests, run on the model

    The texts are those of /repo/tests/*/problem_files and the expected answers those of the test functions named
    beside them.  These are tests of the model, not proofs: they compare what the model computes with what the
    repository's authors expect of the code (their numbers come from GLPK, Gurobi and others).  Every test runs
    import, conversion, presolving, simplex with a product form of the LU decomposition and reconstruction. *)
From Verif Require Import TextPresolve Compare Import Examples ExGeneral ExParse ExFile.
From Coq Require Import String List.
Local Open Scope string_scope.
Local Open Scope list_scope.

Definition read_free (text : string) : out (res answer) := presolve_text Checked UseLU DescentAlongObjective 2000 text.
Definition read_fixed (text : string) : out (res answer) := presolve_fixed_text Checked UseLU DescentAlongObjective 2000 text.
(** the objective value is within a distance of the expected one *)
Definition near (x : out (res answer)) (expected distance : Qc) : bool :=
  match x with Got (Ok (Solved_to s)) => qltb (qabs (s_objective s - expected)%Qc) distance | _ => false end.
(** the answer is probably equal to the expected one, when [enough] of its values are *)
Definition probably (enough : nat -> nat -> bool) (x : out (res answer)) (expected : solution) : bool :=
  match x with Got (Ok (Solved_to s)) => is_probably_equal_to enough s expected | _ => false end.
Definition half_equal (n total : nat) : bool := Nat.ltb total (2 * n).
Definition tenth_equal (n total : nat) : bool := Nat.ltb total (10 * n).
Definition is_syntax_error (x : out (res answer)) : bool := match x with Rejected Syntax => true | _ => false end.
Definition is_inconsistency (x : out (res answer)) : bool := match x with Rejected Inconsistent => true | _ => false end.

(** /repo/tests/cook/problem_files/small_example.mps *)
Definition small_example : string := "* This is a comment
NAME    smallExample
OBJSENSE
  MAX
ROWS
  N  obj 
  L  r1
  G  r2
COLUMNS
  x    obj    1   r1  1
  x    r2  2
  y    obj -2.3   r1 -1
  z    obj  0.5
  z    r2    -1
  s    r2    -1
  s    r1     1
RHS
  RIGHT    r1 10.75
  RIGHT    r2  -100
ENDATA
".

(** /repo/tests/cook/test.rs:18-37 *)
Example small_example_as_expected : near (read_free small_example) (q (-143) 2) (q 1 100000) = true.
Proof. vm_compute. reflexivity. Qed.

(** /repo/tests/burkardt/problem_files/maros.mps *)
Definition maros : string := "NAME          Maros
*
*  Istvan Maros,
*  Computational Techniques of the Simplex Method,
*  Kluwer, 2003, page 93.
*
*  Maximize:
*
*          4.5 x1 + 2.5 x2 + 4.0 x3 + 4.0 x4
*
*  Subject to:
*  
*              x1          +     x3 + 1.5 x4 <= 40
*    20 <=          1.5 x2 + 0.5 x3 + 0.5 x4 <= 30
*          2.5 x1 + 2.0 x2 + 3.0 x3 + 2.0 x4  = 95
*
*  With:
*
*      0.0 <= x1
*      0.0 <= x2
*    -10.0 <= x3 <= 20.0
*      0.0 <= x4 <= 25.0
*
*  Tableau:
*
*             VOL1  VOL2  VOL3  VOL4 |  RHS1
*          +--------------------------------
*  OBJ     |   4.5   2.5   4.0   4.0 |   0.0
*  RES1    |   1.0   0.0   1.0   1.5 |  40.0
*  RES2    |   0.0   1.5   0.5   0.5 |  30.0
*  BALANCE |   2.5   2.0   3.0   2.0 |  95.0
*  --------+-------------------------+------
*
ROWS
 N  OBJ
 L  RES1
 L  RES2
 E  BALANCE
COLUMNS
    VOL1      OBJ                4.5
    VOL1      RES1               1.0
    VOL1      BALANCE            2.5
    VOL2      OBJ                2.5
    VOL2      RES2               1.5
    VOL2      BALANCE            2.0
    VOL3      OBJ                4.0
    VOL3      RES1               1.0
    VOL3      RES2               0.5
    VOL3      BALANCE            3.0
    VOL4      OBJ                4.0
    VOL4      RES1               1.5
    VOL4      RES2               0.5
    VOL4      BALANCE            2.0
RHS
    RHS1      RES1              40.0
    RHS1      RES2              30.0
    RHS1      BALANCE           95.0
RANGES
* The row here was changed from `BALANCE` to `RES2` because that is consistent with the problem description at the start of the file.
    RANGE1    RES2              10.0
BOUNDS
 LO BOUND1    VOL3             -10.0
 UP BOUND1    VOL3              20.0
 UP BOUND1    VOL4              25.0
ENDATA
".

(** /repo/tests/burkardt/test.rs:128 *)
Example maros_as_expected : text_answer_is (read_free maros) (Solved_to (mk_solution (q (385) 3) [("VOL1", q (10) 3); ("VOL2", q (40) 3); ("VOL3", q (20) 1); ("VOL4", q (0) 1)])) = true.
Proof. vm_compute. reflexivity. Qed.

(** /repo/tests/burkardt/problem_files/testprob.mps *)
Definition testprob : string := "NAME          Testprob
*
*  Minimize:
*
*      x1 + 4 * x2 + 9 * x3
*
*  Subject to:
*
*      x1     + x2          <=  5
*      x1              + x3 >= 10
*             - x2     + x3 =   7
*
*  With:
*
*    0 <= x1 <= 4
*   -1 <= x2 <= 1
*         x3 unrestricted.
*
*  Tableau:
*
*            X1      X2     X3    |  RHS1
*       +--------------------------------
*  COST |   1.0     4.0    9.0    |   0.0
*  LIM1 |   1.0     1.0    0.0    |   5.0
*  LIM2 |   1.0     0.0    1.0    |  10.0
*  EQN  |   0.0    -1.0    1.0    |   7.0
*  -----+-------------------------+------
*  BND1 |   4.0    -1.0    1.0    | empty
*
ROWS
 N  COST
 L  LIM1
 G  LIM2
 E  EQN
COLUMNS
    X1        COST               1.0   LIM1               1.0
    X1        LIM2               1.0
    X2        COST               4.0   LIM1               1.0
    X2        EQN               -1.0
    X3        COST               9.0   LIM2               1.0
    X3        EQN                1.0
RHS
    RHS1      LIM1               5.0   LIM2              10.0
    RHS1      EQN                7.0
BOUNDS
 UP BND1      X1                 4.0
 LO BND1      X2                -1.0
 UP BND1      X2                 1.0
 FR BND1      X3
ENDATA".

(** /repo/tests/burkardt/test.rs:170 *)
Example testprob_as_expected : text_answer_is (read_free testprob) (Solved_to (mk_solution (q (54) 1) [("X1", q (4) 1); ("X2", q (-1) 1); ("X3", q (6) 1)])) = true.
Proof. vm_compute. reflexivity. Qed.

(** /repo/tests/burkardt/problem_files/nazareth.mps *)
Definition nazareth : string := "NAME          Nazareth
*
*  Example 3.3-1
*
*  J L Nazareth,
*  Computer Solution of Linear Programs,
*  Oxford University Press, 1987, pages 49-50.
*
*  Minimize:
*
*      x1     - x2 +     x3
*
*  Subject to:
*
*    2 x1          + 3 * x3 <= 10
*           4 * x2 + 5 * x3 <= 20
*
*  With:
*
*    0 <= x1 <= 100
*    0 <= x2
*         x3 unrestricted.
*
*  Tableau:
*
*         CLNAM1   CLNAM2  CLNAM3 |  RHS1
*       +--------------------------------
*  OBJ  |   1.0    -1.0    1.0    |   0.0
*  ROW1 |   2.0     0.0    3.0    |  10.0
*  ROW2 |   0.0     4.0    5.0    |  20.0
*  -----+-------------------------+------
*  BV1  | 100.0     0.0    0.0    | empty
*
ROWS
 N  OBJ
 L  ROW1
 L  ROW2
COLUMNS
    CLNAM1    OBJ                1.0
    CLNAM1    ROW1               2.0
    CLNAM2    OBJ               -1.0
    CLNAM2    ROW2               4.0
    CLNAM3    OBJ                1.0
    CLNAM3    ROW1               3.0
    CLNAM3    ROW2               5.0
RHS
    RHS1      ROW1              10.0
    RHS1      ROW2              20.0
BOUNDS
 UP BV1       CLNAM1           100.0
 FR BV1       CLNAM3
ENDATA
".

(** /repo/tests/burkardt/test.rs:157 *)
Example nazareth_as_expected : text_answer_is (read_free nazareth) NoBound = true.
Proof. vm_compute. reflexivity. Qed.

(** /repo/tests/burkardt/problem_files/empstest.mps *)
Definition empstest : string := "NAME          EMPSTEST                                                          
ROWS
 E  VLRES   
 N  OBJEC   
 E  RAI72   
 G  DEP73   
 L  DEP72   
 E  TRS72   
 G  INV72   
COLUMNS
    RVAD72    RAI72               1.   OBJEC               1.   
    RVAD73    RAI72            1.101   OBJEC               1.   
    DEPN72    DEP72           -1.101   DEP73               1.   
    DEPN73    RAI72           -1.101   TRS72               1.   
    INVT72    INV72              -1.   TRS72              -1.   
    WK1T78    INV72              -1.   TRS72              -1.   
    WK2T78    INV72              -2.   TRS72              -1.   
    WK3T78    INV72              -3.   TRS72              -1.   
RHS
    RHS1      RAI72           -1.234   TRS72             5.67   
    RHS1      INV72              -2.   
    RHS2      INV72              -4.   TRS72               5.   
RANGES
    RAN1      VLRES             2.34   RAI72             -34.   
    RAN1      DEP72            -2.34   
    RAN2      VLRES             2.34   RAI72             -34.   
    RAN2      DEP72            -2.34   
BOUNDS
 FR BNDS1     RVAD72  
 PL BNDS1     RVAD73  
 UP BNDS1     WK1T78         8.07907   
 MI BNDS1     WK2T78  
 LO BNDS1     WK3T78         1.57957   
 UP BNDS1     DEPN72         1.51985   
 FX BNDS1     DEPN73         8.07907   
 FX BNDS1     INVT72         8.07907   
ENDATA
".

(** /repo/tests/burkardt/test.rs:120; ignored there, because such a file is rejected *)
Example empstest_as_expected : is_inconsistency (read_free empstest) = true.
Proof. vm_compute. reflexivity. Qed.

(** /repo/tests/burkardt/problem_files/afiro.mps *)
Definition afiro : string := "NAME          AFIRO                                                             
ROWS
 E  R09     
 E  R10     
 L  X05     
 L  X21     
 E  R12     
 E  R13     
 L  X17     
 L  X18     
 L  X19     
 L  X20     
 E  R19     
 E  R20     
 L  X27     
 L  X44     
 E  R22     
 E  R23     
 L  X40     
 L  X41     
 L  X42     
 L  X43     
 L  X45     
 L  X46     
 L  X47     
 L  X48     
 L  X49     
 L  X50     
 L  X51     
 N  COST    
COLUMNS
    X01       X48               .301   R09                -1.   
    X01       R10              -1.06   X05                 1.   
    X02       X21                -1.   R09                 1.   
    X02       COST               -.4   
    X03       X46                -1.   R09                 1.   
    X04       X50                 1.   R10                 1.   
    X06       X49               .301   R12                -1.   
    X06       R13              -1.06   X17                 1.   
    X07       X49               .313   R12                -1.   
    X07       R13              -1.06   X18                 1.   
    X08       X49               .313   R12                -1.   
    X08       R13               -.96   X19                 1.   
    X09       X49               .326   R12                -1.   
    X09       R13               -.86   X20                 1.   
    X10       X45              2.364   X17                -1.   
    X11       X45              2.386   X18                -1.   
    X12       X45              2.408   X19                -1.   
    X13       X45              2.429   X20                -1.   
    X14       X21                1.4   R12                 1.   
    X14       COST              -.32   
    X15       X47                -1.   R12                 1.   
    X16       X51                 1.   R13                 1.   
    X22       X46               .109   R19                -1.   
    X22       R20               -.43   X27                 1.   
    X23       X44                -1.   R19                 1.   
    X23       COST               -.6   
    X24       X48                -1.   R19                 1.   
    X25       X45                -1.   R19                 1.   
    X26       X50                 1.   R20                 1.   
    X28       X47               .109   R22               -.43   
    X28       R23                 1.   X40                 1.   
    X29       X47               .108   R22               -.43   
    X29       R23                 1.   X41                 1.   
    X30       X47               .108   R22               -.39   
    X30       R23                 1.   X42                 1.   
    X31       X47               .107   R22               -.37   
    X31       R23                 1.   X43                 1.   
    X32       X45              2.191   X40                -1.   
    X33       X45              2.219   X41                -1.   
    X34       X45              2.249   X42                -1.   
    X35       X45              2.279   X43                -1.   
    X36       X44                1.4   R23                -1.   
    X36       COST              -.48   
    X37       X49                -1.   R23                 1.   
    X38       X51                 1.   R22                 1.   
    X39       R23                 1.   COST               10.   
RHS
    B         X50               310.   X51               300.   
    B         X05                80.   X17                80.   
    B         X27               500.   R23                44.   
    B         X40               500.   
ENDATA
".

(** /repo/tests/burkardt/test.rs:60 *)
Example afiro_as_expected : probably tenth_equal (read_free afiro) (mk_solution (q (-406659) 875) [("X01", q (80) 1); ("X02", q (51) 2); ("X03", q (109) 2); ("X04", q (424) 5); ("X06", q (255) 14); ("X07", q 0 1); ("X08", q 0 1); ("X09", q 0 1); ("X10", q 0 1); ("X11", q 0 1); ("X12", q 0 1); ("X13", q 0 1); ("X14", q (255) 14); ("X15", q 0 1); ("X16", q (999) 1); ("X22", q (500) 1); ("X23", q (11898) 25); ("X24", q (602) 25); ("X25", q 0 1); ("X26", q (215) 1); ("X28", q 0 1); ("X29", q 0 1); ("X30", q 0 1); ("X31", q 0 1); ("X32", q 0 1); ("X33", q 0 1); ("X34", q 0 1); ("X35", q 0 1); ("X36", q (11898) 35); ("X37", q (11898) 35); ("X38", q 0 1); ("X39", q 0 1)]) = true.
Proof. vm_compute. reflexivity. Qed.

(** /repo/tests/unicamp/problem_files/model_data_1.mps *)
Definition model_data_1 : string := "************************************************************************
*
*  The data in this file represents the following problem:
*
*  Minimize or maximize Z = x1 + 2x5 - x8
*
*  Subject to:
*
*  2.5 <=   3x1 +  x2          - 2x4  - x5              -    x8
*                 2x2 + 1.1x3                                   <=  2.1
*                          x3              + x6                  =  4.0
*  1.8 <=                      2.8x4             -1.2x7         <=  5.0
*  3.0 <= 5.6x1                       + x5              + 1.9x8 <= 15.0
*
*  where:
*
*  2.5 <= x1
*    0 <= x2 <= 4.1
*    0 <= x3
*    0 <= x4
*  0.5 <= x5 <= 4.0
*    0 <= x6
*    0 <= x7
*    0 <= x8 <= 4.3
*
************************************************************************
NAME          EXAMPLE
ROWS
 N  OBJ
 G  ROW01
 L  ROW02
 E  ROW03
 G  ROW04
 L  ROW05
COLUMNS
    COL01     OBJ                1.0
    COL01     ROW01              3.0   ROW05              5.6
    COL02     ROW01              1.0   ROW02              2.0
    COL03     ROW02              1.1   ROW03              1.0
    COL04     ROW01             -2.0   ROW04              2.8
    COL05     OBJ                2.0
    COL05     ROW01             -1.0   ROW05              1.0
    COL06     ROW03              1.0
    COL07     ROW04             -1.2
    COL08     OBJ               -1.0
    COL08     ROW01             -1.0   ROW05              1.9
RHS
    RHS1      ROW01              2.5
    RHS1      ROW02              2.1
    RHS1      ROW03              4.0
    RHS1      ROW04              1.8
    RHS1      ROW05             15.0
RANGES
    RNG1      ROW04              3.2
    RNG1      ROW05             12.0
BOUNDS
 LO BND1      COL01              2.5
 UP BND1      COL02              4.1
 LO BND1      COL05              0.5
 UP BND1      COL05              4.0
 UP BND1      COL08              4.3
ENDATA
".

(** /repo/tests/unicamp/test.rs:9 *)
Example model_data_1_as_expected : probably half_equal (read_free model_data_1) (mk_solution (q (123) 38) [("COL01", q (5) 2); ("COL02", q (0) 1); ("COL03", q (0) 1); ("COL04", q (9) 14); ("COL05", q (1) 2); ("COL06", q (4) 1); ("COL07", q (0) 1); ("COL08", q (5) 19)]) = true.
Proof. vm_compute. reflexivity. Qed.

(** /repo/tests/unicamp/problem_files/model_data_6.mps *)
Definition model_data_6 : string := "************************************************************************
*
*  This MPS file may be used as input data for the EXLPDC and EXLPDC2
*  sample programs. The matrix has 3 blocks and a coupling row. Although
*  designed for EXLPDC and EXLPDC2, this file can be used by any LP
*  driver that requires an input file in MPS format.
*
************************************************************************
NAME          LPDCMP1
ROWS
 N  OBJCTV01
 E  B0101
 E  B0102
 E  B0103
 E  B0104
 E  B0205
 E  B0206
 E  B0207
 E  B0208
 E  B0309
 E  B0310
 E  B0311
 E  B0312
 L  CPL13
COLUMNS
    X00       OBJCTV01      1.000000   B0102         1.000000
    X00       B0101        -1.000000
    X01       OBJCTV01      2.000000   B0104         1.000000
    X01       B0101        -1.000000   CPL13         1.000000
    X02       OBJCTV01      3.000000   B0102         1.000000
    X02       B0103        -1.000000
    X03       OBJCTV01      4.200000   B0104         1.000000
    X03       B0103        -1.000000
    X04       OBJCTV01      5.000000   B0104         1.000000
    X04       B0102        -1.000000
    X05       OBJCTV01      6.200000   B0102         1.000000
    X05       B0104        -1.000000
    X06       OBJCTV01      5.000000   B0101         1.000000
    X06       B0102        -1.000000
    X07       OBJCTV01      6.200000   B0103         1.000000
    X07       B0104        -1.000000
    X10       OBJCTV01      1.000000   B0206         1.000000
    X10       B0205        -1.000000
    X11       OBJCTV01      2.000000   B0208         1.000000
    X11       B0205        -1.000000   CPL13         1.000000
    X12       OBJCTV01      3.000000   B0206         1.000000
    X12       B0207        -1.000000
    X13       OBJCTV01      4.200000   B0208         1.000000
    X13       B0207        -1.000000
    X14       OBJCTV01      5.000000   B0208         1.000000
    X14       B0206        -1.000000
    X15       OBJCTV01      6.200000   B0206         1.000000
    X15       B0208        -1.000000
    X16       OBJCTV01      5.000000   B0205         1.000000
    X16       B0206        -1.000000
    X17       OBJCTV01      6.200000   B0207         1.000000
    X17       B0208        -1.000000
    X20       OBJCTV01      1.000000   B0310         1.000000
    X20       B0309        -1.000000
    X21       OBJCTV01      2.000000   B0312         1.000000
    X21       B0309        -1.000000   CPL13         1.000000
    X22       OBJCTV01      3.000000   B0310         1.000000
    X22       B0311        -1.000000
    X23       OBJCTV01      4.200000   B0312         1.000000
    X23       B0311        -1.000000
    X24       OBJCTV01      5.000000   B0312         1.000000
    X24       B0310        -1.000000
    X25       OBJCTV01      6.200000   B0310         1.000000
    X25       B0312        -1.000000
    X26       OBJCTV01      5.000000   B0309         1.000000
    X26       B0310        -1.000000
    X27       OBJCTV01      6.200000   B0311         1.000000
    X27       B0312        -1.000000
RHS
    RHS001    B0101        -1.000000   B0102         1.000000
    RHS001    B0103        -1.000000   B0104         1.000000
    RHS001    B0205        -1.000000   B0206         1.000000
    RHS001    B0207        -2.000000   B0208         2.000000
    RHS001    B0309        -1.000000   B0310         1.000000
    RHS001    B0311        -3.000000   B0312         3.000000
    RHS001    CPL13         1.000000
ENDATA
".

(** /repo/tests/unicamp/test.rs:109 *)
Example model_data_6_as_expected : probably half_equal (read_free model_data_6) (mk_solution (q (28) 1) [("X00", q (0) 1); ("X01", q (1) 1); ("X02", q (1) 1); ("X03", q (0) 1); ("X04", q (0) 1); ("X05", q (0) 1); ("X06", q (0) 1); ("X07", q (0) 1); ("X10", q (1) 1); ("X11", q (0) 1); ("X12", q (0) 1); ("X13", q (2) 1); ("X14", q (0) 1); ("X15", q (0) 1); ("X16", q (0) 1); ("X17", q (0) 1); ("X20", q (1) 1); ("X21", q (0) 1); ("X22", q (0) 1); ("X23", q (3) 1); ("X24", q (0) 1); ("X25", q (0) 1); ("X26", q (0) 1); ("X27", q (0) 1)]) = true.
Proof. vm_compute. reflexivity. Qed.

(** /repo/tests/unicamp/problem_files/model_data_3_1.mps *)
Definition model_data_3_1 : string := "NAME          RAW1COST
ROWS
 N  COST
 G  SUP1COST
 G  SUP2COST
 G  SUP3COST
 L  PURITY
 E  AMOUNT
COLUMNS
    SUP1      COST               .20   SUP1COST           .20
    SUP1      PURITY             .08   AMOUNT            1.00
    SUP2      COST               .80   SUP2COST           .80
    SUP2      PURITY             .02   AMOUNT            1.00
    SUP3      COST               .30   SUP3COST           .30
    SUP3      PURITY             .04   AMOUNT            1.00
RHS
    RHS       SUP1COST         10.00
    RHS       AMOUNT          200.00   PURITY           10.00
BOUNDS
 UP BOUND     SUP2             75.00
 UP BOUND     SUP3            100.00
ENDATA".

(** /repo/tests/unicamp/test.rs:39 *)
Example model_data_3_1_as_expected : text_answer_is (read_free model_data_3_1) (Solved_to (mk_solution (q (70) 1) [("SUP1", q (200) 3); ("SUP2", q (100) 3); ("SUP3", q (100) 1)])) = true.
Proof. vm_compute. reflexivity. Qed.

(** /repo/tests/unicamp/problem_files/model_data_3_2.mps *)
Definition model_data_3_2 : string := "NAME          RAW2COST
ROWS
 N  COST
 G  SUP1COST
 G  SUP2COST
 L  PURITY
 E  AMOUNT
COLUMNS
    SUP1      COST              3.60   SUP1COST          3.60
    SUP1      PURITY             .20   AMOUNT            1.00
    SUP2      COST              1.20   SUP2COST          1.20
    SUP2      PURITY             .40   AMOUNT            1.00
RHS
    RHS       AMOUNT          100.00   PURITY           35.00
ENDATA".

(** /repo/tests/unicamp/test.rs:52 *)
Example model_data_3_2_as_expected : text_answer_is (read_free model_data_3_2) (Solved_to (mk_solution (q (180) 1) [("SUP1", q (25) 1); ("SUP2", q (75) 1)])) = true.
Proof. vm_compute. reflexivity. Qed.

(** /repo/tests/unicamp/problem_files/model_data_3_3.mps *)
Definition model_data_3_3 : string := "NAME          RAW3COST
ROWS
 N  COST
 G  SUP1COST
 G  SUP2COST
 L  PURITY
 E  AMOUNT
COLUMNS
    SUP1      COST              1.40   SUP1COST          1.40
    SUP1      PURITY             .01   AMOUNT            1.00
    SUP2      COST               .70   SUP2COST           .70
    SUP2      PURITY             .07   AMOUNT            1.00
RHS
    RHS       AMOUNT          250.00   PURITY           12.50
BOUNDS
 UP BOUND     SUP2            150.00
ENDATA".

(** /repo/tests/unicamp/test.rs:64 *)
Example model_data_3_3_as_expected : text_answer_is (read_free model_data_3_3) (Solved_to (mk_solution (q (245) 1) [("SUP1", q (100) 1); ("SUP2", q (150) 1)])) = true.
Proof. vm_compute. reflexivity. Qed.

(** /repo/tests/unicamp/problem_files/model_data_4.mps *)
Definition model_data_4 : string := "************************************************************************
*
*  The data in this file represents the following problem:
*
*  Minimize or maximize Z = x1 + 2x2 + x3
*
*  Subject to:
*
*   2.0 <=   x1 +  x2         <= 4.0
*   0.0 <=      -  x2  +  x3  <= 0.0
*  -3.0 <=  -x1        -  x3  <=-3.0
*
*  where:
*
*   0.0 <= x1 <= 1.0
*   0.0 <= x2
*   0.0 <= x3
*
************************************************************************
NAME          NEXAMPLE
ROWS
 N  OBJ
 G  ROW01
 E  ROW02
 E  ROW03
COLUMNS
    COL01     OBJ                1.0
    COL01     ROW01              1.0   ROW03             -1.0
    COL02     OBJ                2.0   ROW01              1.0
    COL02     ROW02             -1.0
    COL03     OBJ                1.0   ROW02              1.0
    COL03     ROW03             -1.0
RHS
    RHS1      ROW01              2.0
    RHS1      ROW03             -3.0
RANGES
    RNG1      ROW01              2.0
BOUNDS
 UP BND1      COL01              1.0
ENDATA
".

(** /repo/tests/unicamp/test.rs:82 *)
Example model_data_4_as_expected : text_answer_is (read_free model_data_4) (Solved_to (mk_solution (q (7) 1) [("COL01", q (1) 1); ("COL02", q (2) 1); ("COL03", q (2) 1)])) = true.
Proof. vm_compute. reflexivity. Qed.

(** /repo/tests/unicamp/problem_files/model_data_3_4.mps *)
Definition model_data_3_4 : string := "NAME          PROFITS
ROWS
 N  PROFIT
 E  AMOUNT1
 G  AMOUNT2
 L  AMOUNT3
 L  AMOUNT4
COLUMNS
    RAW1      AMOUNT1           1.00
    RAW1      AMOUNT3           1.00   AMOUNT4           1.00
    RAW2      AMOUNT1           1.00
    RAW2      AMOUNT2           1.00   AMOUNT4           1.00
    RAW3      AMOUNT1           1.00
    RAW3      AMOUNT2           1.00   AMOUNT3           1.00
    PRODUCT   PROFIT            4.50
RHS
    RHS       AMOUNT1          12.00   AMOUNT2           4.00
    RHS       AMOUNT3           9.00   AMOUNT4           8.00
RANGES
    RANGE     AMOUNT4           6.00
BOUNDS
 FX BOUND     PRODUCT         500.00
ENDATA".

(** /repo/tests/unicamp/test.rs:76 *)
Example model_data_3_4_as_expected : near (read_free model_data_3_4) (q 2250 1) (q 1 1000000000) = true.
Proof. vm_compute. reflexivity. Qed.

(** /repo/tests/unicamp/problem_files/model_data_2.mps *)
Definition model_data_2 : string := "************************************************************************
*
*  The data in this file represents a dummy problem used to set up
*  storage and pointers for later manipulation.  The problem
*  consists of one row, one column, and one element.
*
************************************************************************
NAME          DUMMY
ROWS
 N  DOBJ
 G  DROW1
COLUMNS
    DCOL1     DOBJ             1.0
    DCOL1     DROW1            1.0
ENDATA
".

(** /repo/tests/unicamp/test.rs:28; ignored there ("In this implementation, at least one RHS is needed."), but the code as it is gives the expected answer *)
Example model_data_2_as_expected : text_answer_is (read_free model_data_2) (Solved_to (mk_solution (q (0) 1) [("DCOL1", q (0) 1)])) = true.
Proof. vm_compute. reflexivity. Qed.

(** /repo/tests/unicamp/problem_files/model_data_9.mps *)
Definition model_data_9 : string := "************************************************************************
*
*  The data in this file represents the following problem:
*
*  Minimize or maximize
*
*      Z = -40C1      - 50c2    - 50c3    - 40c4
*        + 1/2(80c1c1 + 80c1c4  + 100c2c3 + 100c2c2
*        + 100c3c3    + 100c3c2 + 80c4c1  + 80c4c4)
*
*
*  Subject to:
*
*                           c1 + c2           = 1
*                                     c3 + c4 = 1
*                           c1      + c3      = 1
*                                c2      + c4 = 1
*
*  where:                   0 <= c1,c2,c3,c4 <= 1
*                             c1,c2,c3,c4 integer
*
*
************************************************************************
NAME          EXAMPLE
ROWS
 N  OBJECTRW
 E  R0000001
 E  R0000002
 E  R0000003
 E  R0000004
COLUMNS
    C0000001  OBJECTRW  -0040.000000   R0000001      1.000000
    C0000001  R0000003      1.000000
    C0000002  OBJECTRW  -0050.000000   R0000001      1.000000
    C0000002  R0000004      1.000000
    C0000003  OBJECTRW  -0050.000000   R0000002      1.000000
    C0000003  R0000003      1.000000
    C0000004  OBJECTRW  -0040.000000   R0000002      1.000000
    C0000004  R0000004      1.000000
RHS
    RHS1      R0000001      1.000000   R0000002      1.000000
    RHS1      R0000003      1.000000   R0000004      1.000000
BOUNDS
 BV BOUND1    C0000001      1.000000
 BV BOUND1    C0000002      1.000000
 BV BOUND1    C0000003      1.000000
 BV BOUND1    C0000004      1.000000
ENDATA
".

(** /repo/tests/unicamp/test.rs:156; ignored there ("Unnamed problem files are not supported."), but the code as it is gives the expected answer *)
Example model_data_9_as_expected : text_answer_is (read_free model_data_9) (Solved_to (mk_solution (q (-100) 1) [("C0000001", q (0) 1); ("C0000002", q (1) 1); ("C0000003", q (1) 1); ("C0000004", q (0) 1)])) = true.
Proof. vm_compute. reflexivity. Qed.

(** /repo/tests/unicamp/problem_files/model_data_5.mps *)
Definition model_data_5 : string := "*************************************************************************
*
*  The data in this file represents the following problem:
*
*  Minimize or maximize Z = (.03 + .09*lambda)x1 + .08x2 +
*                           (.17 + .25*lambda)x3 + .12x4 +
*                            .15x5 + .21x6 + .38x7
*
*  Subject to:
*
*            x1 +    x2 +    x3 +    x4 +    x5 +    x6 +    x7  = 2000.0
*         .15x1 + .04x2 + .02x3 + .04x4 + .02x5 + .01x6 + .07x7 <=   60.0
*         .02x1 + .04x2 + .01x3 + .02x4 + .02x5                 <=   40.0
*   a <=  .03x1 + .05x2 + .08x3 + .02x4 + .06x5 + .01x6         <=    b
*         .02x1 + .03x2                 + .01x5                 <=   30.0
* 1500.0<=.30x1 + .75x2 + .80x3 + .75x4 + .80x5 + .97x6
*   c <=  .50x1 + .06x2 + .08x3 + .12x4 + .02x5 + .01x6 + .97x7 <=    d
*
*
*  where:
*
*  a = ((100.0 +  60.0*lambda) - (100.0 +  40.0*lambda))
*    = (   0.0 +  20.0*lambda)
*  b = ( 100.0 +  60.0*lambda)
*  c = ( 300.0 + 100.0*lambda)
*  d = ((300.0 +  30.0*lambda) + ( 50.0 + 100.0*lambda))
*    = ( 350.0 + 130.0*lambda)
*
*    0.0 <= x1 <=  200.0
*    0.0 <= x2 <=  750.0
*  400.0 <= x3 <=  800.0
*  100.0 <= x4 <= (700.0  +  200.0*lambda)
*    0.0 <= x5 <= (1500.0 + 1800.0*lambda)
*    0.0 <= x6
*    0.0 <= x7
*
*  The parametric change vectors are named as follows:
*
*  CHANGOBJ (objective function)
*  CHANGRHS (right-hand side)
*  CHANGRNG (ranges)
*  CHANGBND (bounds)
*
*  If parametrics are not used, the linear problem is as above with
*  lambda set to zero.
*
*************************************************************************
NAME          SPMETALS
ROWS
 N  VALUE
 N  CHANGOBJ
 E  YIELD
 L  FE
 L  MN
 L  CU
 L  MG
 G  AL
 G  SI
COLUMNS
    BIN1      VALUE             .03    YIELD         1.00
    BIN1      FE                .15    MN             .02
    BIN1      CU                .03    MG             .02
    BIN1      AL                .30    SI              .5
    BIN1      CHANGOBJ          .09
    BIN2      VALUE             .08    YIELD         1.00
    BIN2      FE                .04    MN             .04
    BIN2      CU                .05    MG             .03
    BIN2      AL                .75    SI             .06
    BIN3      VALUE             .17    YIELD         1.00
    BIN3      FE                .02    MN             .01
    BIN3      CU                .08    AL             .80
    BIN3      SI                .08
    BIN3      CHANGOBJ          .25
    BIN4      VALUE             .12    YIELD         1.00
    BIN4      FE                .04    MN             .02
    BIN4      CU                .02    AL             .75
    BIN4      SI                .12
    BIN5      VALUE             .15    YIELD         1.00
    BIN5      FE                .02    MN             .02
    BIN5      CU                .06    MG             .01
    BIN5      AL                .80    SI             .02
    ALUM      VALUE             .21    YIELD         1.00
    ALUM      FE                .01    CU             .01
    ALUM      AL                .97    SI             .01
    SILICON   VALUE             .38    YIELD         1.00
    SILICON   FE                .03    SI             .97
RHS
    RHS       YIELD           2000.    FE             60.
    RHS       CU               100.    MN             40.
    RHS       MG                30.    AL            1500.
    RHS       SI               300.
    CHANGRHS  SI               100.
    CHANGRHS  CU                60.
RANGES
    RNG       SI                50.
    CHANGRNG  SI                30.
    CHANGRNG  CU                40.
BOUNDS
 UP BNN       BIN1            200.
 UP BNN       BIN2            750.
 LO BNN       BIN3            400.
 UP BNN       BIN3            800.
 LO BNN       BIN4            100.
 UP BNN       BIN4            700.
 UP BNN       BIN5            1500.
 UP CHANGBND  BIN4            200.
 UP CHANGBND  BIN5            1800.
ENDATA
".

(** /repo/tests/unicamp/test.rs:96; ignored there ("This problem type is not supported.") *)
Example model_data_5_as_expected : is_syntax_error (read_free model_data_5) = true.
Proof. vm_compute. reflexivity. Qed.

(** /repo/tests/unicamp/problem_files/model_data_8.mps *)
Definition model_data_8 : string := "************************************************************************
*
*  The data in this file represents the following problem:
*
*  Minimize or maximize Z = x1 + 2x5 - x8
*
*  Subject to:
*
*  2.5 <=   3x1 +  x2          - 2x4  - x5              -    x8
*                 2x2 + 1.1x3                                   <=  2.1
*                          x3              + x6                  =  4.0
*  1.8 <=                      2.8x4             -1.2x7         <=  5.0
*  3.0 <= 5.6x1                       + x5              + 1.9x8 <= 15.0
*
*  where:
*
*  2.5 <= x1
*    0 <= x2 <= 4.1
*    0 <= x3
*    0 <= x4
*  0.5 <= x5 <= 4.0
*    0 <= x6
*    0 <= x7
*    0 <= x8 <= 4.3
*
*  The problem is then revised in the following way:
*
*  1) Since ROW04 will have a bound changed, it is declared in the
*     ROW MODIFY section with its type unchanged.
*  2) The cost of COL01 is changed to 2.0.
*  3) COL07 is deleted.
*  4) A new column, COL77, is added to the problem.  It has a coefficient
*     of -1.5 in ROW04.
*  5) The lower bound of ROW04 is changed to 0.8.
*  6) The lower bound of COL77 is changed to 1.0.
*
************************************************************************
NAME          EXAMPLE
ROWS
 N  OBJ
 G  ROW01
 L  ROW02
 E  ROW03
 G  ROW04
 L  ROW05
COLUMNS
    COL01     OBJ                1.0
    COL01     ROW01              3.0   ROW05              5.6
    COL02     ROW01              1.0   ROW02              2.0
    COL03     ROW02              1.1   ROW03              1.0
    COL04     ROW01             -2.0   ROW04              2.8
    COL05     OBJ                2.0
    COL05     ROW01             -1.0   ROW05              1.0
    COL06     ROW03              1.0
    COL07     ROW04             -1.2
    COL08     OBJ               -1.0
    COL08     ROW01             -1.0   ROW05              1.9
RHS
    RHS1      ROW01              2.5
    RHS1      ROW02              2.1
    RHS1      ROW03              4.0
    RHS1      ROW04              1.8
    RHS1      ROW05             15.0
RANGES
    RNG1      ROW04              3.2
    RNG1      ROW05             12.0
BOUNDS
 LO BND1      COL01              2.5
 UP BND1      COL02              4.1
 LO BND1      COL05              0.5
 UP BND1      COL05              4.0
 UP BND1      COL08              4.3
ENDATA
NAME          EXAMPLE
ROWS
MODIFY
 G  ROW04
COLUMNS
MODIFY
    COL01     OBJ                2.0
DELETE
    COL07
AFTER         COL06
    COL77     ROW04             -1.5
RHS
MODIFY
    RHS1      ROW04              0.8
BOUNDS
MODIFY
 LO BND1      COL77              1.0
ENDATA
".

(** /repo/tests/unicamp/test.rs:150; ignored there ("Unsupported modification of model_data_7.") *)
Example model_data_8_as_expected : is_syntax_error (read_free model_data_8) = true.
Proof. vm_compute. reflexivity. Qed.

(** /repo/tests/netlib/problem_files/AFIRO.SIF *)
Definition AFIRO : string := "***************************
* SET UP THE INITIAL DATA *
***************************

NAME          AFIRO                                                             

*   Problem:
*   ********

*   An LP, contributed by Michael Saunders.

*   Source:
*   The NETLIB collection of test problems.

*   SIF input: (already in MPS format)

*   classification LLR2-AN-32-27

ROWS
 E  R09     
 E  R10     
 L  X05     
 L  X21     
 E  R12     
 E  R13     
 L  X17     
 L  X18     
 L  X19     
 L  X20     
 E  R19     
 E  R20     
 L  X27     
 L  X44     
 E  R22     
 E  R23     
 L  X40     
 L  X41     
 L  X42     
 L  X43     
 L  X45     
 L  X46     
 L  X47     
 L  X48     
 L  X49     
 L  X50     
 L  X51     
 N  COST    
COLUMNS
    X01       X48               .301   R09                -1.   
    X01       R10              -1.06   X05                 1.   
    X02       X21                -1.   R09                 1.   
    X02       COST               -.4   
    X03       X46                -1.   R09                 1.   
    X04       X50                 1.   R10                 1.   
    X06       X49               .301   R12                -1.   
    X06       R13              -1.06   X17                 1.   
    X07       X49               .313   R12                -1.   
    X07       R13              -1.06   X18                 1.   
    X08       X49               .313   R12                -1.   
    X08       R13               -.96   X19                 1.   
    X09       X49               .326   R12                -1.   
    X09       R13               -.86   X20                 1.   
    X10       X45              2.364   X17                -1.   
    X11       X45              2.386   X18                -1.   
    X12       X45              2.408   X19                -1.   
    X13       X45              2.429   X20                -1.   
    X14       X21                1.4   R12                 1.   
    X14       COST              -.32   
    X15       X47                -1.   R12                 1.   
    X16       X51                 1.   R13                 1.   
    X22       X46               .109   R19                -1.   
    X22       R20               -.43   X27                 1.   
    X23       X44                -1.   R19                 1.   
    X23       COST               -.6   
    X24       X48                -1.   R19                 1.   
    X25       X45                -1.   R19                 1.   
    X26       X50                 1.   R20                 1.   
    X28       X47               .109   R22               -.43   
    X28       R23                 1.   X40                 1.   
    X29       X47               .108   R22               -.43   
    X29       R23                 1.   X41                 1.   
    X30       X47               .108   R22               -.39   
    X30       R23                 1.   X42                 1.   
    X31       X47               .107   R22               -.37   
    X31       R23                 1.   X43                 1.   
    X32       X45              2.191   X40                -1.   
    X33       X45              2.219   X41                -1.   
    X34       X45              2.249   X42                -1.   
    X35       X45              2.279   X43                -1.   
    X36       X44                1.4   R23                -1.   
    X36       COST              -.48   
    X37       X49                -1.   R23                 1.   
    X38       X51                 1.   R22                 1.   
    X39       R23                 1.   COST               10.   
RHS
    B         X50               310.   X51               300.   
    B         X05                80.   X17                80.   
    B         X27               500.   R23                44.   
    B         X40               500.   
ENDATA
".

(** /repo/tests/netlib/test.rs:31 *)
Example AFIRO_as_expected : near (read_fixed AFIRO) (q (-46475314) 100000) (q 1 10000) = true.
Proof. vm_compute. reflexivity. Qed.

(** /repo/tests/netlib/problem_files/SC50A.SIF *)
Definition SC50A : string := "***************************
* SET UP THE INITIAL DATA *
***************************

NAME          SC50A                                                             

*   Problem:
*   ********

*   An LP, contributed by Nick Gould.

*   Source:
*   The NETLIB collection of test problems.

*   SIF input: (already in MPS format)

*   classification LLR2-AN-48-50

ROWS
 N  MAXIM   
 L  ROW00001
 L  ROW00002
 L  ROW00003
 E  ROW00004
 E  ROW00005
 E  ROW00006
 E  ROW00007
 L  ROW00008
 L  ROW00009
 L  ROW00010
 L  ROW00011
 L  ROW00012
 L  ROW00013
 E  ROW00014
 E  ROW00015
 E  ROW00016
 E  ROW00017
 E  ROW00018
 L  ROW00019
 L  ROW00020
 L  ROW00021
 L  ROW00022
 L  ROW00023
 L  ROW00024
 E  ROW00025
 E  ROW00026
 E  ROW00027
 E  ROW00028
 E  ROW00029
 L  ROW00030
 L  ROW00031
 L  ROW00032
 L  ROW00033
 L  ROW00034
 L  ROW00035
 E  ROW00036
 E  ROW00037
 E  ROW00038
 E  ROW00039
 E  ROW00040
 L  ROW00041
 L  ROW00042
 L  ROW00043
 L  ROW00044
 L  ROW00045
 L  ROW00046
 E  ROW00047
 L  ROW00048
 L  ROW00049
 L  ROW00050
COLUMNS
    COL00001  ROW00001            2.   ROW00002            1.   
    COL00001  ROW00005           -1.   
    COL00002  ROW00001            1.   ROW00002            2.   
    COL00002  ROW00006           -1.   
    COL00003  ROW00001           1.5   ROW00002           1.5   
    COL00003  ROW00007           -1.   
    COL00004  MAXIM              -1.   ROW00004            1.   
    COL00004  ROW00014           1.1   
    COL00005  ROW00004           -1.   ROW00013            1.   
    COL00005  ROW00015            1.   
    COL00006  ROW00005            1.   ROW00008           -1.   
    COL00006  ROW00016           -1.   
    COL00007  ROW00006            1.   ROW00009           -1.   
    COL00007  ROW00017           -1.   
    COL00008  ROW00007            1.   ROW00010           -1.   
    COL00008  ROW00018           -1.   
    COL00009  ROW00008            1.   ROW00011           -1.   
    COL00010  ROW00009            1.   ROW00012           -1.   
    COL00011  ROW00010            1.   ROW00013           -1.   
    COL00012  ROW00011            2.   ROW00012            1.   
    COL00012  ROW00016           -1.   
    COL00013  ROW00011            1.   ROW00012            2.   
    COL00013  ROW00017           -1.   
    COL00014  ROW00011           1.5   ROW00012           1.5   
    COL00014  ROW00018           -1.   
    COL00015  ROW00014           -1.   ROW00015            1.   
    COL00015  ROW00025           1.1   
    COL00016  ROW00015           -1.   ROW00024            1.   
    COL00016  ROW00026            1.   
    COL00017  ROW00016            1.   ROW00019           -1.   
    COL00017  ROW00027           -1.   
    COL00018  ROW00017            1.   ROW00020           -1.   
    COL00018  ROW00028           -1.   
    COL00019  ROW00018            1.   ROW00021           -1.   
    COL00019  ROW00029           -1.   
    COL00020  ROW00019            1.   ROW00022           -1.   
    COL00021  ROW00020            1.   ROW00023           -1.   
    COL00022  ROW00021            1.   ROW00024           -1.   
    COL00023  ROW00022            2.   ROW00023            1.   
    COL00023  ROW00027           -1.   
    COL00024  ROW00022            1.   ROW00023            2.   
    COL00024  ROW00028           -1.   
    COL00025  ROW00022           1.5   ROW00023           1.5   
    COL00025  ROW00029           -1.   
    COL00026  ROW00025           -1.   ROW00026            1.   
    COL00026  ROW00036           1.1   
    COL00027  ROW00026           -1.   ROW00035            1.   
    COL00027  ROW00037            1.   
    COL00028  ROW00027            1.   ROW00030           -1.   
    COL00028  ROW00038           -1.   
    COL00029  ROW00028            1.   ROW00031           -1.   
    COL00029  ROW00039           -1.   
    COL00030  ROW00029            1.   ROW00032           -1.   
    COL00030  ROW00040           -1.   
    COL00031  ROW00030            1.   ROW00033           -1.   
    COL00032  ROW00031            1.   ROW00034           -1.   
    COL00033  ROW00032            1.   ROW00035           -1.   
    COL00034  ROW00033            2.   ROW00034            1.   
    COL00034  ROW00038           -1.   
    COL00035  ROW00033            1.   ROW00034            2.   
    COL00035  ROW00039           -1.   
    COL00036  ROW00033           1.5   ROW00034           1.5   
    COL00036  ROW00040           -1.   
    COL00037  ROW00036           -1.   ROW00037            1.   
    COL00037  ROW00047           1.1   
    COL00038  ROW00037           -1.   ROW00046            1.   
    COL00039  ROW00038            1.   ROW00041           -1.   
    COL00040  ROW00039            1.   ROW00042           -1.   
    COL00041  ROW00040            1.   ROW00043           -1.   
    COL00042  ROW00041            1.   ROW00044           -1.   
    COL00043  ROW00042            1.   ROW00045           -1.   
    COL00044  ROW00043            1.   ROW00046           -1.   
    COL00045  ROW00044            2.   ROW00045            1.   
    COL00045  ROW00048           -.8   ROW00049            .1   
    COL00046  ROW00044            1.   ROW00045            2.   
    COL00046  ROW00048            .1   ROW00049           -.8   
    COL00047  ROW00044           1.5   ROW00045           1.5   
    COL00047  ROW00048           .15   ROW00049           .15   
    COL00047  ROW00050           -1.   
    COL00048  ROW00047           -1.   ROW00050            1.   
RHS
    CONST     ROW00001          170.   ROW00002          130.   
    CONST     ROW00011          170.   ROW00012          130.   
    CONST     ROW00022          170.   ROW00023          130.   
    CONST     ROW00033          170.   ROW00034          130.   
    CONST     ROW00044          170.   ROW00045          130.   
ENDATA
".

(** /repo/tests/netlib/test.rs:229 *)
Example SC50A_as_expected : near (read_fixed SC50A) (q (-6457507706) 100000000) (q 1 100000) = true.
Proof. vm_compute. reflexivity. Qed.

(** /repo/tests/netlib/problem_files/SC50B.SIF *)
Definition SC50B : string := "***************************
* SET UP THE INITIAL DATA *
***************************

NAME          SC50B                                                             

*   Problem:
*   ********

*   An LP, contributed by Nick Gould.

*   Source:
*   The NETLIB collection of test problems.

*   SIF input: (already in MPS format)

*   classification LLR2-AN-48-50

ROWS
 N  MAXIM   
 L  ROW00001
 L  ROW00002
 L  ROW00003
 E  ROW00004
 E  ROW00005
 E  ROW00006
 E  ROW00007
 L  ROW00008
 L  ROW00009
 L  ROW00010
 L  ROW00011
 L  ROW00012
 L  ROW00013
 E  ROW00014
 E  ROW00015
 E  ROW00016
 E  ROW00017
 E  ROW00018
 L  ROW00019
 L  ROW00020
 L  ROW00021
 L  ROW00022
 L  ROW00023
 L  ROW00024
 E  ROW00025
 E  ROW00026
 E  ROW00027
 E  ROW00028
 E  ROW00029
 L  ROW00030
 L  ROW00031
 L  ROW00032
 L  ROW00033
 L  ROW00034
 L  ROW00035
 E  ROW00036
 E  ROW00037
 E  ROW00038
 E  ROW00039
 E  ROW00040
 L  ROW00041
 L  ROW00042
 L  ROW00043
 L  ROW00044
 L  ROW00045
 L  ROW00046
 E  ROW00047
 L  ROW00048
 L  ROW00049
 L  ROW00050
COLUMNS
    COL00001  ROW00001            3.   ROW00005           -1.   
    COL00002  ROW00001            3.   ROW00006           -1.   
    COL00003  ROW00001            3.   ROW00007           -1.   
    COL00004  MAXIM              -1.   ROW00004            1.   
    COL00004  ROW00014           1.1   
    COL00005  ROW00004           -1.   ROW00012            .4   
    COL00005  ROW00013            .6   ROW00015            1.   
    COL00006  ROW00005            1.   ROW00008           -1.   
    COL00006  ROW00016           -1.   
    COL00007  ROW00006            1.   ROW00009           -1.   
    COL00007  ROW00017           -1.   
    COL00008  ROW00007            1.   ROW00010           -1.   
    COL00008  ROW00018           -1.   
    COL00009  ROW00008            1.   ROW00011           -1.   
    COL00010  ROW00009            1.   ROW00012           -1.   
    COL00011  ROW00010            1.   ROW00013           -1.   
    COL00012  ROW00011            3.   ROW00016           -1.   
    COL00013  ROW00011            3.   ROW00017           -1.   
    COL00014  ROW00011            3.   ROW00018           -1.   
    COL00015  ROW00014           -1.   ROW00015            1.   
    COL00015  ROW00025           1.1   
    COL00016  ROW00015           -1.   ROW00023            .4   
    COL00016  ROW00024            .6   ROW00026            1.   
    COL00017  ROW00016            1.   ROW00019           -1.   
    COL00017  ROW00027           -1.   
    COL00018  ROW00017            1.   ROW00020           -1.   
    COL00018  ROW00028           -1.   
    COL00019  ROW00018            1.   ROW00021           -1.   
    COL00019  ROW00029           -1.   
    COL00020  ROW00019            1.   ROW00022           -1.   
    COL00021  ROW00020            1.   ROW00023           -1.   
    COL00022  ROW00021            1.   ROW00024           -1.   
    COL00023  ROW00022            3.   ROW00027           -1.   
    COL00024  ROW00022            3.   ROW00028           -1.   
    COL00025  ROW00022            3.   ROW00029           -1.   
    COL00026  ROW00025           -1.   ROW00026            1.   
    COL00026  ROW00036           1.1   
    COL00027  ROW00026           -1.   ROW00034            .4   
    COL00027  ROW00035            .6   ROW00037            1.   
    COL00028  ROW00027            1.   ROW00030           -1.   
    COL00028  ROW00038           -1.   
    COL00029  ROW00028            1.   ROW00031           -1.   
    COL00029  ROW00039           -1.   
    COL00030  ROW00029            1.   ROW00032           -1.   
    COL00030  ROW00040           -1.   
    COL00031  ROW00030            1.   ROW00033           -1.   
    COL00032  ROW00031            1.   ROW00034           -1.   
    COL00033  ROW00032            1.   ROW00035           -1.   
    COL00034  ROW00033            3.   ROW00038           -1.   
    COL00035  ROW00033            3.   ROW00039           -1.   
    COL00036  ROW00033            3.   ROW00040           -1.   
    COL00037  ROW00036           -1.   ROW00037            1.   
    COL00037  ROW00047           1.1   
    COL00038  ROW00037           -1.   ROW00045            .4   
    COL00038  ROW00046            .6   
    COL00039  ROW00038            1.   ROW00041           -1.   
    COL00040  ROW00039            1.   ROW00042           -1.   
    COL00041  ROW00040            1.   ROW00043           -1.   
    COL00042  ROW00041            1.   ROW00044           -1.   
    COL00043  ROW00042            1.   ROW00045           -1.   
    COL00044  ROW00043            1.   ROW00046           -1.   
    COL00045  ROW00044            3.   ROW00048           -.7   
    COL00046  ROW00044            3.   ROW00048            .3   
    COL00046  ROW00049           -1.   
    COL00047  ROW00044            3.   ROW00048            .3   
    COL00047  ROW00050           -1.   
    COL00048  ROW00047           -1.   ROW00049            .4   
    COL00048  ROW00050            .6   
RHS
    CONST     ROW00001          300.   ROW00011          300.   
    CONST     ROW00022          300.   ROW00033          300.   
    CONST     ROW00044          300.   
ENDATA
".

(** /repo/tests/netlib/test.rs:236 *)
Example SC50B_as_expected : near (read_fixed SC50B) (q (-70) 1) (q 1 100000000) = true.
Proof. vm_compute. reflexivity. Qed.

(** For these files the run of presolving is safe (SafeRun.v), so that the theorems of PropSafe.v and PropTextPre.v speak about them. *)
Example files_safe : forallb (safe_text Checked 1000)
  [small_example; maros; testprob; nazareth; empstest; afiro; model_data_6; model_data_3_1; model_data_3_2; model_data_3_3; model_data_3_4; model_data_2; model_data_9] = true.
Proof. vm_compute. reflexivity. Qed.
Example netlib_safe : forallb (safe_fixed_text Checked 1000) [AFIRO; SC50A; SC50B] = true.
Proof. vm_compute. reflexivity. Qed.
