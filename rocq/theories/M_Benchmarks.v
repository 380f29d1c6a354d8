(** The models of experiments/benchmarks/models.py, translated by tools/gen_models.py from the
    source text: local names and class attributes are replaced by their values, [v[:, i]] and the
    i-th variable of [x, y, ... = v] are [UVar i], [torch.sin] and [self.fncs["sin"]] are [UFn "sin"].
    No proofs in this file.  Not translated here: Eulerised, LinearDiscreteNVars, Quadrotor2d,
    LinearSatellite (see M_Model). *)
From Coq Require Import String QArith List.
From Verif Require Import M_Model.
Import ListNotations.
Local Open Scope string_scope.
Local Open Scope Q_scope.
Local Open Scope nat_scope.

(** models.py:40-49 [Linear0]. *)
Definition Linear0 : benchmark_model :=
  {| bm_name := "Linear0"; bm_control := false; bm_n_vars := (Some 2); bm_n_u := None;
    bm_torch := [(USub (UMinus (UVar 0)) (UVar 1));
     (UVar 0)];
    bm_functions := []; bm_unpack_v := (Some 2); bm_unpack_u := None;
    bm_smt := [(USub (UMinus (UVar 0)) (UVar 1));
     (UVar 0)] |}.

(** models.py:52-61 [NonPoly0]. *)
Definition NonPoly0 : benchmark_model :=
  {| bm_name := "NonPoly0"; bm_control := false; bm_n_vars := (Some 2); bm_n_u := None;
    bm_torch := [(UAdd (UMinus (UVar 0)) (UMul (UVar 0) (UVar 1)));
     (UMinus (UVar 1))];
    bm_functions := []; bm_unpack_v := (Some 2); bm_unpack_u := None;
    bm_smt := [(UAdd (UMinus (UVar 0)) (UMul (UVar 0) (UVar 1)));
     (UMinus (UVar 1))] |}.

(** models.py:64-73 [NonPoly1]. *)
Definition NonPoly1 : benchmark_model :=
  {| bm_name := "NonPoly1"; bm_control := false; bm_n_vars := (Some 2); bm_n_u := None;
    bm_torch := [(UAdd (UMinus (UVar 0)) (UMul (UMul (UNum (2 # 1)) (UPow (UVar 0) 2)) (UVar 1)));
     (UMinus (UVar 1))];
    bm_functions := []; bm_unpack_v := (Some 2); bm_unpack_u := None;
    bm_smt := [(UAdd (UMinus (UVar 0)) (UMul (UMul (UNum (2 # 1)) (UPow (UVar 0) 2)) (UVar 1)));
     (UMinus (UVar 1))] |}.

(** models.py:76-85 [NonPoly2]. *)
Definition NonPoly2 : benchmark_model :=
  {| bm_name := "NonPoly2"; bm_control := false; bm_n_vars := (Some 3); bm_n_u := None;
    bm_torch := [(UMinus (UVar 0));
     (UAdd (UAdd (UMul (UMinus (UNum (2 # 1))) (UVar 1)) (UMul (UMul (UNum (1 # 10)) (UVar 0)) (UPow (UVar 1) 2))) (UVar 2));
     (USub (UMinus (UVar 2)) (UMul (UNum (3 # 2)) (UVar 1)))];
    bm_functions := []; bm_unpack_v := (Some 3); bm_unpack_u := None;
    bm_smt := [(UMinus (UVar 0));
     (UAdd (UAdd (UMul (UMinus (UNum (2 # 1))) (UVar 1)) (UMul (UMul (UNum (1 # 10)) (UVar 0)) (UPow (UVar 1) 2))) (UVar 2));
     (USub (UMinus (UVar 2)) (UMul (UNum (3 # 2)) (UVar 1)))] |}.

(** models.py:88-97 [NonPoly3]. *)
Definition NonPoly3 : benchmark_model :=
  {| bm_name := "NonPoly3"; bm_control := false; bm_n_vars := (Some 3); bm_n_u := None;
    bm_torch := [(USub (UMul (UMinus (UNum (3 # 1))) (UVar 0)) (UMul (UMul (UNum (1 # 10)) (UVar 0)) (UPow (UVar 1) 3)));
     (UAdd (UMinus (UVar 1)) (UVar 2));
     (UMinus (UVar 2))];
    bm_functions := []; bm_unpack_v := (Some 3); bm_unpack_u := None;
    bm_smt := [(USub (UMul (UMinus (UNum (3 # 1))) (UVar 0)) (UMul (UMul (UNum (1 # 10)) (UVar 0)) (UPow (UVar 1) 3)));
     (UAdd (UMinus (UVar 1)) (UVar 2));
     (UMinus (UVar 2))] |}.

(** models.py:100-109 [Benchmark0]. *)
Definition Benchmark0 : benchmark_model :=
  {| bm_name := "Benchmark0"; bm_control := false; bm_n_vars := (Some 2); bm_n_u := None;
    bm_torch := [(UMinus (UVar 0));
     (UMinus (UVar 1))];
    bm_functions := []; bm_unpack_v := (Some 2); bm_unpack_u := None;
    bm_smt := [(UMinus (UVar 0));
     (UMinus (UVar 1))] |}.

(** models.py:112-124 [Benchmark1]. *)
Definition Benchmark1 : benchmark_model :=
  {| bm_name := "Benchmark1"; bm_control := true; bm_n_vars := (Some 2); bm_n_u := (Some 2);
    bm_torch := [(UAdd (UAdd (UVar 0) (UVar 1)) (UInput 0));
     (UAdd (USub (UMinus (UVar 1)) (UVar 0)) (UInput 1))];
    bm_functions := []; bm_unpack_v := (Some 2); bm_unpack_u := (Some 2);
    bm_smt := [(UAdd (UAdd (UVar 0) (UVar 1)) (UInput 0));
     (UAdd (USub (UMinus (UVar 1)) (UVar 0)) (UInput 1))] |}.

(** models.py:127-139 [Benchmark2]. *)
Definition Benchmark2 : benchmark_model :=
  {| bm_name := "Benchmark2"; bm_control := true; bm_n_vars := (Some 2); bm_n_u := (Some 3);
    bm_torch := [(USub (UAdd (UAdd (UVar 0) (UVar 1)) (UInput 0)) (UInput 1));
     (UAdd (UAdd (UVar 1) (UMul (UNum (2 # 1)) (UVar 0))) (UInput 2))];
    bm_functions := []; bm_unpack_v := (Some 2); bm_unpack_u := (Some 3);
    bm_smt := [(USub (UAdd (UAdd (UVar 0) (UVar 1)) (UInput 0)) (UInput 1));
     (UAdd (UAdd (UVar 1) (UMul (UNum (2 # 1)) (UVar 0))) (UInput 2))] |}.

(** models.py:142-151 [BenchmarkDT1]. *)
Definition BenchmarkDT1 : benchmark_model :=
  {| bm_name := "BenchmarkDT1"; bm_control := true; bm_n_vars := None; bm_n_u := None;
    bm_torch := [(UAdd (UMul (UNum (2 # 1)) (UVar 0)) (UInput 0));
     (UAdd (UMul (UNum (2 # 1)) (UVar 1)) (UInput 1))];
    bm_functions := []; bm_unpack_v := (Some 2); bm_unpack_u := (Some 2);
    bm_smt := [(UAdd (UMul (UNum (2 # 1)) (UVar 0)) (UInput 0));
     (UAdd (UMul (UNum (2 # 1)) (UVar 1)) (UInput 1))] |}.

(** models.py:160-169 [Poly1]. *)
Definition Poly1 : benchmark_model :=
  {| bm_name := "Poly1"; bm_control := false; bm_n_vars := (Some 3); bm_n_u := None;
    bm_torch := [(USub (UMinus (UPow (UVar 0) 3)) (UMul (UVar 0) (UPow (UVar 2) 2)));
     (USub (UMinus (UVar 1)) (UMul (UPow (UVar 0) 2) (UVar 1)));
     (USub (UAdd (UMinus (UVar 2)) (UMul (UMul (UNum (3 # 1)) (UPow (UVar 0) 2)) (UVar 2))) (UMul (UNum (3 # 1)) (UVar 2)))];
    bm_functions := []; bm_unpack_v := (Some 3); bm_unpack_u := None;
    bm_smt := [(USub (UMinus (UPow (UVar 0) 3)) (UMul (UVar 0) (UPow (UVar 2) 2)));
     (USub (UMinus (UVar 1)) (UMul (UPow (UVar 0) 2) (UVar 1)));
     (USub (UAdd (UMinus (UVar 2)) (UMul (UMul (UNum (3 # 1)) (UPow (UVar 0) 2)) (UVar 2))) (UMul (UNum (3 # 1)) (UVar 2)))] |}.

(** models.py:172-181 [Poly2]. *)
Definition Poly2 : benchmark_model :=
  {| bm_name := "Poly2"; bm_control := false; bm_n_vars := (Some 2); bm_n_u := None;
    bm_torch := [(UAdd (UMinus (UPow (UVar 0) 3)) (UVar 1));
     (USub (UMinus (UVar 0)) (UVar 1))];
    bm_functions := []; bm_unpack_v := (Some 2); bm_unpack_u := None;
    bm_smt := [(UAdd (UMinus (UPow (UVar 0) 3)) (UVar 1));
     (USub (UMinus (UVar 0)) (UVar 1))] |}.

(** models.py:184-193 [Poly3]. *)
Definition Poly3 : benchmark_model :=
  {| bm_name := "Poly3"; bm_control := false; bm_n_vars := (Some 2); bm_n_u := None;
    bm_torch := [(USub (UMinus (UPow (UVar 0) 3)) (UPow (UVar 1) 2));
     (USub (UMul (UVar 0) (UVar 1)) (UPow (UVar 1) 3))];
    bm_functions := []; bm_unpack_v := (Some 2); bm_unpack_u := None;
    bm_smt := [(USub (UMinus (UPow (UVar 0) 3)) (UPow (UVar 1) 2));
     (USub (UMul (UVar 0) (UVar 1)) (UPow (UVar 1) 3))] |}.

(** models.py:196-205 [Poly4]. *)
Definition Poly4 : benchmark_model :=
  {| bm_name := "Poly4"; bm_control := false; bm_n_vars := (Some 2); bm_n_u := None;
    bm_torch := [(USub (UMinus (UVar 0)) (UMul (UMul (UNum (3 # 2)) (UPow (UVar 0) 2)) (UPow (UVar 1) 3)));
     (UAdd (UMinus (UPow (UVar 1) 3)) (UMul (UMul (UNum (1 # 2)) (UPow (UVar 0) 3)) (UPow (UVar 1) 2)))];
    bm_functions := []; bm_unpack_v := (Some 2); bm_unpack_u := None;
    bm_smt := [(USub (UMinus (UVar 0)) (UMul (UMul (UNum (3 # 2)) (UPow (UVar 0) 2)) (UPow (UVar 1) 3)));
     (UAdd (UMinus (UPow (UVar 1) 3)) (UMul (UMul (UNum (1 # 2)) (UPow (UVar 0) 3)) (UPow (UVar 1) 2)))] |}.

(** models.py:208-227 [Sriram4D]. *)
Definition Sriram4D : benchmark_model :=
  {| bm_name := "Sriram4D"; bm_control := false; bm_n_vars := (Some 4); bm_n_u := None;
    bm_torch := [(USub (UAdd (UMinus (UVar 0)) (UPow (UVar 1) 3)) (UMul (UMul (UNum (3 # 1)) (UVar 2)) (UVar 3)));
     (USub (UMinus (UVar 0)) (UPow (UVar 1) 3));
     (USub (UMul (UVar 0) (UVar 3)) (UVar 2));
     (USub (UMul (UVar 0) (UVar 2)) (UPow (UVar 3) 3))];
    bm_functions := []; bm_unpack_v := (Some 4); bm_unpack_u := None;
    bm_smt := [(USub (UAdd (UMinus (UVar 0)) (UPow (UVar 1) 3)) (UMul (UMul (UNum (3 # 1)) (UVar 2)) (UVar 3)));
     (USub (UMinus (UVar 0)) (UPow (UVar 1) 3));
     (USub (UMul (UVar 0) (UVar 3)) (UVar 2));
     (USub (UMul (UVar 0) (UVar 2)) (UPow (UVar 3) 3))] |}.

(** models.py:230-239 [LinearDiscrete]. *)
Definition LinearDiscrete : benchmark_model :=
  {| bm_name := "LinearDiscrete"; bm_control := false; bm_n_vars := (Some 2); bm_n_u := None;
    bm_torch := [(USub (UMul (UNum (1 # 2)) (UVar 0)) (UMul (UNum (1 # 2)) (UVar 1)));
     (UMul (UNum (1 # 2)) (UVar 0))];
    bm_functions := []; bm_unpack_v := (Some 2); bm_unpack_u := None;
    bm_smt := [(USub (UMul (UNum (1 # 2)) (UVar 0)) (UMul (UNum (1 # 2)) (UVar 1)));
     (UMul (UNum (1 # 2)) (UVar 0))] |}.

(** models.py:242-251 [DoubleLinearDiscrete]. *)
Definition DoubleLinearDiscrete : benchmark_model :=
  {| bm_name := "DoubleLinearDiscrete"; bm_control := false; bm_n_vars := (Some 4); bm_n_u := None;
    bm_torch := [(USub (UMul (UNum (1 # 2)) (UVar 0)) (UMul (UNum (1 # 2)) (UVar 1)));
     (UMul (UNum (1 # 2)) (UVar 0));
     (USub (UMul (UNum (1 # 2)) (UVar 2)) (UMul (UNum (1 # 2)) (UVar 3)));
     (UMul (UNum (1 # 2)) (UVar 2))];
    bm_functions := []; bm_unpack_v := (Some 4); bm_unpack_u := None;
    bm_smt := [(USub (UMul (UNum (1 # 2)) (UVar 0)) (UMul (UNum (1 # 2)) (UVar 1)));
     (UMul (UNum (1 # 2)) (UVar 0));
     (USub (UMul (UNum (1 # 2)) (UVar 2)) (UMul (UNum (1 # 2)) (UVar 3)));
     (UMul (UNum (1 # 2)) (UVar 2))] |}.

(** models.py:266-275 [NonLinearDiscrete]. *)
Definition NonLinearDiscrete : benchmark_model :=
  {| bm_name := "NonLinearDiscrete"; bm_control := false; bm_n_vars := (Some 2); bm_n_u := None;
    bm_torch := [(USub (UMul (UNum (1 # 2)) (UVar 0)) (UMul (UNum (1 # 1000000)) (UPow (UVar 1) 2)));
     (UMul (UMul (UNum (1 # 2)) (UVar 0)) (UVar 1))];
    bm_functions := []; bm_unpack_v := (Some 2); bm_unpack_u := None;
    bm_smt := [(USub (UMul (UNum (1 # 2)) (UVar 0)) (UMul (UNum (1 # 1000000)) (UPow (UVar 1) 2)));
     (UMul (UMul (UNum (1 # 2)) (UVar 0)) (UVar 1))] |}.

(** models.py:324-333 [Barr1]. *)
Definition Barr1 : benchmark_model :=
  {| bm_name := "Barr1"; bm_control := false; bm_n_vars := (Some 2); bm_n_u := None;
    bm_torch := [(UAdd (UVar 1) (UMul (UMul (UNum (2 # 1)) (UVar 0)) (UVar 1)));
     (UAdd (USub (UMinus (UVar 0)) (UPow (UVar 1) 2)) (UMul (UNum (2 # 1)) (UPow (UVar 0) 2)))];
    bm_functions := []; bm_unpack_v := (Some 2); bm_unpack_u := None;
    bm_smt := [(UAdd (UVar 1) (UMul (UMul (UNum (2 # 1)) (UVar 0)) (UVar 1)));
     (UAdd (USub (UMinus (UVar 0)) (UPow (UVar 1) 2)) (UMul (UNum (2 # 1)) (UPow (UVar 0) 2)))] |}.

(** models.py:336-347 [Barr2]. *)
Definition Barr2 : benchmark_model :=
  {| bm_name := "Barr2"; bm_control := false; bm_n_vars := (Some 2); bm_n_u := None;
    bm_torch := [(USub (UAdd (UFn "exp" (UMinus (UVar 0))) (UVar 1)) (UNum (1 # 1)));
     (UMinus (UPow (UFn "sin" (UVar 0)) 2))];
    bm_functions := ["sin"; "exp"]; bm_unpack_v := (Some 2); bm_unpack_u := None;
    bm_smt := [(USub (UAdd (UFn "exp" (UMinus (UVar 0))) (UVar 1)) (UNum (1 # 1)));
     (UMinus (UPow (UFn "sin" (UVar 0)) 2))] |}.

(** models.py:350-359 [Barr3]. *)
Definition Barr3 : benchmark_model :=
  {| bm_name := "Barr3"; bm_control := false; bm_n_vars := (Some 2); bm_n_u := None;
    bm_torch := [(UVar 1);
     (UAdd (USub (UMinus (UVar 0)) (UVar 1)) (UMul (UDiv (UNum (1 # 1)) (UNum (3 # 1))) (UPow (UVar 0) 3)))];
    bm_functions := []; bm_unpack_v := (Some 2); bm_unpack_u := None;
    bm_smt := [(UVar 1);
     (UAdd (USub (UMinus (UVar 0)) (UVar 1)) (UMul (UDiv (UNum (1 # 1)) (UNum (3 # 1))) (UPow (UVar 0) 3)))] |}.

(** models.py:362-384 [ObstacleAvoidance]. *)
Definition ObstacleAvoidance : benchmark_model :=
  {| bm_name := "ObstacleAvoidance"; bm_control := false; bm_n_vars := (Some 3); bm_n_u := None;
    bm_torch := [(UMul (UNum (1 # 1)) (UFn "sin" (UVar 2)));
     (UMul (UNum (1 # 1)) (UFn "cos" (UVar 2)));
     (UAdd (UMinus (UFn "sin" (UVar 2))) (UDiv (UMul (UNum (3 # 1)) (UAdd (UMul (UVar 0) (UFn "sin" (UVar 2))) (UMul (UVar 1) (UFn "cos" (UVar 2))))) (UAdd (UAdd (UNum (1 # 2)) (UPow (UVar 0) 2)) (UPow (UVar 1) 2))))];
    bm_functions := ["sin"; "cos"]; bm_unpack_v := (Some 3); bm_unpack_u := None;
    bm_smt := [(UMul (UNum (1 # 1)) (UFn "sin" (UVar 2)));
     (UMul (UNum (1 # 1)) (UFn "cos" (UVar 2)));
     (UAdd (UMinus (UFn "sin" (UVar 2))) (UDiv (UMul (UNum (3 # 1)) (UAdd (UMul (UVar 0) (UFn "sin" (UVar 2))) (UMul (UVar 1) (UFn "cos" (UVar 2))))) (UAdd (UAdd (UNum (1 # 2)) (UPow (UVar 0) 2)) (UPow (UVar 1) 2))))] |}.

(** models.py:387-396 [HighOrd4]. *)
Definition HighOrd4 : benchmark_model :=
  {| bm_name := "HighOrd4"; bm_control := false; bm_n_vars := (Some 4); bm_n_u := None;
    bm_torch := [(UVar 1);
     (UVar 2);
     (UVar 3);
     (USub (USub (USub (UMul (UMinus (UNum (3980 # 1))) (UVar 3)) (UMul (UNum (4180 # 1)) (UVar 2))) (UMul (UNum (2400 # 1)) (UVar 1))) (UMul (UNum (576 # 1)) (UVar 0)))];
    bm_functions := []; bm_unpack_v := (Some 4); bm_unpack_u := None;
    bm_smt := [(UVar 1);
     (UVar 2);
     (UVar 3);
     (USub (USub (USub (UMul (UMinus (UNum (3980 # 1))) (UVar 3)) (UMul (UNum (4180 # 1)) (UVar 2))) (UMul (UNum (2400 # 1)) (UVar 1))) (UMul (UNum (576 # 1)) (UVar 0)))] |}.

(** models.py:399-422 [HighOrd6]. *)
Definition HighOrd6 : benchmark_model :=
  {| bm_name := "HighOrd6"; bm_control := false; bm_n_vars := (Some 6); bm_n_u := None;
    bm_torch := [(UVar 1);
     (UVar 2);
     (UVar 3);
     (UVar 4);
     (UVar 5);
     (USub (USub (USub (USub (USub (UMul (UMinus (UNum (800 # 1))) (UVar 5)) (UMul (UNum (2273 # 1)) (UVar 4))) (UMul (UNum (3980 # 1)) (UVar 3))) (UMul (UNum (4180 # 1)) (UVar 2))) (UMul (UNum (2400 # 1)) (UVar 1))) (UMul (UNum (576 # 1)) (UVar 0)))];
    bm_functions := []; bm_unpack_v := (Some 6); bm_unpack_u := None;
    bm_smt := [(UVar 1);
     (UVar 2);
     (UVar 3);
     (UVar 4);
     (UVar 5);
     (USub (USub (USub (USub (USub (UMul (UMinus (UNum (800 # 1))) (UVar 5)) (UMul (UNum (2273 # 1)) (UVar 4))) (UMul (UNum (3980 # 1)) (UVar 3))) (UMul (UNum (4180 # 1)) (UVar 2))) (UMul (UNum (2400 # 1)) (UVar 1))) (UMul (UNum (576 # 1)) (UVar 0)))] |}.

(** models.py:425-475 [HighOrd8]. *)
Definition HighOrd8 : benchmark_model :=
  {| bm_name := "HighOrd8"; bm_control := false; bm_n_vars := (Some 8); bm_n_u := None;
    bm_torch := [(UVar 1);
     (UVar 2);
     (UVar 3);
     (UVar 4);
     (UVar 5);
     (UVar 6);
     (UVar 7);
     (USub (USub (USub (USub (USub (USub (USub (UMul (UMinus (UNum (20 # 1))) (UVar 7)) (UMul (UNum (170 # 1)) (UVar 6))) (UMul (UNum (800 # 1)) (UVar 5))) (UMul (UNum (2273 # 1)) (UVar 4))) (UMul (UNum (3980 # 1)) (UVar 3))) (UMul (UNum (4180 # 1)) (UVar 2))) (UMul (UNum (2400 # 1)) (UVar 1))) (UMul (UNum (576 # 1)) (UVar 0)))];
    bm_functions := []; bm_unpack_v := (Some 8); bm_unpack_u := None;
    bm_smt := [(UVar 1);
     (UVar 2);
     (UVar 3);
     (UVar 4);
     (UVar 5);
     (UVar 6);
     (UVar 7);
     (USub (USub (USub (USub (USub (USub (USub (UMul (UMinus (UNum (20 # 1))) (UVar 7)) (UMul (UNum (170 # 1)) (UVar 6))) (UMul (UNum (800 # 1)) (UVar 5))) (UMul (UNum (2273 # 1)) (UVar 4))) (UMul (UNum (3980 # 1)) (UVar 3))) (UMul (UNum (4180 # 1)) (UVar 2))) (UMul (UNum (2400 # 1)) (UVar 1))) (UMul (UNum (576 # 1)) (UVar 0)))] |}.

(** models.py:478-487 [UnstableLinear]. *)
Definition UnstableLinear : benchmark_model :=
  {| bm_name := "UnstableLinear"; bm_control := false; bm_n_vars := (Some 2); bm_n_u := None;
    bm_torch := [(USub (UMul (UMinus (UNum (2 # 1))) (UVar 0)) (UVar 1));
     (UMul (UNum (3 # 5)) (UVar 1))];
    bm_functions := []; bm_unpack_v := (Some 2); bm_unpack_u := None;
    bm_smt := [(USub (UMul (UMinus (UNum (2 # 1))) (UVar 0)) (UVar 1));
     (UMul (UNum (3 # 5)) (UVar 1))] |}.

(** models.py:490-501 [Car]. *)
Definition Car : benchmark_model :=
  {| bm_name := "Car"; bm_control := false; bm_n_vars := (Some 3); bm_n_u := None;
    bm_torch := [(UFn "cos" (UVar 2));
     (UFn "sin" (UVar 2));
     (UVar 2)];
    bm_functions := ["sin"; "cos"]; bm_unpack_v := (Some 3); bm_unpack_u := None;
    bm_smt := [(UFn "cos" (UVar 2));
     (UFn "sin" (UVar 2));
     (UVar 2)] |}.

(** models.py:504-530 [SineModel]. *)
Definition SineModel : benchmark_model :=
  {| bm_name := "SineModel"; bm_control := true; bm_n_vars := (Some 2); bm_n_u := (Some 2);
    bm_torch := [(UAdd (UVar 1) (UInput 0));
     (UAdd (UInput 1) (UDiv (USub (UMul (UMul (UMul (UNum (3 # 20)) (UNum (981 # 100))) (UNum (1 # 2))) (UFn "sin" (UVar 0))) (UMul (UNum (1 # 10)) (UVar 1))) (UMul (UNum (3 # 20)) (UPow (UNum (1 # 2)) 2))))];
    bm_functions := ["sin"; "cos"]; bm_unpack_v := (Some 2); bm_unpack_u := (Some 2);
    bm_smt := [(UAdd (UVar 1) (UInput 0));
     (UAdd (UInput 1) (UDiv (USub (UMul (UMul (UMul (UNum (3 # 20)) (UNum (981 # 100))) (UNum (1 # 2))) (UFn "sin" (UVar 0))) (UMul (UNum (1 # 10)) (UVar 1))) (UMul (UNum (3 # 20)) (UPow (UNum (1 # 2)) 2))))] |}.

(** models.py:533-561 [SineModelLQR]. *)
Definition SineModelLQR : benchmark_model :=
  {| bm_name := "SineModelLQR"; bm_control := false; bm_n_vars := (Some 2); bm_n_u := None;
    bm_torch := [(UAdd (UVar 1) (USub (UMul (UMinus (UNum (721 # 100))) (UVar 0)) (UMul (UNum (67 # 50)) (UVar 1))));
     (UAdd (USub (UMul (UMinus (UNum (67 # 50))) (UVar 0)) (UMul (UNum (33 # 100)) (UVar 1))) (UDiv (USub (UMul (UMul (UMul (UNum (3 # 20)) (UNum (981 # 100))) (UNum (1 # 2))) (UFn "sin" (UVar 0))) (UMul (UNum (1 # 10)) (UVar 1))) (UMul (UNum (3 # 20)) (UPow (UNum (1 # 2)) 2))))];
    bm_functions := ["sin"; "cos"]; bm_unpack_v := (Some 2); bm_unpack_u := None;
    bm_smt := [(UAdd (UVar 1) (USub (UMul (UMinus (UNum (721 # 100))) (UVar 0)) (UMul (UNum (67 # 50)) (UVar 1))));
     (UAdd (USub (UMul (UMinus (UNum (67 # 50))) (UVar 0)) (UMul (UNum (33 # 100)) (UVar 1))) (UDiv (USub (UMul (UMul (UMul (UNum (3 # 20)) (UNum (981 # 100))) (UNum (1 # 2))) (UFn "sin" (UVar 0))) (UMul (UNum (1 # 10)) (UVar 1))) (UMul (UNum (3 # 20)) (UPow (UNum (1 # 2)) 2))))] |}.

(** models.py:564-595 [LorenzSystem]. *)
Definition LorenzSystem : benchmark_model :=
  {| bm_name := "LorenzSystem"; bm_control := true; bm_n_vars := (Some 3); bm_n_u := (Some 3);
    bm_torch := [(UAdd (UMul (UMinus (UNum (10 # 1))) (USub (UVar 0) (UVar 1))) (UInput 0));
     (UAdd (USub (USub (UMul (UNum (28 # 1)) (UVar 0)) (UVar 1)) (UMul (UVar 0) (UVar 2))) (UInput 1));
     (UAdd (USub (UMul (UVar 0) (UVar 1)) (UMul (UDiv (UNum (8 # 1)) (UNum (3 # 1))) (UVar 2))) (UInput 2))];
    bm_functions := []; bm_unpack_v := (Some 3); bm_unpack_u := (Some 3);
    bm_smt := [(UAdd (UMul (UMinus (UNum (10 # 1))) (USub (UVar 0) (UVar 1))) (UInput 0));
     (UAdd (USub (USub (UMul (UNum (28 # 1)) (UVar 0)) (UVar 1)) (UMul (UVar 0) (UVar 2))) (UInput 1));
     (UAdd (USub (UMul (UVar 0) (UVar 1)) (UMul (UDiv (UNum (8 # 1)) (UNum (3 # 1))) (UVar 2))) (UInput 2))] |}.

(** models.py:598-611 [CtrlCar]. *)
Definition CtrlCar : benchmark_model :=
  {| bm_name := "CtrlCar"; bm_control := true; bm_n_vars := (Some 3); bm_n_u := None;
    bm_torch := [(UAdd (UFn "cos" (UVar 2)) (UInput 0));
     (UAdd (UFn "sin" (UVar 2)) (UInput 1));
     (UAdd (UVar 2) (UInput 2))];
    bm_functions := ["sin"; "cos"]; bm_unpack_v := (Some 3); bm_unpack_u := (Some 3);
    bm_smt := [(UAdd (UFn "cos" (UVar 2)) (UInput 0));
     (UAdd (UFn "sin" (UVar 2)) (UInput 1));
     (UAdd (UVar 2) (UInput 2))] |}.

(** models.py:725-749 [CtrlObstacleAvoidance]. *)
Definition CtrlObstacleAvoidance : benchmark_model :=
  {| bm_name := "CtrlObstacleAvoidance"; bm_control := true; bm_n_vars := (Some 3); bm_n_u := (Some 1);
    bm_torch := [(UMul (UNum (1 # 1)) (UFn "sin" (UVar 2)));
     (UMul (UNum (1 # 1)) (UFn "cos" (UVar 2)));
     (UAdd (UMinus (UFn "sin" (UVar 2))) (UInput 0))];
    bm_functions := ["sin"; "cos"]; bm_unpack_v := (Some 3); bm_unpack_u := (Some 1);
    bm_smt := [(UMul (UNum (1 # 1)) (UFn "sin" (UVar 2)));
     (UMul (UNum (1 # 1)) (UFn "cos" (UVar 2)));
     (UAdd (UMinus (UFn "sin" (UVar 2))) (UInput 0))] |}.

(** models.py:752-764 [Identity]. *)
Definition Identity : benchmark_model :=
  {| bm_name := "Identity"; bm_control := true; bm_n_vars := (Some 2); bm_n_u := (Some 2);
    bm_torch := [(UAdd (UVar 0) (UInput 0));
     (UAdd (UVar 1) (UInput 1))];
    bm_functions := []; bm_unpack_v := (Some 2); bm_unpack_u := (Some 2);
    bm_smt := [(UAdd (UVar 0) (UInput 0));
     (UAdd (UVar 1) (UInput 1))] |}.

(** models.py:767-782 [DTAhmadi]. *)
Definition DTAhmadi : benchmark_model :=
  {| bm_name := "DTAhmadi"; bm_control := true; bm_n_vars := (Some 2); bm_n_u := (Some 2);
    bm_torch := [(UAdd (UMul (UNum (3 # 10)) (UVar 0)) (UInput 0));
     (UAdd (UAdd (UAdd (UMinus (UVar 0)) (UMul (UNum (1 # 2)) (UVar 1))) (UMul (UDiv (UNum (7 # 1)) (UNum (18 # 1))) (UPow (UVar 0) 2))) (UInput 1))];
    bm_functions := []; bm_unpack_v := (Some 2); bm_unpack_u := (Some 2);
    bm_smt := [(UAdd (UMul (UNum (3 # 10)) (UVar 0)) (UInput 0));
     (UAdd (UAdd (UAdd (UMinus (UVar 0)) (UMul (UNum (1 # 2)) (UVar 1))) (UMul (UDiv (UNum (7 # 1)) (UNum (18 # 1))) (UPow (UVar 0) 2))) (UInput 1))] |}.

(** models.py:786-799 [DTAhmadi2]. *)
Definition DTAhmadi2 : benchmark_model :=
  {| bm_name := "DTAhmadi2"; bm_control := false; bm_n_vars := (Some 2); bm_n_u := None;
    bm_torch := [(USub (UAdd (UMul (UNum (687 # 1000)) (UVar 0)) (UMul (UNum (279 # 500)) (UVar 1))) (UMul (UMul (UNum (1 # 10000)) (UVar 0)) (UVar 1)));
     (UAdd (UMul (UMinus (UNum (73 # 250))) (UVar 0)) (UMul (UNum (773 # 1000)) (UVar 1)))];
    bm_functions := []; bm_unpack_v := (Some 2); bm_unpack_u := None;
    bm_smt := [(USub (UAdd (UMul (UNum (687 # 1000)) (UVar 0)) (UMul (UNum (279 # 500)) (UVar 1))) (UMul (UMul (UNum (1 # 10000)) (UVar 0)) (UVar 1)));
     (UAdd (UMul (UMinus (UNum (73 # 250))) (UVar 0)) (UMul (UNum (773 # 1000)) (UVar 1)))] |}.

(** models.py:802-812 [DebugDT]. *)
Definition DebugDT : benchmark_model :=
  {| bm_name := "DebugDT"; bm_control := false; bm_n_vars := (Some 2); bm_n_u := None;
    bm_torch := [(UMul (UNum (1 # 2)) (UVar 1));
     (UMul (UMinus (UNum (1 # 10))) (UVar 0))];
    bm_functions := []; bm_unpack_v := (Some 2); bm_unpack_u := None;
    bm_smt := [(UMul (UNum (1 # 2)) (UVar 1));
     (UMul (UMinus (UNum (1 # 10))) (UVar 0))] |}.

(** models.py:815-842 [CtrlRoomTemp]. *)
Definition CtrlRoomTemp : benchmark_model :=
  {| bm_name := "CtrlRoomTemp"; bm_control := true; bm_n_vars := (Some 1); bm_n_u := (Some 1);
    bm_torch := [(UAdd (UVar 0) (UMul (UMul (UNum (5 # 1)) (UNum (60 # 1))) (UAdd (USub (UNum (15 # 1)) (UVar 0)) (UMul (UMul (UMul (UNum (18 # 5)) (UNum (1 # 1000))) (USub (UNum (55 # 1)) (UVar 0))) (UInput 0)))))];
    bm_functions := []; bm_unpack_v := None; bm_unpack_u := None;
    bm_smt := [(UAdd (UVar 0) (UMul (UMul (UNum (5 # 1)) (UNum (60 # 1))) (UAdd (USub (UNum (15 # 1)) (UVar 0)) (UMul (UMul (UMul (UNum (18 # 5)) (UNum (1 # 1000))) (USub (UNum (55 # 1)) (UVar 0))) (UInput 0)))))] |}.

(** models.py:845-868 [JetEngineCompressor]. *)
Definition JetEngineCompressor : benchmark_model :=
  {| bm_name := "JetEngineCompressor"; bm_control := true; bm_n_vars := (Some 2); bm_n_u := (Some 1);
    bm_torch := [(UAdd (UVar 0) (UMul (UNum (1 # 100)) (USub (USub (UMinus (UVar 1)) (UMul (UNum (3 # 2)) (UPow (UVar 0) 2))) (UMul (UNum (1 # 2)) (UPow (UVar 0) 3)))));
     (UAdd (UVar 1) (UMul (UMul (UPow (UDiv (UNum (1 # 1)) (UNum (1 # 1))) 2) (UNum (1 # 100))) (USub (UVar 0) (UInput 0))))];
    bm_functions := []; bm_unpack_v := (Some 2); bm_unpack_u := None;
    bm_smt := [(UAdd (UVar 0) (UMul (UNum (1 # 100)) (USub (USub (UMinus (UVar 1)) (UMul (UNum (3 # 2)) (UPow (UVar 0) 2))) (UMul (UNum (1 # 2)) (UPow (UVar 0) 3)))));
     (UAdd (UVar 1) (UMul (UMul (UPow (UDiv (UNum (1 # 1)) (UNum (1 # 1))) 2) (UNum (1 # 100))) (USub (UVar 0) (UInput 0))))] |}.

(** models.py:871-917 [TwoRoomTemp]. *)
Definition TwoRoomTemp : benchmark_model :=
  {| bm_name := "TwoRoomTemp"; bm_control := false; bm_n_vars := (Some 2); bm_n_u := None;
    bm_torch := [(UAdd (UAdd (UMul (USub (UNum (1 # 1)) (UMul (UNum (5 # 1)) (UAdd (UMul (UNum (5 # 1)) (UNum (1 # 100))) (UMul (UNum (5 # 1)) (UNum (1 # 1000)))))) (UVar 0)) (UMul (UMul (UNum (5 # 1)) (UMul (UNum (5 # 1)) (UNum (1 # 100)))) (UVar 1))) (UMul (UMul (UNum (5 # 1)) (UMul (UNum (5 # 1)) (UNum (1 # 1000)))) (UNum (15 # 1))));
     (UAdd (UAdd (UMul (USub (UNum (1 # 1)) (UMul (UNum (5 # 1)) (UAdd (UMul (UNum (1 # 1)) (UMul (UNum (5 # 1)) (UNum (1 # 100)))) (UMul (UNum (8 # 1)) (UNum (1 # 1000)))))) (UVar 1)) (UMul (UMul (UNum (5 # 1)) (UMul (UNum (5 # 1)) (UNum (1 # 100)))) (UVar 0))) (UMul (UMul (UNum (5 # 1)) (UMul (UNum (8 # 1)) (UNum (1 # 1000)))) (UNum (15 # 1))))];
    bm_functions := []; bm_unpack_v := (Some 2); bm_unpack_u := None;
    bm_smt := [(UAdd (UAdd (UMul (USub (UNum (1 # 1)) (UMul (UNum (5 # 1)) (UAdd (UMul (UNum (5 # 1)) (UNum (1 # 100))) (UMul (UNum (5 # 1)) (UNum (1 # 1000)))))) (UVar 0)) (UMul (UMul (UNum (5 # 1)) (UMul (UNum (5 # 1)) (UNum (1 # 100)))) (UVar 1))) (UMul (UMul (UNum (5 # 1)) (UMul (UNum (5 # 1)) (UNum (1 # 1000)))) (UNum (15 # 1))));
     (UAdd (UAdd (UMul (USub (UNum (1 # 1)) (UMul (UNum (5 # 1)) (UAdd (UMul (UNum (1 # 1)) (UMul (UNum (5 # 1)) (UNum (1 # 100)))) (UMul (UNum (8 # 1)) (UNum (1 # 1000)))))) (UVar 1)) (UMul (UMul (UNum (5 # 1)) (UMul (UNum (5 # 1)) (UNum (1 # 100)))) (UVar 0))) (UMul (UMul (UNum (5 # 1)) (UMul (UNum (8 # 1)) (UNum (1 # 1000)))) (UNum (15 # 1))))] |}.

(** models.py:920-972 [CtrlTwoRoomTemp]. *)
Definition CtrlTwoRoomTemp : benchmark_model :=
  {| bm_name := "CtrlTwoRoomTemp"; bm_control := true; bm_n_vars := (Some 2); bm_n_u := (Some 2);
    bm_torch := [(UAdd (UAdd (UAdd (UMul (USub (UNum (1 # 1)) (UMul (UNum (5 # 1)) (UAdd (UMul (UNum (5 # 1)) (UNum (1 # 100))) (UMul (UNum (5 # 1)) (UNum (1 # 1000)))))) (UVar 0)) (UMul (UMul (UNum (5 # 1)) (UMul (UNum (5 # 1)) (UNum (1 # 100)))) (UVar 1))) (UMul (UMul (UNum (5 # 1)) (UMul (UNum (5 # 1)) (UNum (1 # 1000)))) (UNum (15 # 1)))) (UMul (UMul (UMul (UNum (5 # 1)) (UMul (UNum (18 # 5)) (UNum (1 # 1000)))) (USub (UNum (55 # 1)) (UVar 0))) (UInput 0)));
     (UAdd (UAdd (UAdd (UMul (USub (UNum (1 # 1)) (UMul (UNum (5 # 1)) (UAdd (UMul (UNum (1 # 1)) (UMul (UNum (5 # 1)) (UNum (1 # 100)))) (UMul (UNum (8 # 1)) (UNum (1 # 1000)))))) (UVar 1)) (UMul (UMul (UNum (5 # 1)) (UMul (UNum (5 # 1)) (UNum (1 # 100)))) (UVar 0))) (UMul (UMul (UNum (5 # 1)) (UMul (UNum (8 # 1)) (UNum (1 # 1000)))) (UNum (15 # 1)))) (UMul (UMul (UMul (UNum (5 # 1)) (UMul (UNum (18 # 5)) (UNum (1 # 1000)))) (USub (UNum (55 # 1)) (UVar 1))) (UInput 1)))];
    bm_functions := []; bm_unpack_v := (Some 2); bm_unpack_u := (Some 2);
    bm_smt := [(UAdd (UAdd (UAdd (UMul (USub (UNum (1 # 1)) (UMul (UNum (5 # 1)) (UAdd (UMul (UNum (5 # 1)) (UNum (1 # 100))) (UMul (UNum (5 # 1)) (UNum (1 # 1000)))))) (UVar 0)) (UMul (UMul (UNum (5 # 1)) (UMul (UNum (5 # 1)) (UNum (1 # 100)))) (UVar 1))) (UMul (UMul (UNum (5 # 1)) (UMul (UNum (5 # 1)) (UNum (1 # 1000)))) (UNum (15 # 1)))) (UMul (UMul (UMul (UNum (5 # 1)) (UMul (UNum (18 # 5)) (UNum (1 # 1000)))) (USub (UNum (55 # 1)) (UVar 0))) (UInput 0)));
     (UAdd (UAdd (UAdd (UMul (USub (UNum (1 # 1)) (UMul (UNum (5 # 1)) (UAdd (UMul (UNum (1 # 1)) (UMul (UNum (5 # 1)) (UNum (1 # 100)))) (UMul (UNum (8 # 1)) (UNum (1 # 1000)))))) (UVar 1)) (UMul (UMul (UNum (5 # 1)) (UMul (UNum (5 # 1)) (UNum (1 # 100)))) (UVar 0))) (UMul (UMul (UNum (5 # 1)) (UMul (UNum (8 # 1)) (UNum (1 # 1000)))) (UNum (15 # 1)))) (UMul (UMul (UMul (UNum (5 # 1)) (UMul (UNum (18 # 5)) (UNum (1 # 1000)))) (USub (UNum (55 # 1)) (UVar 1))) (UInput 1)))] |}.

(** models.py:975-1002 [CtrlThermalConvection]. *)
Definition CtrlThermalConvection : benchmark_model :=
  {| bm_name := "CtrlThermalConvection"; bm_control := true; bm_n_vars := (Some 3); bm_n_u := (Some 1);
    bm_torch := [(UAdd (UMul (USub (UNum (1 # 1)) (UMul (UNum (10 # 1)) (UNum (1 # 1000)))) (UVar 0)) (UMul (UMul (UNum (10 # 1)) (UNum (1 # 1000))) (UVar 1)));
     (UAdd (UAdd (USub (UMul (USub (UNum (1 # 1)) (UNum (1 # 1000))) (UVar 1)) (UMul (UMul (UNum (1 # 1000)) (UVar 0)) (UVar 2))) (UMul (UMul (UNum (1 # 1000)) (UNum (28 # 1))) (UVar 0))) (UMul (UNum (1 # 1000)) (UInput 0)));
     (UAdd (UMul (USub (UNum (1 # 1)) (UMul (UDiv (UNum (8 # 1)) (UNum (3 # 1))) (UNum (1 # 1000)))) (UVar 2)) (UMul (UMul (UNum (1 # 1000)) (UVar 0)) (UVar 1)))];
    bm_functions := []; bm_unpack_v := (Some 3); bm_unpack_u := None;
    bm_smt := [(UAdd (UMul (USub (UNum (1 # 1)) (UMul (UNum (10 # 1)) (UNum (1 # 1000)))) (UVar 0)) (UMul (UMul (UNum (10 # 1)) (UNum (1 # 1000))) (UVar 1)));
     (UAdd (UAdd (USub (UMul (USub (UNum (1 # 1)) (UNum (1 # 1000))) (UVar 1)) (UMul (UMul (UNum (1 # 1000)) (UVar 0)) (UVar 2))) (UMul (UMul (UNum (1 # 1000)) (UNum (28 # 1))) (UVar 0))) (UMul (UNum (1 # 1000)) (UInput 0)));
     (UAdd (UMul (USub (UNum (1 # 1)) (UMul (UDiv (UNum (8 # 1)) (UNum (3 # 1))) (UNum (1 # 1000)))) (UVar 2)) (UMul (UMul (UNum (1 # 1000)) (UVar 0)) (UVar 1)))] |}.

(** models.py:1006-1018 [Linear1]. *)
Definition Linear1 : benchmark_model :=
  {| bm_name := "Linear1"; bm_control := true; bm_n_vars := (Some 2); bm_n_u := (Some 1);
    bm_torch := [(UVar 1);
     (UAdd (UMinus (UVar 0)) (UInput 0))];
    bm_functions := []; bm_unpack_v := (Some 2); bm_unpack_u := (Some 1);
    bm_smt := [(UVar 1);
     (UAdd (UMinus (UVar 0)) (UInput 0))] |}.

(** models.py:1021-1035 [Linear1LQR]. *)
Definition Linear1LQR : benchmark_model :=
  {| bm_name := "Linear1LQR"; bm_control := false; bm_n_vars := (Some 2); bm_n_u := None;
    bm_torch := [(UVar 1);
     (UAdd (UMinus (UVar 0)) (UMinus (UAdd (UMul (UNum (207 # 500)) (UVar 0)) (UMul (UNum (169 # 125)) (UVar 1)))))];
    bm_functions := []; bm_unpack_v := (Some 2); bm_unpack_u := None;
    bm_smt := [(UVar 1);
     (UAdd (UMinus (UVar 0)) (UMinus (UAdd (UMul (UNum (207 # 500)) (UVar 0)) (UMul (UNum (169 # 125)) (UVar 1)))))] |}.

(** models.py:1038-1050 [SecondOrder]. *)
Definition SecondOrder : benchmark_model :=
  {| bm_name := "SecondOrder"; bm_control := true; bm_n_vars := (Some 2); bm_n_u := (Some 1);
    bm_torch := [(USub (UVar 1) (UPow (UVar 0) 3));
     (UInput 0)];
    bm_functions := []; bm_unpack_v := (Some 2); bm_unpack_u := (Some 1);
    bm_smt := [(USub (UVar 1) (UPow (UVar 0) 3));
     (UInput 0)] |}.

(** models.py:1053-1065 [SecondOrderLQR]. *)
Definition SecondOrderLQR : benchmark_model :=
  {| bm_name := "SecondOrderLQR"; bm_control := false; bm_n_vars := (Some 2); bm_n_u := None;
    bm_torch := [(USub (UVar 1) (UPow (UVar 0) 3));
     (UMinus (UAdd (UMul (UNum (1 # 1)) (UVar 0)) (UMul (UNum (173 # 100)) (UVar 1))))];
    bm_functions := []; bm_unpack_v := (Some 2); bm_unpack_u := None;
    bm_smt := [(USub (UVar 1) (UPow (UVar 0) 3));
     (UMinus (UAdd (UMul (UNum (1 # 1)) (UVar 0)) (UMul (UNum (173 # 100)) (UVar 1))))] |}.

(** models.py:1068-1080 [ThirdOrder]. *)
Definition ThirdOrder : benchmark_model :=
  {| bm_name := "ThirdOrder"; bm_control := true; bm_n_vars := (Some 3); bm_n_u := (Some 1);
    bm_torch := [(UAdd (UAdd (UMul (UMinus (UNum (10 # 1))) (UVar 0)) (UMul (UNum (10 # 1)) (UVar 1))) (UInput 0));
     (USub (USub (UMul (UNum (28 # 1)) (UVar 0)) (UVar 1)) (UMul (UVar 0) (UVar 2)));
     (USub (UMul (UVar 0) (UVar 1)) (UMul (UDiv (UNum (8 # 1)) (UNum (3 # 1))) (UVar 2)))];
    bm_functions := []; bm_unpack_v := (Some 3); bm_unpack_u := (Some 1);
    bm_smt := [(UAdd (UAdd (UMul (UMinus (UNum (10 # 1))) (UVar 0)) (UMul (UNum (10 # 1)) (UVar 1))) (UInput 0));
     (USub (USub (UMul (UNum (28 # 1)) (UVar 0)) (UVar 1)) (UMul (UVar 0) (UVar 2)));
     (USub (UMul (UVar 0) (UVar 1)) (UMul (UDiv (UNum (8 # 1)) (UNum (3 # 1))) (UVar 2)))] |}.

(** models.py:1083-1095 [ThirdOrderLQR]. *)
Definition ThirdOrderLQR : benchmark_model :=
  {| bm_name := "ThirdOrderLQR"; bm_control := false; bm_n_vars := (Some 3); bm_n_u := None;
    bm_torch := [(UAdd (UAdd (UMul (UMinus (UNum (10 # 1))) (UVar 0)) (UMul (UNum (10 # 1)) (UVar 1))) (UMinus (UAdd (UAdd (UMul (UNum (2371 # 100)) (UVar 0)) (UMul (UNum (1849 # 100)) (UVar 1))) (UMul (UNum (0 # 1)) (UVar 2)))));
     (USub (USub (UMul (UNum (28 # 1)) (UVar 0)) (UVar 1)) (UMul (UVar 0) (UVar 2)));
     (USub (UMul (UVar 0) (UVar 1)) (UMul (UDiv (UNum (8 # 1)) (UNum (3 # 1))) (UVar 2)))];
    bm_functions := []; bm_unpack_v := (Some 3); bm_unpack_u := None;
    bm_smt := [(UAdd (UAdd (UMul (UMinus (UNum (10 # 1))) (UVar 0)) (UMul (UNum (10 # 1)) (UVar 1))) (UMinus (UAdd (UAdd (UMul (UNum (2371 # 100)) (UVar 0)) (UMul (UNum (1849 # 100)) (UVar 1))) (UMul (UNum (0 # 1)) (UVar 2)))));
     (USub (USub (UMul (UNum (28 # 1)) (UVar 0)) (UVar 1)) (UMul (UVar 0) (UVar 2)));
     (USub (UMul (UVar 0) (UVar 1)) (UMul (UDiv (UNum (8 # 1)) (UNum (3 # 1))) (UVar 2)))] |}.

(** models.py:1098-1110 [LoktaVolterra]. *)
Definition LoktaVolterra : benchmark_model :=
  {| bm_name := "LoktaVolterra"; bm_control := false; bm_n_vars := (Some 2); bm_n_u := None;
    bm_torch := [(USub (UMul (UNum (3 # 5)) (UVar 0)) (UMul (UVar 0) (UVar 1)));
     (UAdd (UMul (UMinus (UNum (3 # 5))) (UVar 1)) (UMul (UVar 0) (UVar 1)))];
    bm_functions := []; bm_unpack_v := (Some 2); bm_unpack_u := None;
    bm_smt := [(USub (UMul (UNum (3 # 5)) (UVar 0)) (UMul (UVar 0) (UVar 1)));
     (UAdd (UMul (UMinus (UNum (3 # 5))) (UVar 1)) (UMul (UVar 0) (UVar 1)))] |}.

(** models.py:1113-1125 [VanDerPol]. *)
Definition VanDerPol : benchmark_model :=
  {| bm_name := "VanDerPol"; bm_control := false; bm_n_vars := (Some 2); bm_n_u := None;
    bm_torch := [(UVar 1);
     (USub (UMul (UMul (UMinus (UNum (1 # 2))) (USub (UNum (1 # 1)) (UPow (UVar 0) 2))) (UVar 1)) (UVar 0))];
    bm_functions := []; bm_unpack_v := (Some 2); bm_unpack_u := None;
    bm_smt := [(UVar 1);
     (USub (UMul (UMul (UMinus (UNum (1 # 2))) (USub (UNum (1 # 1)) (UPow (UVar 0) 2))) (UVar 1)) (UVar 0))] |}.

(** models.py:1128-1151 [SheModel]. *)
Definition SheModel : benchmark_model :=
  {| bm_name := "SheModel"; bm_control := false; bm_n_vars := (Some 6); bm_n_u := None;
    bm_torch := [(USub (UMul (UVar 1) (UVar 3)) (UPow (UVar 0) 3));
     (USub (UMul (UMul (UMinus (UNum (3 # 1))) (UVar 0)) (UVar 3)) (UPow (UVar 1) 3));
     (USub (UMinus (UVar 2)) (UMul (UMul (UNum (3 # 1)) (UVar 0)) (UPow (UVar 3) 3)));
     (UAdd (UMinus (UVar 3)) (UMul (UVar 0) (UVar 2)));
     (UAdd (UMinus (UVar 4)) (UPow (UVar 5) 3));
     (UAdd (USub (UMinus (UVar 4)) (UVar 5)) (UPow (UVar 2) 4))];
    bm_functions := []; bm_unpack_v := (Some 6); bm_unpack_u := None;
    bm_smt := [(USub (UMul (UVar 1) (UVar 3)) (UPow (UVar 0) 3));
     (USub (UMul (UMul (UMinus (UNum (3 # 1))) (UVar 0)) (UVar 3)) (UPow (UVar 1) 3));
     (USub (UMinus (UVar 2)) (UMul (UMul (UNum (3 # 1)) (UVar 0)) (UPow (UVar 3) 3)));
     (UAdd (UMinus (UVar 3)) (UMul (UVar 0) (UVar 2)));
     (UAdd (UMinus (UVar 4)) (UPow (UVar 5) 3));
     (UAdd (USub (UMinus (UVar 4)) (UVar 5)) (UPow (UVar 2) 4))] |}.

(** models.py:1154-1177 [PapaPrajna6]. *)
Definition PapaPrajna6 : benchmark_model :=
  {| bm_name := "PapaPrajna6"; bm_control := false; bm_n_vars := (Some 6); bm_n_u := None;
    bm_torch := [(USub (UAdd (UMinus (UPow (UVar 0) 3)) (UMul (UNum (4 # 1)) (UPow (UVar 1) 3))) (UMul (UMul (UNum (6 # 1)) (UVar 2)) (UVar 3)));
     (UAdd (USub (UMinus (UVar 0)) (UVar 1)) (UPow (UVar 4) 3));
     (UAdd (USub (UMul (UVar 0) (UVar 3)) (UVar 2)) (UMul (UVar 3) (UVar 5)));
     (USub (UAdd (UMul (UVar 0) (UVar 2)) (UMul (UVar 2) (UVar 5))) (UPow (UVar 3) 3));
     (UAdd (USub (UMul (UMinus (UNum (2 # 1))) (UPow (UVar 1) 3)) (UVar 4)) (UVar 5));
     (USub (USub (UMul (UMul (UMinus (UNum (3 # 1))) (UVar 2)) (UVar 3)) (UPow (UVar 4) 3)) (UVar 5))];
    bm_functions := []; bm_unpack_v := (Some 6); bm_unpack_u := None;
    bm_smt := [(USub (UAdd (UMinus (UPow (UVar 0) 3)) (UMul (UNum (4 # 1)) (UPow (UVar 1) 3))) (UMul (UMul (UNum (6 # 1)) (UVar 2)) (UVar 3)));
     (UAdd (USub (UMinus (UVar 0)) (UVar 1)) (UPow (UVar 4) 3));
     (UAdd (USub (UMul (UVar 0) (UVar 3)) (UVar 2)) (UMul (UVar 3) (UVar 5)));
     (USub (UAdd (UMul (UVar 0) (UVar 2)) (UMul (UVar 2) (UVar 5))) (UPow (UVar 3) 3));
     (UAdd (USub (UMul (UMinus (UNum (2 # 1))) (UPow (UVar 1) 3)) (UVar 4)) (UVar 5));
     (USub (USub (UMul (UMul (UMinus (UNum (3 # 1))) (UVar 2)) (UVar 3)) (UPow (UVar 4) 3)) (UVar 5))] |}.

(** The classes above, in the order of the file. *)
Definition benchmark_models : list benchmark_model := [Linear0; NonPoly0; NonPoly1; NonPoly2; NonPoly3; Benchmark0; Benchmark1; Benchmark2; BenchmarkDT1; Poly1; Poly2; Poly3; Poly4; Sriram4D; LinearDiscrete; DoubleLinearDiscrete; NonLinearDiscrete; Barr1; Barr2; Barr3; ObstacleAvoidance; HighOrd4; HighOrd6; HighOrd8; UnstableLinear; Car; SineModel; SineModelLQR; LorenzSystem; CtrlCar; CtrlObstacleAvoidance; Identity; DTAhmadi; DTAhmadi2; DebugDT; CtrlRoomTemp; JetEngineCompressor; TwoRoomTemp; CtrlTwoRoomTemp; CtrlThermalConvection; Linear1; Linear1LQR; SecondOrder; SecondOrderLQR; ThirdOrder; ThirdOrderLQR; LoktaVolterra; VanDerPol; SheModel; PapaPrajna6].
