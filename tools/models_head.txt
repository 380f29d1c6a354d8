(** The models of experiments/benchmarks/models.py, translated by tools/gen_models.py from the
    source text: local names and class attributes are replaced by their values, [v[:, i]] and the
    i-th variable of [x, y, ... = v] are [UVar i], [torch.sin] and [self.fncs["sin"]] are [UFn "sin"].
    No proofs in this file.  Not translated here: Eulerised, LinearDiscreteNVars, Quadrotor2d,
    LinearSatellite (see M_Model). *)
From Coq Require Import String QArith List.
From Verif Require Import M_Model.
Import ListNotations.
Local Open Scope string_scope.
Local Open Scope Q_scope.
Local Open Scope nat_scope.

