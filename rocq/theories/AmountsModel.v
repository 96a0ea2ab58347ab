(** The operations on units that the array-like quantities of
    /repo/src/goats/core/variable.py use, taken from the model of
    /repo/src/goats/core/metric.py. *)

From Coq Require Import String Ascii List Bool ZArith QArith Qcanon Lia.
From Verif Require Import Py SymbolicModel MetricTables MetricModel MeasurableModel ConverterModel.
Import ListNotations.
Open Scope list_scope.

(** variable.py 585, [this == self.unit]; metric.py 2199-2252.  [systems] is
    the order in which a set of the names of the metric systems iterates. *)
Definition package_eq (systems : list system) (new old : expression) : res bool := m_unit_eqb systems new old.
(** variable.py 589, [self.unit | unit]; metric.py 2254-2274. *)
Definition package_or (systems : list system) (old new : expression) : res bool :=
  unit_or F64 identified the_canonical base_quantities quantities systems the_connections the_nodes old new.
(** variable.py 598, [unit // self._unit]; metric.py 2134-2182.  [past old new]
    are the conversions that the process made before. *)
Definition package_factor (units_of : str -> res (str * str)) (past : expression -> expression -> list action)
  (old new : expression) : res Qc :=
  fst (unit_floordiv m_convert F64 (after m_convert units_of (past old new)) new (DUnit old)).
