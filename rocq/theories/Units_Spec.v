(** What the units mean: the quantity a unit measures, and the size and zero point of the unit relative
    to a reference unit of that quantity. *)
From Verif Require Import QcTac Base Units_Model.

Inductive quantity : Type :=
| Mass | MassRate | Volume | MassPerVolume | Temperature | Pressure | Ratio | Head | Energy | Other (u : unit_).

(** (quantity, size, zero): a reading [x] in the unit is [x * size + zero] in the reference unit.
    Reference units: kg, kg/d, Sm3 (1 Sm3 of oil equivalents = 6.29 BOE), kg/Sm3, K, Pa, 1, J/kg, MWh. *)
Definition meaning (u : unit_) : quantity * Qc * Qc :=
  match u with
  | KILO => (Mass, 1, 0)
  | TONS => (Mass, qz 1000, 0)
  | KILO_PER_DAY => (MassRate, 1, 0)
  | TONS_PER_DAY => (MassRate, qz 1000, 0)
  | KILO_PER_HOUR => (MassRate, qz 24, 0)
  | STANDARD_CUBIC_METER => (Volume, 1, 0)
  | LITRES => (Volume, qc 1 1000, 0)
  | BOE => (Volume, / qc 629 100, 0)
  | KG_SM3 => (MassPerVolume, 1, 0)
  | KG_BOE => (MassPerVolume, qc 629 100, 0)
  | KELVIN => (Temperature, 1, 0)
  | CELSIUS => (Temperature, 1, qc 27315 100)
  | PASCAL => (Pressure, 1, 0)
  | KILO_PASCAL => (Pressure, qz 1000, 0)
  | BARA => (Pressure, qz 100000, 0)
  | FRACTION => (Ratio, 1, 0)
  | PERCENTAGE => (Ratio, qc 1 100, 0)
  | POLYTROPIC_HEAD_JOULE_PER_KG => (Head, 1, 0)
  | POLYTROPIC_HEAD_KILO_JOULE_PER_KG => (Head, qz 1000, 0)
  | POLYTROPIC_HEAD_METER_LIQUID_COLUMN => (Head, qc 981 100, 0)
  | GIGA_WATT_HOURS => (Energy, qz 1000, 0)
  | MEGA_WATT_DAYS => (Energy, qz 24, 0)
  | u => (Other u, 1, 0)
  end%Qc.

(** [y] in unit [b] is the same physical amount as [x] in unit [a] *)
Definition same_amount (a : unit_) (x : Qc) (b : unit_) (y : Qc) : Prop :=
  let '(qa, sa, za) := meaning a in
  let '(qb, sb, zb) := meaning b in
  qa = qb /\ (x * sa + za = y * sb + zb)%Qc.
