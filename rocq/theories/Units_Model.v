(** Model of src/libecalc/common/units.py: the units, the conversion registry, [Unit.to],
    [volume_to_rate] and [rate_to_volume].  The conversion functions act on one number; on lists they act
    element-wise (_type_handler, lines 14-27).  Decimal constants are exact rationals. *)
From Verif Require Import QcTac Base.

(** units.py:45-87, class Unit *)
Inductive unit_ : Type :=
| NONE | KG_BOE | KG_SM3 | KG_M3 | STANDARD_CUBIC_METER | BOE
| TONS_PER_DAY | TONS | KILO_PER_DAY | KILO_PER_HOUR | KILO | LITRES_PER_DAY | LITRES
| MEGA_WATT_DAYS | GIGA_WATT_HOURS | MEGA_WATT | YEAR | BARA | KILO_PASCAL | PASCAL
| CELSIUS | KELVIN | FRACTION | PERCENTAGE
| POLYTROPIC_HEAD_KILO_JOULE_PER_KG | POLYTROPIC_HEAD_JOULE_PER_KG | POLYTROPIC_HEAD_METER_LIQUID_COLUMN
| ACTUAL_VOLUMETRIC_M3_PER_HOUR | STANDARD_CUBIC_METER_PER_DAY | SPEED_RPM.

Definition unit_eq_dec : forall a b : unit_, {a = b} + {a <> b}.
Proof. decide equality. Defined.
Definition unit_eqb (a b : unit_) : bool := if unit_eq_dec a b then true else false.

(** units.py:36, EARTH_GRAVITY *)
Definition EARTH_GRAVITY : Qc := qc 981 100.

(** units.py:93-143, Unit._unit_registry *)
Definition unit_registry (a b : unit_) : option (Qc -> Qc) :=
  match a, b with
  | TONS_PER_DAY, KILO_PER_DAY => Some (fun x => x * qz 1000)%Qc
  | KILO_PER_DAY, TONS_PER_DAY => Some (fun x => x / qz 1000)%Qc
  | KILO, TONS => Some (fun x => x / qz 1000)%Qc
  | TONS, KILO => Some (fun x => x * qz 1000)%Qc
  | STANDARD_CUBIC_METER, LITRES => Some (fun x => x * qz 1000)%Qc
  | LITRES, STANDARD_CUBIC_METER => Some (fun x => x / qz 1000)%Qc
  | CELSIUS, KELVIN => Some (fun x => x + qc 27315 100)%Qc
  | KELVIN, CELSIUS => Some (fun x => x - qc 27315 100)%Qc
  | BARA, KILO_PASCAL => Some (fun x => x * qz 100)%Qc
  | KILO_PASCAL, BARA => Some (fun x => x / qz 100)%Qc
  | BARA, PASCAL => Some (fun x => x * qz 100000)%Qc
  | PASCAL, BARA => Some (fun x => x / qz 100000)%Qc
  | PERCENTAGE, FRACTION => Some (fun x => x / qz 100)%Qc
  | FRACTION, PERCENTAGE => Some (fun x => x * qz 100)%Qc
  | POLYTROPIC_HEAD_JOULE_PER_KG, POLYTROPIC_HEAD_KILO_JOULE_PER_KG => Some (fun x => x / qz 1000)%Qc
  | POLYTROPIC_HEAD_KILO_JOULE_PER_KG, POLYTROPIC_HEAD_JOULE_PER_KG => Some (fun x => x * qz 1000)%Qc
  | POLYTROPIC_HEAD_METER_LIQUID_COLUMN, POLYTROPIC_HEAD_JOULE_PER_KG => Some (fun x => x * EARTH_GRAVITY)%Qc
  | POLYTROPIC_HEAD_METER_LIQUID_COLUMN, POLYTROPIC_HEAD_KILO_JOULE_PER_KG =>
      Some (fun x => (x * EARTH_GRAVITY) / qz 1000)%Qc
  | POLYTROPIC_HEAD_JOULE_PER_KG, POLYTROPIC_HEAD_METER_LIQUID_COLUMN => Some (fun x => x / EARTH_GRAVITY)%Qc
  | POLYTROPIC_HEAD_KILO_JOULE_PER_KG, POLYTROPIC_HEAD_METER_LIQUID_COLUMN =>
      Some (fun x => (x * qz 1000) / EARTH_GRAVITY)%Qc
  | KG_BOE, KG_SM3 => Some (fun x => x * qc 629 100)%Qc
  | KG_SM3, KG_BOE => Some (fun x => x / qc 629 100)%Qc
  | STANDARD_CUBIC_METER, BOE => Some (fun x => x * qc 629 100)%Qc
  | BOE, STANDARD_CUBIC_METER => Some (fun x => x / qc 629 100)%Qc
  | MEGA_WATT_DAYS, GIGA_WATT_HOURS => Some (fun x => x * qz 24 / qz 1000)%Qc
  | _, _ => None
  end.

(** units.py:145-171, Unit.to *)
Definition unit_to (a b : unit_) : result (Qc -> Qc) :=
  if unit_eqb a b then Ok (fun x => x)
  else match unit_registry a b with
       | Some f => Ok f
       | None => Err NotImplementedErr
       end.

(** units.py:173-188, Unit.volume_to_rate *)
Definition volume_to_rate (u : unit_) : result unit_ :=
  match u with
  | STANDARD_CUBIC_METER => Ok STANDARD_CUBIC_METER_PER_DAY
  | MEGA_WATT_DAYS => Ok MEGA_WATT
  | TONS => Ok TONS_PER_DAY
  | KILO => Ok KILO_PER_DAY
  | LITRES => Ok LITRES_PER_DAY
  | _ => Err NotImplementedErr
  end.

(** units.py:190-205, Unit.rate_to_volume *)
Definition rate_to_volume (u : unit_) : result unit_ :=
  match u with
  | STANDARD_CUBIC_METER_PER_DAY => Ok STANDARD_CUBIC_METER
  | MEGA_WATT => Ok MEGA_WATT_DAYS
  | TONS_PER_DAY => Ok TONS
  | KILO_PER_DAY => Ok KILO
  | LITRES_PER_DAY => Ok LITRES
  | _ => Err NotImplementedErr
  end.
