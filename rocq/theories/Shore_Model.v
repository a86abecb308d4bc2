(** Model of power from shore in a generator set: presentation/yaml/ltp_validation.py, yaml_generator_set.py 49-56 and
    mappers/component_mapper.py 318-334. *)
From Coq Require Import PeanoNat.
From Verif Require Import QcTac Base Time_Model Num Energy_Model.
Local Open Scope list_scope.

(** ConsumerUserDefinedCategoryType: power from shore, and the others by number *)
Inductive category : Type := PowerFromShore | OtherCategory (n : nat).
Definition is_shore (c : category) : bool := match c with PowerFromShore => true | OtherCategory _ => false end.
Definition is_some {A} (o : option A) : bool := match o with Some _ => true | None => false end.

(** ltp_validation.py 5-26, validate_generator_set_power_from_shore: one category, or a dict of them *)
Definition validate_power_from_shore {E} (cable_loss max_usage : option E) (c : temporal_data category) : result unit :=
  if is_some cable_loss || is_some max_usage then
    match c with
    | TDPlain x => if is_shore x then Ok tt else Err ValueError
    | TDDates x rest => if existsb is_shore (map snd (x :: rest)) then Ok tt else Err ValueError
    | TDPeriods x rest => if existsb is_shore (map snd (x :: rest)) then Ok tt else Err ValueError
    end
  else Ok tt.

Section Mapping.
  Context {E : Type}.
  (** bool(expression): a number that is 0 or an empty text is false; the values of the expression in the periods *)
  Variable truthy : E -> bool.
  Variable evaluate : E -> list Qc.
  (** component_mapper.py 318-329 and the power production of the generator set with the loss (Energy_Model) *)
  Definition production (cable_loss : option E) (c : temporal_data category) (target : period) (ps : list period) (power : list num) : result (list num) :=
    do model <- temporal_model_create c target;
    match cable_loss with
    | Some e =>
        if truthy e then
          do effective <- cable_loss_values (map (fun x => (fst x, is_shore (snd x))) model) ps (evaluate e);
          power_production power (Some effective)
        else power_production power None
    | None => power_production power None
    end.
End Mapping.
