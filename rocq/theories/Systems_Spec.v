(** Vocabulary for pump and compressor systems. *)
From Coq Require Import String.
From Verif Require Import QcTac Base Time_Model Time_Spec Num Expr_Model Expr_Spec Units_Model Rates_Model Input_Model Interp_Model Energy_Model Emitters_Spec
  Consumer_Model Consumer_Spec Equipment_Model Equipment_Spec System_Model System_Spec Systems_Model.
Local Open Scope list_scope.
Local Open Scope Qc_scope.

(** ** What a description must look like *)
Definition one_of {A B} (a : option A) (b : option B) : Prop := (a <> None /\ b = None) \/ (a = None /\ b <> None).
Definition right_count {A} (count : nat) (l : option (list A)) : Prop := forall x, l = Some x -> List.length x = count.
Definition well_described (m : system_model) : Prop :=
  NoDup (map (fun c => c_name (fst c)) (sy_consumers m)) /\
  forall s, In s (sy_settings m) ->
    one_of (ss_suction s) (ss_suctions s) /\ one_of (ss_discharge s) (ss_discharges s) /\
    right_count (List.length (sy_consumers m)) (ss_rates s) /\ right_count (List.length (sy_consumers m)) (ss_fractions s) /\
    right_count (List.length (sy_consumers m)) (ss_suctions s) /\ right_count (List.length (sy_consumers m)) (ss_discharges s) /\
    (sy_pumps m = true -> right_count (List.length (sy_consumers m)) (ss_densities s)).

(** ** What a consumer of the system does in one period: its point from rate, suction pressure, discharge pressure and
    density, for the values it takes; the largest rate it can take, for the pressures and densities where it is known; and whether
    its results have a power *)
Record meaning : Type := mkMeaning {
  me_takes : Qc -> Qc -> Qc -> Qc -> Prop; me_point : Qc -> Qc -> Qc -> Qc -> System_Spec.point;
  me_max_known : Qc -> Qc -> Qc -> Prop; me_max : Qc -> Qc -> Qc -> Qc; me_power : bool }.
(** the densities, one where none is given *)
Definition densities_are (fd : density) (rhos : list Qc) : Prop :=
  match fd with One => rhos = repeat 1 (List.length rhos) | Per l => l = map Some rhos end.
Definition means (c : consumer) (me : meaning) : Prop :=
  (forall n rate suction discharge rhos fd,
     List.length rate = n -> List.length suction = n -> List.length discharge = n -> List.length rhos = n -> densities_are fd rhos ->
     (forall k x s d rho, nth_error rate k = Some x -> nth_error suction k = Some s -> nth_error discharge k = Some d -> nth_error rhos k = Some rho ->
        me_takes me x s d rho) ->
     exists r, c_evaluate c (map Some rate) (map Some suction) (map Some discharge) fd = Ok r /\
       List.length (er_energy r) = n /\ List.length (er_valid r) = n /\ (er_power r = None <-> me_power me = false) /\
       (forall p, er_power r = Some p -> List.length p = n) /\
       forall k x s d rho, nth_error rate k = Some x -> nth_error suction k = Some s -> nth_error discharge k = Some d -> nth_error rhos k = Some rho ->
         nth_error (er_energy r) k = Some (pt_energy (me_point me x s d rho)) /\ nth_error (er_valid r) k = Some (pt_valid (me_point me x s d rho)) /\
         (forall p, er_power r = Some p -> nth_error p k = Some (pt_power (me_point me x s d rho)))) /\
  (forall n suction discharge rhos fd, List.length suction = n -> List.length discharge = n -> List.length rhos = n -> densities_are fd rhos ->
     (forall k s d rho, nth_error suction k = Some s -> nth_error discharge k = Some d -> nth_error rhos k = Some rho -> me_max_known me s d rho) ->
     exists maxima, c_max_rate c (map Some suction) (map Some discharge) fd = Ok (map Some maxima) /\ List.length maxima = n /\
       forall k s d rho, nth_error suction k = Some s -> nth_error discharge k = Some d -> nth_error rhos k = Some rho ->
         nth_error maxima k = Some (me_max me s d rho)).

Section System.
  Variable pow : Qc -> Qc -> Qc.
  Variables (vars : variables_dict) (n : nat) (g : list Qc).

  (** the rate per producing day when [x] per calendar day is asked for; zero where the system is not in use *)
  Definition producing_rate (c : conditions_and_loss) (k : nat) (x w : Qc) : Prop :=
    exists b gk, in_use pow vars n c k b /\ nth_error g k = Some gk /\ stream_rate_means CALENDAR_DAY x b gk w.
  (** the rates a setting asks for in period number [k]: fractions of the total rate, or the rates given *)
  Definition asked (m : system_model) (s : system_setting) (k : nat) (xs : list Qc) : Prop :=
    match ss_fractions s with
    | Some fractions => exists total t, sy_total m = Some total /\ input_at pow vars n total k t /\
        Forall2 (fun e x => exists y, input_at pow vars n e k y /\ producing_rate (sy_common m) k (t * y) x) fractions xs
    | None => exists rates, ss_rates s = Some rates /\
        Forall2 (fun e x => exists y, input_at pow vars n e k y /\ producing_rate (sy_common m) k y x) rates xs
    end.
  (** pressures or densities: one for all consumers, or one for each *)
  Definition each (count : nat) (common : option expression_input) (individual : option (list expression_input)) (k : nat) (vs : list Qc) : Prop :=
    match individual with
    | Some es => Forall2 (fun e v => input_at pow vars n e k v) es vs
    | None => exists e v, common = Some e /\ input_at pow vars n e k v /\ vs = repeat v count
    end.
  (** what a setting means in period number [k]: rates, suction pressures, discharge pressures and densities of the consumers *)
  Definition setting_at (m : system_model) (s : system_setting) (k : nat) (xs ss ds rhos : list Qc) : Prop :=
    let count := List.length (sy_consumers m) in
    asked m s k xs /\ each count (ss_suction s) (ss_suctions s) k ss /\ each count (ss_discharge s) (ss_discharges s) k ds /\
    (if sy_pumps m then each count (sy_density m) (ss_densities s) k rhos else rhos = repeat 1 count).

  (** what consumer number [i] passes on: what it is asked for above its largest rate, if the pressure of the receiver is not lower *)
  Definition passed_on (numbers : list Z) (xs maxima ds : list Qc) (i : nat) : Qc :=
    match nth i numbers 0%Z with
    | Zpos j => let receiver := (Pos.to_nat j - 1)%nat in
        if Qcleb (nth i ds 0) (nth receiver ds 0) && Qcltb (nth i maxima 0) (nth i xs 0) then nth i xs 0 - nth i maxima 0 else 0
    | _ => 0
    end.
  (** the rates [ys] after cross-over *)
  Definition crossed_over (s : system_setting) (xs maxima ds ys : list Qc) : Prop :=
    match ss_cross s with
    | Some ((_ :: _) as numbers) =>
        List.length ys = List.length xs /\
        forall i, (i < List.length xs)%nat ->
          nth i ys 0 = nth i xs 0 - passed_on numbers xs maxima ds i +
            qsum (map (fun j => if Z.eqb (nth j numbers 0%Z) (Z.of_nat i + 1) then passed_on numbers xs maxima ds j else 0) (seq 0 (List.length xs)))
    | _ => ys = xs
    end.
  (** what the consumers get in period number [k] of a setting: rates after cross-over, pressures and densities *)
  Definition setting_inputs (m : system_model) (mes : list meaning) (s : system_setting) (k : nat) (ys ss ds rhos : list Qc) : Prop :=
    exists xs maxima, setting_at m s k xs ss ds rhos /\
      (List.length maxima = List.length mes /\ forall i me p d rho, nth_error mes i = Some me -> nth_error ss i = Some p -> nth_error ds i = Some d -> nth_error rhos i = Some rho ->
         nth_error maxima i = Some (me_max me p d rho)) /\
      crossed_over s xs maxima ds ys.
  (** the points of the consumers in period number [k] of a setting *)
  Definition setting_points (m : system_model) (mes : list meaning) (s : system_setting) (k : nat) (pts : list System_Spec.point) : Prop :=
    exists ys ss ds rhos, setting_inputs m mes s k ys ss ds rhos /\
      List.length pts = List.length mes /\
      forall i me y p d rho, nth_error mes i = Some me -> nth_error ys i = Some y -> nth_error ss i = Some p -> nth_error ds i = Some d -> nth_error rhos i = Some rho ->
        nth_error pts i = Some (me_point me y p d rho).
  (** the consumers take what they get; the largest rate is known of those with a cross-over *)
  Definition system_works (m : system_model) (mes : list meaning) (k : nat) : Prop :=
    forall s ys ss ds rhos i me y p d rho, In s (sy_settings m) -> setting_inputs m mes s k ys ss ds rhos ->
      nth_error mes i = Some me -> nth_error ys i = Some y -> nth_error ss i = Some p -> nth_error ds i = Some d -> nth_error rhos i = Some rho ->
      me_takes me y p d rho /\ (forall numbers, ss_cross s = Some numbers -> nth i numbers 0%Z <> 0%Z -> me_max_known me p d rho).
  (** the points of the setting that is used: the first setting in which all consumers have capacity, the last setting if there is none *)
  Definition chosen_points (m : system_model) (mes : list meaning) (k : nat) (pts : list System_Spec.point) : Prop :=
    exists j s, nth_error (sy_settings m) j = Some s /\ setting_points m mes s k pts /\
      (works pts \/ S j = List.length (sy_settings m)) /\
      forall i s' pts', (i < j)%nat -> nth_error (sy_settings m) i = Some s' -> setting_points m mes s' k pts' -> ~ works pts'.
  (** the energy usage of the system, with the loss; valid if all consumers have capacity *)
  Definition system_usage (m : system_model) (mes : list meaning) (k : nat) (e : num) (v : bool) : Prop :=
    exists pts f, chosen_points m mes k pts /\ lost pow vars n (sy_common m) k f /\
      supplied_num (nsum (map pt_energy pts)) f e /\ (v = true <-> works pts).
  (** the power of the system: consumers without a power count for nothing *)
  Definition system_power_at (m : system_model) (mes : list meaning) (k : nat) (w : num) : Prop :=
    exists pts f, chosen_points m mes k pts /\ lost pow vars n (sy_common m) k f /\
      supplied_num (nsum (map (fun x => if me_power (fst x) then pt_power (snd x) else Some 0) (combine mes pts))) f w.

  (** accepted in period number [k]: no negative rate; positive suction pressures that are not above the discharge pressures, for a
      pump in every period and for a compressor where it has a rate *)
  Definition setting_acceptable (m : system_model) (s : system_setting) (k : nat) : Prop :=
    forall xs ss ds rhos i x p d gk, setting_at m s k xs ss ds rhos -> nth_error g k = Some gk ->
      nth_error xs i = Some x -> nth_error ss i = Some p -> nth_error ds i = Some d ->
      0 <= x /\ (sy_pumps m = true \/ 0 < x * gk -> 0 < p /\ p <= d).
  (** and the consumers are of the kind of the system *)
  Definition kind_acceptable (consumes : energy_usage_type) (m : system_model) : Prop :=
    if sy_pumps m then consumes = POWER else forall c, In c (sy_consumers m) -> snd c = consumes.
  Definition system_acceptable (consumes : energy_usage_type) (m : system_model) (k : nat) : Prop :=
    kind_acceptable consumes m /\ forall s, In s (sy_settings m) -> setting_acceptable m s k.

  (** expressions that can be evaluated; a total and its fractions are written in infix notation *)
  Definition all_ok (l : option (list expression_input)) : Prop := forall es e, l = Some es -> In e es -> evaluable pow vars n e.
  Definition factor_ok (e : expression_input) : Prop := well_written_input vars e /\ forall q, e = INumber q -> 0 <= q.
  Definition setting_ok (m : system_model) (s : system_setting) : Prop :=
    (match ss_fractions s with
     | Some es => (exists total, sy_total m = Some total /\ factor_ok total) /\ forall e, In e es -> factor_ok e
     | None => ss_rates s <> None /\ all_ok (ss_rates s) end) /\
    all_evaluable pow vars n (ss_suction s) /\ all_ok (ss_suctions s) /\ all_evaluable pow vars n (ss_discharge s) /\ all_ok (ss_discharges s) /\
    (sy_pumps m = true -> all_ok (ss_densities s) /\ (ss_densities s = None -> sy_density m <> None /\ all_evaluable pow vars n (sy_density m))) /\
    (forall numbers, ss_cross s = Some numbers -> numbers <> [] -> List.length numbers = List.length (sy_consumers m) /\
       forall z, In z numbers -> (0 <= z <= Z.of_nat (List.length (sy_consumers m)))%Z).
  Definition system_ok (m : system_model) : Prop :=
    sy_consumers m <> [] /\ sy_settings m <> [] /\ well_described m /\ common_ok pow vars n (sy_common m) /\
    forall s, In s (sy_settings m) -> setting_ok m s.
End System.
