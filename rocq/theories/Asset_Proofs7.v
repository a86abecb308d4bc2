(** C113: a generator set outside the run *)
From Coq Require Import PeanoNat String.
From Verif Require Import QcTac Num Base BaseLemmas Time_Model Time_Spec Expr_Model Vars_Model Units_Model Rates_Model Input_Model Interp_Model Energy_Model Emitters_Model
  Consumer_Model Graph_Model Asset_Model Asset_Spec.
Local Open Scope list_scope.
Local Open Scope Z_scope.

Lemma outside_refuted_proof :
  ~ (forall (M : Type) np_pow ps vm target fuels tables name (installations : list (yaml_installation M)) e,
       run_setting ps target -> (forall i, In i installations -> installation_written ps i) ->
       map_model np_pow vm target fuels tables name installations = Err e -> e = ValidationError).
Proof.
  intros H.
  specialize (H unit (fun x _ => x) [mkPeriod 0 10] (mkVM [mkPeriod 0 10] [0; 10] []) (mkPeriod 0 10)
    [("gas"%string, [])] [("t"%string, mkTable ["POWER"%string; "FUEL"%string] [[qz 0; qz 5]; [qz 0; qz 10]])] "asset"%string
    [mkYI "i" (Some (TDPlain "gas"%string)) None None [mkYG "set" None (TDDates (20, "t"%string) []) []] [] []] IndexError).
  assert (X : IndexError = ValidationError); [|discriminate X]. apply H.
  - split; [cbn; unfold nonempty; cbn; lia|]. split; [unfold nonempty; cbn; lia|]. split; [cbn; unfold DT_MAX; lia|].
    split; intros p [<-|[]]; cbn; lia.
  - intros i [<-|[]]. split; [intros f E; injection E as <-; split; [exact I|intros e es; discriminate]|]. split; [|intros c []].
    intros g [<-|[]]. split; [split; [cbn; split; [exact (conj I I)|intros k [<-|[]]; unfold DT_MAX; lia]|intros e es; discriminate]|].
    split; [intros t [<-|[]]; intros p [<-|[]]; cbn; lia|]. split; [intros f E; discriminate|]. intros c [].
  - vm_compute. reflexivity.
Qed.
