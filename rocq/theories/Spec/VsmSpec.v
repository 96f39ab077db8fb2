(** Vocabulary for the vehicle state machine properties. *)
From Verif.Model Require Import StateMachine.

(** The documented state diagram (README, "state machine"): the only changes of
    state, self loops excluded. *)
Inductive diagram : vsm_st -> vsm_st -> Prop :=
| dg_start : diagram StInit StLvStartup
| dg_ready : diagram StLvStartup StLvReady
| dg_hv : diagram StLvReady StHvActive
| dg_charge : diagram StHvActive StHvCharging
| dg_neutral : diagram StHvCharging StActiveNeutral
| dg_forward : diagram StActiveNeutral StActiveForward
| dg_back : diagram StActiveForward StActiveNeutral
| dg_fault s : s <> StInit -> s <> StFault -> diagram s StFault.

(** The three changes the dashboard button can request. *)
Inductive button_change : vsm_st -> vsm_st -> Prop :=
| bc_hv : button_change StLvReady StHvActive
| bc_forward : button_change StActiveNeutral StActiveForward
| bc_neutral : button_change StActiveForward StActiveNeutral.

(** What the step saw of the button: [None] if the vehicle state was locked. *)
Definition button (i : vsm_in) : option bool :=
  match vi_live i with Some d => Some (d_buttonPressed (vs_dash d)) | None => None end.

Definition brake_front (i : vsm_in) : option f32 :=
  match vi_live i with Some d => Some (i_brakePresFront (vs_inputs d)) | None => None end.

Definition inverter_ready (i : vsm_in) : bool :=
  match vi_live i with Some d => v_vsmState (vs_inverter d) =? INV_VSM_READY | None => false end.

(** What the fault monitor reports when machine [m] steps on input [i]. *)
Definition report (c : config) (m : vsm) (i : vsm_in) : fault_status :=
  snd (fm_step c (vm_fm m) (vi_snap i)).

(** No step of the history, started in [m], sees anything but "no fault". *)
Fixpoint fault_free (c : config) (tick : Z) (m : vsm) (h : list vsm_in) : Prop :=
  match h with
  | [] => True
  | i :: t => report c m i = FS_NoFault /\ fault_free c tick (fst (vsm_step c tick m i)) t
  end.

Definition vsm_cfg_ok (c : config) (tick : Z) : Prop :=
  0 < tick < 4294967296 /\ 0 <= cf_hvActiveStateWait c < 4294967296 /\
  0 <= cf_hvChargeTimeout c < 4294967296.

(** ** C68 *)

(** The machine has been in [s] at every point of the last steps [w] of [h]. *)
Definition held (c : config) (tick : Z) (m0 : vsm) (h w : list vsm_in) (s : vsm_st) : Prop :=
  exists h1, h = h1 ++ w /\
    forall a b, w = a ++ b -> vm_state (vsm_run c tick m0 (h1 ++ a)) = s.

(** What may send the vehicle into FAULT when step [i] is taken after [h]: a fault
    report; a low-voltage error report once past start-up; or the inverter is seen
    not to be ready although pre-charge has lasted longer than allowed. *)
Definition fault_cause (c : config) (tick : Z) (m0 : vsm) (h : list vsm_in) (i : vsm_in) : Prop :=
  let m := vsm_run c tick m0 h in
  (report c m i = FS_Fault /\ vm_state m <> StInit) \/
  (report c m i = FS_LvError /\ vm_state m <> StInit /\ vm_state m <> StLvStartup) \/
  (exists d w, vi_live i = Some d /\ v_vsmState (vs_inverter d) <> INV_VSM_READY /\
     held c tick m0 h w StHvCharging /\ cf_hvChargeTimeout c < tick * Z.of_nat (length w)).
