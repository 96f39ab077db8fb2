(** What the sensing task publishes, as a function of its history. *)
From Coq Require Import Reals.
From Verif.Base Require Import Words F32 F32Real.
From Verif.Model Require Import VehicleState Adc DiscreteSense.

(** The exact scaled value and its restriction to the output range [0,1]. *)
Definition linear (lower upper raw : Z) : R := (IZR (raw - lower) / IZR (upper - lower))%R.
Definition clip (x : R) : R := Rmin 1 (Rmax 0 x).

(** Value of a published field after the cycles [h]: given by the most recent
    cycle that locked the vehicle state and in which [good] held, [prev] if
    there is none. *)
Definition newest {A} (good : ds_cycle -> bool) (f : ds_cycle -> A) (prev : A) (h : list ds_cycle) : A :=
  match find (fun c => cy_lock c && good c) (rev h) with
  | Some c => f c
  | None => prev
  end.

Definition read_A (c : ds_cycle) : bool := fst (cy_A c) =? 0.
Definition read_B (c : ds_cycle) : bool := fst (cy_B c) =? 0.
Definition read_both (c : ds_cycle) : bool := read_A c && read_B c.
Definition read_front (c : ds_cycle) : bool := fst (cy_front c) =? 0.
Definition read_rear (c : ds_cycle) : bool := fst (cy_rear c) =? 0.

(** Scaled channels and the average of the two pedal channels in one cycle. *)
Definition val_A (d : ds_scaling) (c : ds_cycle) : f32 := ADC_ApplyScaling (ds_accelA d) (snd (cy_A c)).
Definition val_B (d : ds_scaling) (c : ds_cycle) : f32 := ADC_ApplyScaling (ds_accelB d) (snd (cy_B c)).
Definition average (d : ds_scaling) (c : ds_cycle) : f32 :=
  fmul (f_lit 1 2) (fadd (val_A d c) (val_B d c)).

Definition inputs_after (d : ds_scaling) (h : list ds_cycle) (i : inputs_t) : inputs_t :=
  mkInputs
    (newest read_both (average d) (i_accel i) h)
    (newest read_A (val_A d) (i_accelA i) h)
    (newest read_B (val_B d) (i_accelB i) h)
    (newest read_A (fun c => snd (cy_A c)) (i_accelRawA i) h)
    (newest read_B (fun c => snd (cy_B c)) (i_accelRawB i) h)
    (newest read_both (fun _ => true) (i_accelValid i) h)
    (newest read_front (fun c => ADC_ApplyScaling (ds_brakeFront d) (snd (cy_front c))) (i_brakePresFront i) h)
    (newest read_rear (fun c => ADC_ApplyScaling (ds_brakeRear d) (snd (cy_rear c))) (i_brakePresRear i) h)
    (newest read_front (fun c => snd (cy_front c)) (i_brakeRawFront i) h)
    (newest read_rear (fun c => snd (cy_rear c)) (i_brakeRawRear i) h).

(** Raw values of a cycle are 16-bit. *)
Definition cycle_u16 (c : ds_cycle) : Prop :=
  is_u16 (snd (cy_A c)) /\ is_u16 (snd (cy_B c)) /\ is_u16 (snd (cy_front c)) /\ is_u16 (snd (cy_rear c)).
