(** What the PC makes of the frames it gets (tools/ecu-config/log_view.py) and
    which value belongs to which field id. *)
From Coq Require Import SpecFloat.
From Verif.Base Require Import Stream Text.
From Verif.Model Require Import VehicleState PcPeriodic.
From Verif.Spec Require Import FrameSpec.

(** log_view.py:61-76: frames of 18 bytes with a correct CRC, address 2, type 1. *)
Definition pc_accepts (len type : Z) (w : list Z) : bool :=
  valid_frame (Z.to_nat len) w && (frame_addr w =? 2) && (frame_func w =? type).

(** log_view.py:65-70: field id and value. *)
Fixpoint low_bytes (n : nat) (i : nat) (payload : list Z) : Z :=
  match n with
  | O => 0
  | S n' => nth (6 - i) payload 0 * 2 ^ (8 * Z.of_nat i) + low_bytes n' (S i) payload
  end.
Definition pc_field (w : list Z) : Z * Z :=
  let p := frame_payload w in
  (nth 0 p 0 * 256 + nth 1 p 0, low_bytes (Z.to_nat (nth 2 p 0)) 0 p).

(** The meaning of the ids (fieldId.h:13-23, log_view.py:24-36). Floats stand for
    themselves, see [float_of_bits]. *)
Inductive value := Num (z : Z) | Float (x : f32).
Definition true_value (d : vstate) (id : Z) : option value :=
  let b := vs_battery d in let s := vs_sdc d in let p i := b2z (nth i (vs_glv d) false) in
  match id with
  | 1 => Some (Num (b2z (s_bms s) + 2 * b2z (s_bspd s) + 4 * b2z (s_imd s) + 8 * b2z (s_out s)))
  | 2 => Some (Num (p 0%nat + 2 * p 1%nat + 4 * p 2%nat + 8 * p 3%nat + 16 * p 4%nat + 32 * p 5%nat))
  | 3 => Some (Float (b_maxCellVoltage b))
  | 4 => Some (Num (b_maxCellVoltageCellID b))
  | 5 => Some (Float (b_maxCellTemperature b))
  | 6 => Some (Num (b_maxCellTemperatureCellID b))
  | 7 => Some (Float (b_dcCurrent b))
  | 8 => Some (Float (b_dcVoltage b))
  | 9 => Some (Float (b_stateOfCharge b))
  | 10 => Some (Num (b_counter b))
  | 11 => Some (Num (b2z (b_faultIndicator b)))
  | _ => None
  end.

(** IEEE 754 binary32 interchange format (quiet and signalling NaNs are one datum). *)
Definition float_of_bits (z : Z) : f32 :=
  let s := 2 ^ 31 <=? z in
  let r := z mod 2 ^ 31 in
  let e := r / 2 ^ 23 in
  let m := r mod 2 ^ 23 in
  if e =? 255 then (if m =? 0 then S754_infinity s else S754_nan)
  else if e =? 0 then match m with Zpos p => S754_finite s p (-149) | _ => S754_zero s end
  else match m + 2 ^ 23 with Zpos p => S754_finite s p (e - 150) | _ => S754_nan end.

(** The number read by the PC stands for the value. *)
Definition reads (z : Z) (v : value) : Prop :=
  match v with Num n => z = n | Float x => float_of_bits z = x end.

(** Field ranges of the C types (uint8_t ids and counter, eight channels) and
    proper binary32 data. *)
Definition state_ok (d : vstate) : Prop :=
  let b := vs_battery d in
  is_byte (b_maxCellVoltageCellID b) /\ is_byte (b_maxCellTemperatureCellID b) /\
  is_byte (b_minCellTemperatureCellID b) /\ is_byte (b_counter b) /\
  length (vs_glv d) = 8%nat /\
  f_ok (b_maxCellVoltage b) = true /\ f_ok (b_maxCellTemperature b) = true /\
  f_ok (b_dcCurrent b) = true /\ f_ok (b_dcVoltage b) = true /\ f_ok (b_stateOfCharge b) = true.

Definition on_port (p : uart_port) (o : list uart_out) : list (list Z) :=
  flat_map (fun x => match fst x, p with UartA, UartA => [snd x] | UartB, UartB => [snd x] | _, _ => [] end) o.

(** ** Log text *)
Definition log_text (frames : list (list Z)) : list Z :=
  concat (map (fun w => filter (fun c => negb (c =? 0)) (frame_payload w)) frames).

(** Every message has at least one character. *)
Definition no_empty_message (evs : list log_event) : Prop :=
  forall lock msg, In (Write lock msg) evs -> cstr msg <> [].

(** Events of the logging system; result: buffer, stream, output, and the bytes
    that were stored in the stream. *)
Fixpoint log_run (buffer stream : list Z) (evs : list log_event)
  : option (list Z * list Z * list uart_out * list Z) :=
  match evs with
  | [] => Some (buffer, stream, [], [])
  | ev :: t =>
      let stored := match ev with
                    | Write true msg => stream_stored LOG_STREAM_CAP stream (log_bytes msg)
                    | _ => []
                    end in
      '(b, s, o) <- log_step buffer stream ev ;;
      '(b2, s2, o2, st2) <- log_run b s t ;;
      Some (b2, s2, o ++ o2, stored ++ st2)
  end.
