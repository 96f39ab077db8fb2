(** vcu/device/gps/gps.c *)
From Verif.Model Require Export Nmea.

(** The GPS object (gps.h:38-62) and the GPS part of the vehicle state. The
    receive stream is modelled by the chunks taken out of it. *)
Record gps_dev := mkGpsDev { gp_dec : nmea; gp_state : gps_t; gp_published : list gps_t }.

(** gps.c:24-37. VehicleState_AccessAcquire waits without limit, so it succeeds.
    All seven members are copied. [gp_published] records the history of pushes. *)
Definition pushGPGGA (d : gps_dev) (g : gps_t) : gps_dev :=
  mkGpsDev (gp_dec d) g (gp_published d ++ [g]).

(** gps.c:71-92, at most [fuel] calls of NmeaDecode_Decode; the outer [None] is
    undefined behaviour, the inner one that the loop has not ended by then. *)
Fixpoint decodeAll (fuel : nat) (d : gps_dev) (o : nfields) : option (option gps_dev) :=
  match fuel with
  | O => Some None
  | S fuel' =>
      ' (more, n, o') <- NmeaDecode_Decode (gp_dec d) o ;;
      let d := mkGpsDev n (gp_state d) (gp_published d) in
      if (more : bool) then
        match f_type o' with
        | NMEA_NULL => decodeAll fuel' d o'
        | NMEA_GPGGA => decodeAll fuel' (pushGPGGA d (f_gga o')) o'
        end
      else Some (Some d)
  end.

(** gps.c:39-93 for a non-empty chunk taken from the stream. The log text
    (51-58) is built in a local buffer that is large enough for any chunk and
    then dropped; it is left out. [o] is the uninitialised local decodedFields. *)
Definition GPS_TaskMethod (fuel : nat) (d : gps_dev) (o : nfields) (chunk : list Z) : option (option gps_dev) :=
  if Z.of_nat (length chunk) =? 0 then Some (Some d) else
  ' (ok, n) <- NmeaDecode_AccumulateBytes (gp_dec d) chunk ;;
  let d := mkGpsDev n (gp_state d) (gp_published d) in
  if negb ok then Some (Some d) else decodeAll fuel d o.

(** A history of task runs, each with its chunk and its uninitialised local.
    gps.c:39-93. *)
Fixpoint gps_run (fuel : nat) (d : gps_dev) (h : list (list Z * nfields)) : option (option gps_dev) :=
  match h with
  | [] => Some (Some d)
  | (chunk, o) :: h' =>
      r <- GPS_TaskMethod fuel d o chunk ;;
      match r with
      | None => Some None
      | Some d' => gps_run fuel d' h'
      end
  end.
