(** What a GPS sentence is and what it says, independent of the decoder. *)
From Coq Require Import String.
From Verif.Base Require Import Text.
From Verif.Model Require Import Gps.

(** The decimal digit [d] as a character. *)
Definition dig (d : Z) : Z := 48 + d.
Definition is_dig (d : Z) : Prop := 0 <= d <= 9.

(** hhmmss or hhmmss.sss *)
Inductive time_text : list Z -> utc_t -> Prop :=
| time_seconds : forall h1 h0 m1 m0 s1 s0,
    Forall is_dig [h1; h0; m1; m0; s1; s0] ->
    time_text (map dig [h1; h0; m1; m0; s1; s0])
              (mkUtc (10 * h1 + h0) (10 * m1 + m0) (10 * s1 + s0) 0)
| time_millis : forall h1 h0 m1 m0 s1 s0 f2 f1 f0,
    Forall is_dig [h1; h0; m1; m0; s1; s0; f2; f1; f0] ->
    time_text (map dig [h1; h0; m1; m0; s1; s0] ++ str "." ++ map dig [f2; f1; f0])
              (mkUtc (10 * h1 + h0) (10 * m1 + m0) (10 * s1 + s0) (100 * f2 + 10 * f1 + f0)).

(** A decimal number, most significant digit first. *)
Definition number (ds : list Z) : Z := fold_left (fun acc d => 10 * acc + d) ds 0.
Definition dec_text (l : list Z) (v : Z) : Prop :=
  exists ds, Forall is_dig ds /\ l = map dig ds /\ v = number ds.

(** A hexadecimal digit, upper or lower case. *)
Definition hex_digit (c v : Z) : Prop :=
  0 <= v <= 15 /\ (c = 48 + v /\ v <= 9 \/ c = 55 + v /\ 10 <= v \/ c = 87 + v /\ 10 <= v).

(** The text between commas. *)
Fixpoint fields (l : list Z) : list (list Z) :=
  match l with
  | [] => [[]]
  | c :: t =>
      if c =? 44 then [] :: fields t
      else match fields t with f :: fs => (c :: f) :: fs | [] => [[c]] end
  end.

(** The payload [p] of a GPGGA sentence reports the fix [g]: time, latitude,
    N/S, longitude, E/W, fix indicator, number of satellites, and five more
    fields that must not be empty. Indicators are single characters, the fields
    are only required to begin with them. Texts are compared as C strings
    (the condition on character 10 of the time only matters if the text has
    embedded zeros). *)
Definition gga_payload (p : list Z) (g : gps_t) : Prop :=
  exists time lat ns lon ew fx nsat hdop alt altu geo geou rest n,
    fields p = [time; lat; ns; lon; ew; fx; nsat; hdop; alt; altu; geo; geou] ++ rest /\
    nth 10 time 0 = 0 /\ time_text (cstr time) (g_utcTime g) /\
    (1 <= length lat <= 10)%nat /\ cstr (g_latitude g) = cstr lat /\
    hd_error ns = Some (g_ns g) /\ In (g_ns g) (str "NS") /\
    (1 <= length lon <= 10)%nat /\ cstr (g_longitude g) = cstr lon /\
    hd_error ew = Some (g_ew g) /\ In (g_ew g) (str "EW") /\
    hd_error fx = Some (dig (g_positionFix g)) /\ is_dig (g_positionFix g) /\
    nsat <> [] /\ dec_text nsat n /\ g_nSatellites g = n mod 256 /\
    Forall (fun f => f <> []) [hdop; alt; altu; geo; geou].

(** $GPGGA,p*hh<CR><LF> *)
Definition sentence (p : list Z) (h1 h0 : Z) : list Z :=
  str "$GPGGA," ++ p ++ str "*" ++ [h1; h0; 13; 10].

(** Exclusive or of everything between '$' and '*'. *)
Definition checksum (p : list Z) : Z := fold_left Z.lxor (str "GPGGA," ++ p) 0.

(** [h1] [h0] are the hexadecimal digits of the checksum of [p]. *)
Definition good_checksum (p : list Z) (h1 h0 : Z) : Prop :=
  exists v1 v0, hex_digit h1 v1 /\ hex_digit h0 v0 /\ checksum p = 16 * v1 + v0.

(** [m] is a valid sentence reporting [g]. *)
Definition valid_sentence (m : list Z) (g : gps_t) : Prop :=
  exists p h1 h0, m = sentence p h1 h0 /\ ~ In 42 p /\ good_checksum p h1 h0 /\ gga_payload p g.

(** An output record as declared: two arrays of 11 characters. *)
Definition gps_arrays (g : gps_t) : Prop :=
  length (g_latitude g) = 11%nat /\ length (g_longitude g) = 11%nat.

(** [m] occurs in [l] as one contiguous piece. *)
Definition infix (m l : list Z) : Prop := exists a b, l = a ++ m ++ b.

(** No 128 consecutive bytes without a comma. *)
Definition short_fields (m : list Z) : Prop :=
  forall a f b, m = a ++ f ++ b -> ~ In 44 f -> (length f < 128)%nat.

(** The bytes received and not yet consumed. *)
Definition received (n : nmea) : list Z :=
  firstn (Z.to_nat (n_end n - n_start n)) (skipn (Z.to_nat (n_start n)) (n_data n)).

(** The decoder as declared: 1024 bytes, cursors in range. *)
Definition nmea_wf (n : nmea) : Prop :=
  length (n_data n) = Z.to_nat 1024 /\ 0 <= n_start n <= n_end n /\ n_end n + n_avail n = 1024 /\
  0 <= n_avail n.

(** No unprocessed bytes; what the array held before is arbitrary. *)
Definition nmea_empty (n : nmea) : Prop :=
  length (n_data n) = Z.to_nat 1024 /\ n_start n = 0 /\ n_end n = 0 /\ n_avail n = 1024.

(** The decoder after NmeaDecode_Init of a zero-initialised object. *)
Definition fresh : nmea := mkNmea 0 0 1024 (repeat 0 (Z.to_nat 1024)).
Definition fresh_gps (g : gps_t) : gps_dev := mkGpsDev fresh g [].

(** A sentence handed to the GPS task in one or two pieces, the first of at most
    13 bytes (empty: in one piece). [dl_o1], [dl_o2] are the uninitialised local
    variables of the two runs of the task. *)
Record delivery := mkDel { dl_first : list Z; dl_second : list Z; dl_o1 : nfields; dl_o2 : nfields }.
Definition dl_text (x : delivery) : list Z := dl_first x ++ dl_second x.
Definition dl_chunks (x : delivery) : list (list Z * nfields) :=
  [(dl_first x, dl_o1 x); (dl_second x, dl_o2 x)].
Definition dl_ok (x : delivery) : Prop :=
  (exists g, valid_sentence (dl_text x) g) /\ short_fields (dl_text x) /\
  (length (dl_text x) <= Z.to_nat 1024)%nat /\ (length (dl_first x) <= 13)%nat /\
  gps_arrays (f_gga (dl_o2 x)).
