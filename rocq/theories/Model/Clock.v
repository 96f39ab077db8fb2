(** The date and time service: system-lib/rtc/rtc.c over the HAL and the
    calendar of the real-time clock.

    Left out: sub-second values, the logging in RTC_Init, and the format switches
    (main.c:637 selects 24 hours; rtc.c always asks for RTC_FORMAT_BIN). *)
From Verif.Base Require Export Words.

(** RTC_TimeTypeDef / RTC_DateTypeDef, the fields rtc.c's callers see.
    stm32f7xx_hal_rtc.h:84-114; rtc.h. *)
Record rtime := mkTime { t_h : Z; t_m : Z; t_s : Z }.
(** stm32f7xx_hal_rtc.h:119-133 *)
Record rdate := mkDate { d_y : Z; d_mo : Z; d_d : Z; d_wd : Z }.
(** The pair that rtc.c:36-60 reads and writes. *)
Record cal := mkCal { c_time : rtime; c_date : rdate }.

(** stm32f7xx_hal_rtc.c:1882-1893; a byte needs at most 25 turns of the loop. *)
Fixpoint bcd_loop (fuel : nat) (high n : Z) : Z :=
  match fuel with
  | O => Z.lor (u8 (Z.shiftl high 4)) n
  | S f => if 10 <=? n then bcd_loop f (high + 1) (n - 10) else Z.lor (u8 (Z.shiftl high 4)) n
  end.
(** stm32f7xx_hal_rtc.c:1882-1893 *)
Definition byte_to_bcd (n : Z) : Z := bcd_loop 25 0 n.
(** 1900-1905. (stm32f7xx_hal_rtc.c:1900-1905) *)
Definition bcd_to_byte (n : Z) : Z := u8 (Z.shiftr (Z.land n 240) 4 * 10 + Z.land n 15).

(** The register masks: stm32f7xx_hal_rtc.h:772-779. *)
Definition TR_MASK : Z := 0x7F7F7F.
(** stm32f7xx_hal_rtc.h:772-779 *)
Definition DR_MASK : Z := 0xFFFF3F.

(** stm32f7xx_hal_rtc.c:739-742,768: the value written to TR *)
Definition enc_tr (t : rtime) : Z :=
  Z.land (Z.lor (Z.lor (Z.shiftl (byte_to_bcd (t_h t)) 16) (Z.shiftl (byte_to_bcd (t_m t)) 8)) (byte_to_bcd (t_s t))) TR_MASK.
(** 834-851: the fields of TR. (stm32f7xx_hal_rtc.c:834-851) *)
Definition dec_tr (v : Z) : rtime :=
  let w := Z.land v TR_MASK in
  mkTime (bcd_to_byte (u8 (Z.shiftr (Z.land w 0x3F0000) 16)))
         (bcd_to_byte (u8 (Z.shiftr (Z.land w 0x7F00) 8)))
         (bcd_to_byte (u8 (Z.land w 0x7F))).

(** 879-882: a month with bit 4 set is taken as BCD. (stm32f7xx_hal_rtc.c:879-882)
    *)
Definition month_in (m : Z) : Z := if Z.land m 16 =? 16 then u8 (Z.land m 239 + 10) else m.
(** 892-895,920: the value written to DR. (stm32f7xx_hal_rtc.c:892-920) *)
Definition enc_dr (d : rdate) : Z :=
  Z.land (Z.lor (Z.lor (Z.lor (Z.shiftl (byte_to_bcd (d_y d)) 16) (Z.shiftl (byte_to_bcd (month_in (d_mo d))) 8))
                (byte_to_bcd (d_d d))) (Z.shiftl (d_wd d) 13)) DR_MASK.
(** 963-978: the fields of DR. (stm32f7xx_hal_rtc.c:963-978) *)
Definition dec_dr (v : Z) : rdate :=
  let w := Z.land v DR_MASK in
  mkDate (bcd_to_byte (u8 (Z.shiftr (Z.land w 0xFF0000) 16)))
         (bcd_to_byte (u8 (Z.shiftr (Z.land w 0x1F00) 8)))
         (bcd_to_byte (u8 (Z.land w 0x3F)))
         (u8 (Z.shiftr (Z.land w 0xE000) 13)).

(** The calendar, one second on (hardware contract; a year is a leap year when its
    two digits are divisible by four). Not in the repository's code; the calendar is
    read at stm32f7xx_hal_rtc.c:956. *)
Definition month_len (y m : Z) : Z :=
  if m =? 2 then (if y mod 4 =? 0 then 29 else 28)
  else if (m =? 4) || (m =? 6) || (m =? 9) || (m =? 11) then 30 else 31.
(** The date one day on. Hardware contract, as above (read at
    stm32f7xx_hal_rtc.c:956). *)
Definition next_date (d : rdate) : rdate :=
  let wd := if d_wd d =? 7 then 1 else d_wd d + 1 in
  if d_d d <? month_len (d_y d) (d_mo d) then mkDate (d_y d) (d_mo d) (d_d d + 1) wd
  else if d_mo d <? 12 then mkDate (d_y d) (d_mo d + 1) 1 wd
  else mkDate ((d_y d + 1) mod 100) 1 1 wd.
(** The calendar one second on. Hardware contract, as above (read at
    stm32f7xx_hal_rtc.c:822-834). *)
Definition tick (c : cal) : cal :=
  let t := c_time c in
  if t_s t <? 59 then mkCal (mkTime (t_h t) (t_m t) (t_s t + 1)) (c_date c)
  else if t_m t <? 59 then mkCal (mkTime (t_h t) (t_m t + 1) 0) (c_date c)
  else if t_h t <? 23 then mkCal (mkTime (t_h t + 1) 0 0) (c_date c)
  else mkCal (mkTime 0 0 0) (next_date (c_date c)).

(** The clock: the running calendar, and the shadow copy. Reading SSR or TR holds
    the shadow registers until DR is read (hardware contract, quoted at
    stm32f7xx_hal_rtc.c:813-818). *)
Record clock := mkClock { k_cal : cal; k_held : option cal }.

(** [n] seconds pass. No code of its own (between the accesses of rtc.c:36-60). *)
Fixpoint ticks (n : nat) (k : clock) : clock :=
  match n with O => k | S m => ticks m (mkClock (tick (k_cal k)) (k_held k)) end.
(** What a read of the shadow registers gives (stm32f7xx_hal_rtc.c:813-818). *)
Definition shown (k : clock) : cal := match k_held k with Some c => c | None => k_cal k end.
(** A read of SSR or TR (stm32f7xx_hal_rtc.c:813-818). *)
Definition hold (k : clock) : clock := mkClock (k_cal k) (Some (shown k)).

(** 822-855: reading the time: SSR, [n] seconds, TR. (stm32f7xx_hal_rtc.c:822-855)
    *)
Definition get_time (k : clock) (n : nat) : rtime * clock :=
  let k1 := ticks n (hold k) in (dec_tr (enc_tr (c_time (shown k1))), hold k1).
(** 956-981: reading the date. (stm32f7xx_hal_rtc.c:956-981) *)
Definition get_date (k : clock) : rdate * clock :=
  (dec_dr (enc_dr (c_date (shown k))), mkClock (k_cal k) None).

(** rtc.c:49-60, with [n] seconds inside the time read and [m] between the reads *)
Definition get_date_time (k : clock) (n m : nat) : cal * clock :=
  let (t, k1) := get_time k n in
  let (d, k2) := get_date (ticks m k1) in
  (mkCal t d, k2).

(** 708-802 and 867-940: setting, when the clock enters and leaves the mode for it
    ([ok]); otherwise nothing is written. (A failure after the write also exists; it
    is not used here.). (stm32f7xx_hal_rtc.c:708-802) *)
Definition set_time (k : clock) (t : rtime) (ok : bool) : bool * clock :=
  if ok then (true, mkClock (mkCal (dec_tr (enc_tr t)) (c_date (k_cal k))) (k_held k)) else (false, k).
(** stm32f7xx_hal_rtc.c:867-940 *)
Definition set_date (k : clock) (d : rdate) (ok : bool) : bool * clock :=
  if ok then (true, mkClock (mkCal (c_time (k_cal k)) (dec_dr (enc_dr d))) (k_held k)) else (false, k).

(** rtc.c:36-47, with [n] seconds between the two *)
Definition set_date_time (k : clock) (c : cal) (n : nat) (ok1 ok2 : bool) : bool * clock :=
  let (s1, k1) := set_time k (c_time c) ok1 in
  if s1 then set_date (ticks n k1) (c_date c) ok2 else (false, k1).
