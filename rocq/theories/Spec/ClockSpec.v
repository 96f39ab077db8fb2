(** What C86 speaks about. *)
From Verif.Model Require Import Clock.

Definition valid_time (t : rtime) : Prop := 0 <= t_h t < 24 /\ 0 <= t_m t < 60 /\ 0 <= t_s t < 60.
Definition valid_date (d : rdate) : Prop :=
  0 <= d_y d < 100 /\ 1 <= d_mo d <= 12 /\ 1 <= d_d d <= month_len (d_y d) (d_mo d) /\ 1 <= d_wd d <= 7.
Definition valid_cal (c : cal) : Prop := valid_time (c_time c) /\ valid_date (c_date c).

(** Seconds since midnight. *)
Definition sec_of_day (t : rtime) : Z := t_h t * 3600 + t_m t * 60 + t_s t.
