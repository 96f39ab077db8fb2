(** vcu/device/wheelspeed/wheelspeed.c: pulse counting from 2 kHz pin samples. *)
From Verif.Base Require Export Words.
From Verif.Base Require Import Stream.
From Verif.Model Require Export VehicleState.

(** wheelspeed.c:47-50; a stream buffer of 4000 bytes holds 3999. *)
Definition WSS_STREAM_CAP : nat := Z.to_nat 3999.
(** wheelspeed.c:50 *)
Definition WSS_BATCH_RECV_SIZE : nat := Z.to_nat 2000.

(** wheelspeed.c:69-88: the loop from index 1, with the previous sample at
    hand. The counts are uint16_t (vehicleStateTypes.h). *)
Fixpoint count_loop (prev : Z) (rest : list Z) (front rear : Z) : Z * Z :=
  match rest with
  | [] => (front, rear)
  | s :: tl =>
      let front := if (Z.land prev 2 =? 0) && (Z.land s 2 >? 0) then u16 (front + 1) else front in
      let rear := if (Z.land prev 1 =? 0) && (Z.land s 1 >? 0) then u16 (rear + 1) else rear in
      count_loop s tl front rear
  end.

(** wheelspeed.c:60-89: (front, rear). *)
Definition countLowHighTransitions (array : list Z) : Z * Z :=
  match array with [] => (0, 0) | s :: tl => count_loop s tl 0 0 end.

(** wheelspeed.c:96-111. [None]: division by zero teeth. 60 * count is an int
    below 2^22, so it does not overflow. *)
Definition rpm (teeth count : Z) : option Z :=
  if teeth =? 0 then None else Some (u16 (60 * count / teeth)).

(** wheelspeed.c:96-111 *)
Definition calculateRpm (teeth : Z) (c : Z * Z) : option wheel_t :=
  match rpm teeth (fst c), rpm teeth (snd c) with
  | Some f, Some r => Some (mkWheel f r (fst c) (snd c))
  | _, _ => None
  end.

(** Driver state: the sample stream, mTask.counter (34), and the record in the
    vehicle state that the task writes. wheelspeed.c:27-57. *)
Record ws_t := mkWs { ws_stream : list Z; ws_counter : Z; ws_pub : wheel_t }.

Definition ws_init : ws_t := mkWs [] 0 zero_wheel.   (* 157-200 *)

(** wheelspeed.c:202-231, for an interrupt of the right timer. *)
Definition TIM_IRQHandler (w : ws_t) (front rear : bool) : ws_t :=
  let sample := Z.lor (b2z rear) (2 * b2z front) in
  mkWs (stream_send WSS_STREAM_CAP (ws_stream w) [sample]) (ws_counter w) (ws_pub w).

(** wheelspeed.c:113-143 after a notification; [lock] is the answer of
    VehicleState_AccessAcquire (134). [None]: undefined behaviour. *)
Definition Wheelspeed_TaskMethod (teeth : Z) (w : ws_t) (lock : bool) : option ws_t :=
  let next := u16 (ws_counter w + 1) in
  if ws_counter w mod 100 =? 0 then
    let (samples, rest) := stream_recv WSS_BATCH_RECV_SIZE (ws_stream w) in
    if Z.of_nat (length samples) >? 0 then
      match calculateRpm teeth (countLowHighTransitions samples) with
      | None => None
      | Some d => Some (mkWs rest next (if lock then d else ws_pub w))
      end
    else Some (mkWs rest next (ws_pub w))
  else Some (mkWs (ws_stream w) next (ws_pub w)).

(** wheelspeed.c:113-143, 202-231. *)
Inductive ws_event := WsIrq (front rear : bool) | WsTick (lock : bool).

(** No code of its own; drives wheelspeed.c:113-143, 202-231. *)
Definition ws_step (teeth : Z) (w : ws_t) (e : ws_event) : option ws_t :=
  match e with
  | WsIrq f r => Some (TIM_IRQHandler w f r)
  | WsTick l => Wheelspeed_TaskMethod teeth w l
  end.

(** A history of these events (wheelspeed.c:113-143, 202-231). *)
Fixpoint ws_run (teeth : Z) (w : ws_t) (tr : list ws_event) : option ws_t :=
  match tr with
  | [] => Some w
  | e :: tl => match ws_step teeth w e with Some w' => ws_run teeth w' tl | None => None end
  end.
