(** Wheel speed, power channels and shutdown circuit as their users see them. *)
From Verif.Base Require Import Words Gpio.
From Verif.Model Require Import Wheelspeed Pdm Sdc.

(** ** Wheel speed *)
(** Low-to-high edges in a sequence of levels. *)
Definition rising (l : list bool) : Z :=
  Z.of_nat (length (filter (fun p => negb (fst p) && snd p) (combine l (tl l)))).

(** Sampled levels in a list of sample bytes. *)
Definition fronts (s : list Z) : list bool := map (fun b => Z.testbit b 1) s.
Definition rears (s : list Z) : list bool := map (fun b => Z.testbit b 0) s.

(** All pin levels sampled in a trace, and the number of timer ticks. *)
Fixpoint sampled (tr : list ws_event) : list (bool * bool) :=
  match tr with
  | [] => []
  | WsIrq f r :: tl => (f, r) :: sampled tl
  | WsTick _ :: tl => sampled tl
  end.
Fixpoint ticks (tr : list ws_event) : Z :=
  match tr with [] => 0 | WsTick _ :: tl => 1 + ticks tl | WsIrq _ _ :: tl => ticks tl end.

(** What should be published for one batch of samples. *)
Definition wheel_of (teeth : Z) (batch : list Z) : wheel_t :=
  mkWheel (60 * rising (fronts batch) / teeth) (60 * rising (rears batch) / teeth)
          (rising (fronts batch)) (rising (rears batch)).

(** ** Power channels *)
(** The last accepted request for a channel. *)
Definition accepted (num : Z) (c : Z * bool * bool) : bool :=
  let '(ch, _, lock) := c in (ch <? num) && lock.
Definition last_request (num ch : Z) (calls : list (Z * bool * bool)) (prev : bool) : bool :=
  match find (fun c => accepted num c && (fst (fst c) =? ch)) (rev calls) with
  | Some (_, st, _) => st
  | None => prev
  end.

(** ** Shutdown circuit *)
(** No event of [tr] changes a pin. *)
Definition no_pin_change (tr : list sdc_event) : Prop := forall l, ~ In (SdcPins l) tr.
(** The task always gets the vehicle state. *)
Definition locks_ok (tr : list sdc_event) : Prop := ~ In (SdcTask false) tr.
(** The task waits and no notification is pending. *)
Definition idle (w : sdc_world) : Prop := sw_pc w = 0 /\ sw_notified w = 0.

(** The batches handed to the counting function in a trace. *)
Fixpoint batches (teeth : Z) (w : ws_t) (tr : list ws_event) : list (list Z) :=
  match tr with
  | [] => []
  | e :: tl =>
      match ws_step teeth w e with
      | None => []
      | Some w' =>
          match e with
          | WsTick _ => if ws_counter w mod 100 =? 0
                        then firstn (Z.to_nat 2000) (ws_stream w) :: batches teeth w' tl
                        else batches teeth w' tl
          | WsIrq _ _ => batches teeth w' tl
          end
      end
  end.

(** Both levels of one sample in a byte: front in bit 1, rear in bit 0. *)
Definition pack (p : bool * bool) : Z := Z.lor (b2z (snd p)) (2 * b2z (fst p)).

(** A configuration accepted by PDM_Init whose array has the stated length. *)
Record pdm_ok (p : pdm_cfg) (chans : list pin) : Prop := {
  po_init : PDM_Init true p = PDM_STATUS_OK;
  po_chans : pd_channels p = Some chans;
  po_len : Z.of_nat (length chans) = pd_num p;
  po_distinct : NoDup chans }.

(** The pin of channel [ch]. *)
Definition chan_pin (chans : list pin) (ch : Z) : pin := nth (Z.to_nat ch) chans (0, 0).
