(** C85: output pins are independent. *)
From Verif.Model Require Import GpioPorts.
From Verif.Spec Require Import GpioPortsSpec.
From Verif.Proof Require Import GpioPortsProof.
From Coq Require Import Lia.

(** Whatever the tasks do with pins, on the same port or not, and wherever they
    preempt each other: a pin only one task uses has the level that task's finished
    operations on it give. *)
Theorem C85_own_pin_undisturbed :
  forall progs odr0 sched i p ops,
    (forall l o, In l progs -> In o l -> real_pin (op_pin o)) -> real_pin p ->
    owner progs i p ->
    let w := g_run (g_start odr0 progs) sched in
    finished progs w i ops ->
    level w p = level_after p (Z.testbit (odr0 (pn_port p)) (pn_num p)) ops.
Proof.
  intros progs odr0 sched i p ops ALL RP OWN w (l & t & L & T & E).
  destruct (inv_run progs odr0 i p l RP ALL OWN L sched) as [_ (t' & ops' & T' & L' & LV & _)].
  fold w in T', LV. rewrite T in T'. injection T' as <-. rewrite LV. f_equal.
  rewrite E in L'. apply app_inv_tail in L'. now symmetry.
Qed.
Print Assumptions C85_own_pin_undisturbed.

(** A case: two tasks on one port, the second preempting the first inside a toggle. *)
Example C85_ex :
  let progs := [[TogglePin (mkPin 4 15); TogglePin (mkPin 4 15)]; [WritePin (mkPin 4 0) true]] in
  let w := g_run (g_start (fun _ => 0) progs) [0; 1; 0]%nat in
  owner progs 0%nat (mkPin 4 15) /\ finished progs w 0%nat [TogglePin (mkPin 4 15)] /\
  level w (mkPin 4 15) = true /\ level w (mkPin 4 0) = true.
Proof.
  cbv zeta. split.
  - intros j l o N H I. destruct j as [|[|j]]; [congruence| |destruct j; discriminate].
    injection H as <-. destruct I as [<-|[]]. discriminate.
  - split; [do 2 eexists; repeat split|]. split; reflexivity.
Qed.

(** The same for pins several tasks use: whatever happens to a pin also happens in
    a run of a program from which every operation on every other pin is removed. *)
Theorem C85_other_pins_do_not_matter :
  forall progs odr0 sched p,
    (forall l o, In l progs -> In o l -> real_pin (op_pin o)) -> real_pin p ->
    exists sched',
      let w := g_run (g_start odr0 progs) sched in
      let w' := g_run (g_start odr0 (only p progs)) sched' in
      level w p = level w' p /\
      map gt_todo (gw_tasks w') = only p (map gt_todo (gw_tasks w)).
Proof.
  intros progs odr0 sched p ALL RP.
  destruct (sim_run p RP _ _ sched (sim_start p odr0 progs ALL)) as (s & H).
  exists s. cbv zeta. split; [exact (proj1 H)|exact (sim_todo p _ _ H)].
Qed.
Print Assumptions C85_other_pins_do_not_matter.

(** Two tasks that toggle the same pin can collide; no shipped pin is toggled by two. *)
Example C85_two_togglers :
  level (g_run (g_start odr_reset [[TogglePin led_pin]; [TogglePin led_pin]]) [0; 1; 0; 1]%nat) led_pin = true.
Proof. reflexivity. Qed.

(** The shipped outputs are real pins, no two the same. *)
Theorem C85_shipped_outputs_distinct :
  let outs := pdm_pins ++ [led_pin; debug_pin; ecu_error_pin] in
  NoDup outs /\ (forall p, In p outs -> real_pin p /\ level (g_start odr_reset []) p = false).
Proof.
  cbv zeta. split.
  - repeat (constructor; [cbn [pdm_pins app In]; intuition discriminate|]). constructor.
  - intros p H. cbn [pdm_pins app In] in H.
    repeat (destruct H as [<-|H]; [split; [unfold real_pin; cbn; lia|reflexivity]|]). destruct H.
Qed.
Print Assumptions C85_shipped_outputs_distinct.
