# Formal model of evfirmware-vcu: design

The source under study is `/repo` (lflaherty/evfirmware-vcu, pinned). It is read
as text only. The model is written in Coq 8.16.1 in `/verif/rocq/theories`.

## 1. Layout

* `Base/` : machine words on `Z` with explicit wrap-around, bytes, binary32.
* `Model/*.v` : the executable model, one file per C module. Only definitions,
  each with a comment giving file and lines. No proofs.
* `Spec/*.v` : small specifications, independent of the model's helpers.
* `Proof/*.v` : lemmas.
* `Props/*.v` : the property theorems; each one is closed by `exact lemma`
  with a `Print Assumptions` under it and a non-vacuity `Example` beside it.

## 2. Modelling conventions

* Integers are `Z`. C unsigned arithmetic that can wrap is written with an
  explicit `mod 2^k`. Casts to signed types go through an explicit two's
  complement function.
* `float` is IEEE binary32: `Coq.Floats.SpecFloat.spec_float` with
  `prec = 24`, `emax = 128`, round to nearest even. Each C operator is one
  rounded operation. Assumption: the compiler does not contract `a*b+c` to a
  fused operation; the shipped build uses `-O0` (src/toolchain.cmake:45), at which
  GCC does not contract. Theorems about
  real values go through Flocq's `BinarySingleNaN`.
* Undefined behaviour (out-of-bounds access, null dereference, division by
  zero, out-of-range float to int conversion) is a distinct outcome, never a
  default value.
* A mutex with `portMAX_DELAY` is modelled by an oracle bit per acquisition
  (`true` = taken). Failure is allowed everywhere the code tests for it.
* A task body between two blocking calls is one atomic step. System-level
  theorems quantify over every sequence of such steps. Sections that the code
  protects by a mutex or by masking an interrupt are one step; where the code
  does NOT protect an access, the model splits it into separate steps.
* FreeRTOS stream buffers and queues are bounded FIFO lists: a send of bytes
  stores as many as fit; a receive takes from the front. For stream buffers with
  one sender and one receiver this is not assumed but proved from the kernel's
  code (C74), and for queues and binary semaphores with any number of callers as
  well (C97). Sending no byte at all trips an assertion that halts the
  controller; the models of callers that can do so say so.
* Hardware (pins, DMA, CAN mailboxes, CRC unit) is modelled by its observable
  contract: a pin map, a list of transmitted frames/bytes, a success oracle.
  The CRC unit is CRC-32/MPEG-2 (`main.c:506-511` selects default polynomial
  and initial value, byte input, no inversion), the same function as
  `tools/ecu-config/decode_common.py:16-21`.

## 3. Trusted base

* Coq's kernel (and `vm_compute`).
* The axioms listed by `Print Assumptions` below each theorem. Theorems that do
  not speak about real numbers are closed under the global context. The ones
  that speak about the real value of floats go through Flocq and rest on the
  standard library's axioms of the reals, at most these four:
  `ClassicalDedekindReals.sig_not_dec`, `ClassicalDedekindReals.sig_forall_dec`,
  `FunctionalExtensionality.functional_extensionality_dep`,
  `Classical_Prop.classic`. They are theorems of C05, C14, C15, C17, C20, C21,
  C22, C23, C26, C27, C69, C89, C90, C94, C95, C103 and C104 only.
* The reading of the C and Python source: nothing is extracted or run.
* The contracts assumed of code that is not ours:
  * FreeRTOS: preemptive priorities with time slicing between equals
    (`FreeRTOSConfig.h`); giving a mutex held by another task trips
    `configASSERT`, which halts (that a mutex has one holder is proved, C99); a wait for `portMAX_DELAY` ends only
    with success (`INCLUDE_vTaskSuspend` is 1); a
    notification count is a `uint32_t` that wraps; the parts of a stream buffer call that wait, notify or check
    the trigger level do not touch the stored bytes (that the waits end when they should: C101, C102; that the
    holder of a mutex inherits the priority of those who wait, as used in C92: C99).
  * STM32 HAL for UART, I2C, SPI, CAN, ADC: state machine and return codes as in
    the HAL sources in `cube-proj/Drivers`, as far as the drivers use them.
  * bxCAN: three mailboxes; a mailbox that waits for transmission is write
    protected; which mailbox is sent next is left open.
  * CAN fault confinement (ISO 11898-1): error counters, bus-off above 255, recovery
    only with automatic bus-off management or by re-initialisation.
  * USART: three samples around the middle of each bit, start edge noticed within a
    sixteenth of a bit; ideal line.
  * DMA streams serve only the request channel selected in their register.
  * bxCAN filters: CAN1 and CAN2 share 28 banks split at CAN2SB, CAN3 has 14.
  * CRC unit: CRC-32/MPEG-2.
  * Clock gates: a write to a register of a peripheral whose clock is off is lost.
  * Timers: prescaler and up-counter; one update interrupt per period once started.
  * Interrupt controller: an interrupt is taken if its priority is above that of
    every active handler and of BASEPRI.
  * ADC and DMA: one request per conversion; a stream moves items of its configured
    size to consecutive addresses, once or in a circle; the converter stops its
    requests after the last transfer unless told otherwise.
  * GPIO ports: a write to BSRR sets and resets the named pins in one access.
  * Real-time clock: the calendar advances once a second; reading the sub-seconds or
    the time holds the shadow registers until the date is read.
* The compiler: IEEE single precision, no fused multiply-add.

Modelled (file by file in `theories/Model`, with citations at each definition):
all of `vcu/vehicleLogic`, `vcu/vehicleInterface`, `vcu/device`, `vcu/startup` (initialisation order, interrupt dispatch, log), and
of `system-lib` the drivers for ADC, CAN, CRC, GPIO, I2C, RTC, SPI, UART, the task
timer, logging and dependency registration; of
`tools/ecu-config` the frame decoder, encoder and the table and log viewers.

Of `cube-proj` the order of the initialisation, the settings of timers, DMA
streams, ADC, CAN, serial ports and interrupt priorities are modelled (C76-C84).

Not modelled: the FreeRTOS kernel (other than C74, C97-C99, C101 and C102) and the HAL beyond the contracts above, the
rest of the clock and pin set-up, task stack sizes, wall-clock time (ticks or
clock cycles are counted instead), the SWO output of the log (never enabled in the shipped
code), the GUI of the PC tool.

Limits to keep in mind when reading the theorems together: C14 to C19 and C69
speak of the frames handed to the CAN driver. C45 and C46 follow one frame
through the driver, C89 follows the commands of the whole ECU to the bus. C72 says what happens when several tasks are inside the
driver at once, and that the shipped system does not exclude it.

## 4. Plan per property

| Id | What is modelled | How it is proved |
| -- | ---------------- | ---------------- |
| C01 | `FaultManager_Step` over a record with the fault word and 7 timers | induction over snapshot histories; bit inclusion |
| C02 | `handleTimedCondition` with 16-bit timer | closed form of the timer after any history; the limit 65535 is treated separately (refuted there) |
| C03 | all five check functions with float comparisons | case analysis; specification as a table of conditions on the snapshot, independent of the code |
| C04 | same | refuted by a constant history with inverter over-temperature etc.; positive part for the conditions that have a path |
| C05 | default configuration + BMS decoder | finite sweep over 16-bit values, lifted; refuted |
| C06-C12 | `VSM_Step` with fault manager, button, inverter state, oracles | invariants and path induction over input histories; C12 refuted by witness, weaker part proved |
| C13, C58 | whole-ECU step relation: state-manager task, throttle task, sensor updates, PC commands in any order | invariant over schedules |
| C14, C15 | `TorqueMap_Interpolate` on binary32 | Flocq: rounding is monotone, error bounds; NaN/inf by cases |
| C16-C19 | the three driver calls with lock/CAN oracles, frame encoder | invariants over call sequences; bit-level frame specification; C19 refuted for enabling |
| C20-C23 | queue-processing loops and decoders | refinement to "latest valid frame per message"; sweeps for unit claims |
| C24, C25 | ADC triple buffer with ISR and reader steps | invariant relating the inactive buffer to the last completed scan; C25 refuted at the boundary |
| C26-C28 | `ADC_ApplyScaling`, sensing task | Flocq monotonicity; histories of cycles |
| C29-C33 | frame encoder, decoder with buffer and cursors, CRC | ghost stream invariant; CRC linearity over GF(2) |
| C34, C35 | request loop over the receive stream | refinement to "the list of valid frames of the stream" |
| C36, C37 | broadcast and log forwarding | decoding specification on the PC side, chunk induction |
| C38-C40 | terminal buffer, tokenizer, commands | refutations by witness; positive theorems for single lines |
| C41, C42 | edge counter, RPM, tick counter | induction over sample lists; wrap refutation |
| C43, C44 | PDM, SDC with pins | invariants over call / interrupt sequences |
| C45, C46 | CAN registration, dispatch, transmission | FIFO refinement; refutations for ordering and draining |
| C47, C48 | UART transmit path | ghost "wire + in flight + pending" = accepted bytes |
| C59 | UART reception into the DMA buffer, half/full/idle interrupts | invariant "delivered ++ buffered = arrived" for bursts below half the buffer; refuted above |
| C49, C50 | task timer, module registry, boot order | invariants; evaluation of the shipped order plus general theorem |
| C51-C53 | NMEA decoder and parsers, GPS task | soundness by symbolic execution; refutations of the cursor arithmetic |
| C54, C55 | I2C / SPI lock automata | invariants over interleavings; refutations |
| C56 | watchdog counter, LED pin sharing | induction; refutation by interleaving |
| C57 | boot wiring of the fault monitor pointer | evaluation of the init model; refuted |
| C60 | shutdown-circuit inputs with the configured rising-edge interrupts | invariant; falling edges refuted for every continuation |
| C61, C62 | interrupts between any two actions of the boot; failing hardware checks | evaluation along the boot lifted to every oracle; refutations |
| C63-C67 | the Python decoder, encoder, CRC and viewers (`tools/ecu-config`), Python exceptions as `None` | CRC by linearity to the bitwise CRC of C32; decoder refined to "leftmost stretches of the stream"; composed with the ECU's broadcast and log models; refutations by witness |
| C68 | state machine as in C06-C12 | case analysis per state; time in state as the length of the suffix of the history |
| C69 | whole-ECU model of C13 | history invariant from pedal reading to frame; float error of the curve (C15) and of the frame (C17) added up |
| C70 | the log with both outputs, the start-up task line by line with its messages, the PC interface task's sending, a priority scheduler | invariant along any schedule relating the run to the run without failures |
| C71 | each task as a program over the mutexes (take, access, give, branch), eleven tasks under any schedule | per-program discipline checked once, invariant over schedules; deadlock freedom from "holders never wait" |
| C72 | the mailbox registers of one bus and the driver code writing them, register write by register write; senders interleaved | permutation invariant when senders are exclusive; forged and lost frame as witnesses for the shipped senders |
| C73 | same model; priorities as asked for and as cut down by the kernel | same invariant; witnesses for tasks that run during and after a failed start-up |
| C74 | the kernel's ring buffer with head and tail index, sender and receiver split into single accesses | invariant relating ring to the list of bytes held, under any interleaving; step bounds for termination; refinement to the queue operations used elsewhere |
| C75 | two interrupts sending to the one receive stream, nested by priority; the PC request loop behind it | refinement when sends do not overlap; witnesses for nested interrupts and for split frames |
| C76 | the interrupt controller's rule for taking an interrupt, the port's mask operations, every enabled handler with its kernel calls | invariant on the stack of contexts; exact condition on the priorities; nesting bounded by the number of priority levels |
| C77 | each driver's initialisation as a list of single stores, its interrupt handler between any two of them | case analysis per store, induction over registrations; refutation for the shutdown-circuit handler |
| C78 | prescaler and counter of the timers cycle by cycle, clock tree, calls that configure and start them | phase invariant, interrupts in any window by division; refutation: nothing starts the sampling timer |
| C79 | clock gates, stream configuration registers, the initialisation functions in any order | induction over the order, exact condition; refutation for the shipped order |
| C80 | converter, DMA stream (item size, one-shot or circular) writing bytes of the driver's array, composed with the driver of C24 and the pedal code | invariant on the bytes written; refutations for the shipped configuration; refinement to C24 for word transfers |
| C81 | the filter banks the CAN cells share, configuration calls in any order, frames as filter words | invariant describing all banks after any sequence; exact condition per bus |
| C82 | transmit and receive error counters, bus-off and recovery, on top of the transmit driver of C46 | counter invariants over any run; refutations: 32 disturbances, nothing leaves bus-off |
| C83 | divider computation, the line as a function of time, a receiver that samples it | interval arithmetic for each sample, induction over the characters |
| C84 | DMA request selection from the stream registers of C79 gating the byte events of the UART model | exact condition on the order; refutation for the shipped one |
| C85 | `Model/GpioPorts.v`: pin writes and toggles access by access on port registers, tasks preempting each other between any two accesses | invariant for a pin with one user; simulation with the program from which all calls on other pins are removed |
| C86 | `Model/Clock.v`: binary/BCD conversion, register packing, calendar, shadow registers, the set and get calls split at their register accesses | bitwise proof of the packing round trip; induction over seconds; refutations by witness (midnight inside a set, half-done set, two readers) |
| C87 | `Model/GpsText.v`: the bounded prints of the GPS task into its buffer | invariant "text followed by zeros" by induction over the received bytes |
| C88 | blocking SPI calls of any tasks, step by step, beside the DMA transfers of C55; the HAL answers busy while the bus is in use | invariants (mutex, chip-selects); refutation with both kinds of transfer on one bus |
| C89 | the whole-ECU model with the CAN controller of the inverter's bus behind it: mailboxes, arbitration, statuses returned to the callers | the board is simulated by the ECU model and by the driver model, so their invariants carry over; refuted by a schedule in which a zero-torque command overtakes an older one |
| C90 | the same with a processor that may stop; tasks that stop taking part in the schedule | a stopped board is a fixed point except for the mailboxes; independence of the state manager from the throttle task; refuted on a drive |
| C91 | timer ticks and notification values on top of the two-task ECU model; an activation takes the whole value | invariant within one period (woken, under way, done) and induction over ticks; FAULT after tolerance + 1 steps, stopped state kept by every event; refuted without the keep-up assumption |
| C92 | tick and notification counts, stages of the ten tasks, fixed priorities with preemption, the vehicle-state mutex with priority inheritance, the sensing task's cycle | inductive invariant over all allowed schedules: a due or active sensing cycle bars every start of a task of lower priority, also while it waits for the mutex, since the holder inherits its priority; the age of each activation is bounded by the stamp of the published cycle |
| C93 | the two-task ECU model with all its output pins: power channels, LED, ECU error, written by the control tasks, the watchdog task and the PC requests | exact value of every output after every history by induction; the README journey refuted: no channel without a PC, LED independent of the state |
| C94 | the schedule model of C92 and the two-task ECU model in one: the control tasks read the vehicle state inside the mutex, in the activations the kernel gives them | invariants relating each task's local values to a published cycle; simulation by the timed model of C91 while the tasks keep up; the float chain from counts to torque by C26, C15 and C17 |
| C95 | the receive interrupt, both receive queues and the loops of the two receiving tasks, joined to the model of C94 | invariants following the frame from the queue into the vehicle state; then the simulation of C94; the driver's own dispatch (C45) is shown to be the same queue step |
| C96 | the same model; the configured time-outs occur in no definition because no code reads them | invariant: while the battery is silent the state manager keeps driving, for any length of time; a concrete run refutes the property |
| C97 | `KQueue.v`: the kernel's queue (ring of items, lists of waiting tasks, lock counts), calls from tasks as the critical sections of the C code, calls from interrupts between any two of them | ring invariant (slots in order from the read position); counting invariant: as long as a task sleeps, the room does not exceed the tasks under way plus the lock count; lists sorted by priority |
| C98 | `KTime.v`: tick count, the two lists of delayed tasks and their exchange at the wrap, next wake-up time, pending ticks and pending wake-ups, time-out records | simulation by a clock that never wraps: each list entry stands for one absolute time; induction over the history; arithmetic modulo 2^32 for the time-outs |
| C99 | `KMutex.v`: task priorities, ready lists and the bit map of their priorities, waiting lists, holder and held count of each mutex; a take is split at its critical sections | invariant over all histories: lists and bit map agree with the tasks' states, waiting lists are sorted, every raised priority has a task in the middle of a call that accounts for it; the kernel's reset of the wrong priority bit (tasks.c:4187) is harmless because that task is then in the same ready list |
| C100 | `Vehicle.v` (as for C94) | invariant: each state of the machine, each pending call, the enable flags and the request under way are backed by positions of the button published earlier in that order; for the stop, phases of the two control steps counted in timer ticks |
| C101 | `KNotify.v`: one task, its notification value and state, its sleep, its calls step by step (critical sections are the steps), the scheduler's suspension; any interrupts in between | invariant over all histories; conservation of the count, sleep implies nothing outstanding, reports are exact; a second invariant bounds the wait (KTimelyProof.v) |
| C102 | `KNotify.v`: xStreamBufferReceive and xStreamBufferSend with their waits, UART_SendMessage on a busy line with its interrupt disabled | invariant; the send case is refuted: the call disables the interrupt that would make room; if that interrupt came before the call, the sender is woken; no wait is too long (KTimelyProof.v) |
| C103 | Vehicle.v as it is (kernel, sensing task, state manager, throttle task, inverter commands). | A debt of the throttle task (a notification not taken, an activation whose request is not made) goes up by one at a tick and down by one at a request; every request of an enabled inverter gives one frame. Joined with C89's run of a bus that keeps up. CommandProof.v. |
| C104 | `Vehicle.v` (as for C94 and C103) | invariant from an idle moment on: the activation began after it, and while the enable flag is on (C13's invariant) the magnitude under way is the curve at a pedal position of a cycle published since; joined with the count of C103 |

Every property can be expressed in an executable model, so none is marked not
applicable. Timing in seconds is replaced by counting timer ticks.

## 5. Status

`MANIFEST.json` lists for each property its theorems. A property marked partial
is in most cases one that the code violates: then there is a theorem with suffix
`_refuted` giving a concrete run that violates it, next to the strongest variant
we could prove. Where a theorem covers only part of a property that may hold, it
has the suffix `_partial` and its comment says what is missing.

`seeded/LOG.jsonl` records the edits made to scratch copies of the model, the
claim each edit breaks, the theorems that failed, and the theorems added or
tightened when none failed.
