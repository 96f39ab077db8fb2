(** What readers of the ADC may rely on. A scan is [n] consecutive conversions;
    scan k consists of the conversions numbered k*n .. k*n+n-1. *)
From Verif.Base Require Import Words.
From Verif.Model Require Import Adc.

(** The state set up by ADC_Init, with [n] channels ([C24_init_state]). *)
Definition adc_start (n : Z) : adc_t :=
  mkAdc (repeat 0 16) (repeat 0 16) (repeat 0 16) false false true n 0.

Fixpoint samples (tr : list adc_event) : list Z :=
  match tr with
  | [] => []
  | Sample v :: tl => v :: samples tl
  | _ :: tl => samples tl
  end.

Definition n_samples (tr : list adc_event) : Z := Z.of_nat (length (samples tr)).

Fixpoint n_half (tr : list adc_event) : Z :=
  match tr with [] => 0 | HalfIsr :: tl => 1 + n_half tl | _ :: tl => n_half tl end.

Fixpoint n_cplt (tr : list adc_event) : Z :=
  match tr with [] => 0 | CpltIsr :: tl => 1 + n_cplt tl | _ :: tl => n_cplt tl end.

(** The hardware contract, for [n] channels. The interrupts alternate half,
    complete, half, ...; the half (complete) interrupt of a scan comes once the
    first n/2 (all n) conversions of that scan are stored; and it has been
    served before the next scan overwrites the words it copies. With one
    channel there is no first half and the half interrupt is irrelevant. Reads
    may happen at any time. *)
Inductive timely (n : Z) : list adc_event -> Prop :=
| timely_start : timely n []
| timely_sample : forall tr v,
    timely n tr ->
    let scan := n_samples tr / n in
    (n_samples tr mod n < n / 2 -> scan <= n_half tr) ->
    (n / 2 <= n_samples tr mod n -> scan <= n_cplt tr) ->
    timely n (tr ++ [Sample v])
| timely_half : forall tr,
    timely n tr ->
    n < 2 \/ (n_half tr = n_cplt tr /\ n_half tr * n + n / 2 <= n_samples tr) ->
    timely n (tr ++ [HalfIsr])
| timely_cplt : forall tr,
    timely n tr ->
    n < 2 \/ n_half tr = n_cplt tr + 1 ->
    (n_cplt tr + 1) * n <= n_samples tr ->
    timely n (tr ++ [CpltIsr])
| timely_read : forall tr ch,
    timely n tr -> 0 <= ch < n -> timely n (tr ++ [Read ch]).

(** The answer to a read of channel [ch]: the value in the last scan whose
    complete interrupt has been served (its low 16 bits; the converter has 12). *)
Definition expected_read (n : Z) (tr : list adc_event) (ch : Z) : Z * Z :=
  if n_cplt tr =? 0 then (ADC_STATUS_ERROR_DATANOTREADY, 0)
  else (ADC_STATUS_OK, (nth (Z.to_nat ((n_cplt tr - 1) * n + ch)) (samples tr) 0) mod 65536).
