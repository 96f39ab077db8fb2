{"id": "C01", "title": "Detected faults latch", "statement": "Once the fault monitor has reported a drive fault it never again reports 'no fault', and no fault code it has recorded is ever cleared, whatever the sensors read afterwards.", "quantifier": "every configuration, every history of vehicle-state snapshots of any length (including failed snapshot copies)", "why_tests_cant": "a test replays a few short recoveries; latching must survive every later history", "anchors": ["firmware/src/vcu/vehicleLogic/stateManager/faultManager.c: FaultManager_Step, FaultManager_Init"]}
{"id": "C02", "title": "Debounce length of timed faults is exact", "statement": "A timed fault (pedal range, pedal disagreement, brake range, pedal abuse, cell over-temperature, over-current, cell over-voltage) is recorded at a step exactly when its condition has held on more than timeout/tick consecutive evaluated steps up to and including it; a single clean sample restarts the count. (Caveat to be settled: the largest configurable timeout.)", "quantifier": "every configuration of timeouts and tick rates, every condition history of any length", "why_tests_cant": "the trip point depends on unbounded alternations of fault / no-fault samples and on 16-bit wrap at one extreme limit value", "anchors": ["firmware/src/vcu/vehicleLogic/stateManager/faultManager.c: handleTimedCondition, isFaultAccelPedal, isFaultBrakePedal, isFaultBMS, FaultManager_Init"]}
{"id": "C03", "title": "Fault codes mean what the fault table says", "statement": "A fault code bit appears only if its documented condition was present in a snapshot, and every bit reported is one of the documented codes: no condition sets another condition's bit.", "quantifier": "every configuration and every snapshot history", "why_tests_cant": "needs all combinations of simultaneous conditions, including NaN readings", "anchors": ["firmware/src/vcu/vehicleLogic/stateManager/faultManager.c", "firmware/src/vcu/vehicleLogic/stateManager/faultManager.h", "firmware/README.md: Drive Faults table"]}
{"id": "C04", "title": "Every documented fault is detected", "statement": "Each fault listed in the README fault tables (inverter temperatures, inverter current, inverter fault words, CAN timeouts, brake sensor disagreement, BMS fault indicator) is eventually reported when its condition persists.", "quantifier": "every documented condition, every history in which it persists", "why_tests_cant": "absence of a detection path cannot be shown by any finite set of passing tests", "anchors": ["firmware/src/vcu/vehicleLogic/stateManager/faultManager.c: isFaultInverter, isLVErrorBMS, isLVErrorInverter, isFaultBrakePedal", "firmware/README.md: Fault Monitoring"]}
{"id": "C05", "title": "Shipped battery limits are enforced as documented", "statement": "With the shipped default configuration the battery limits act at the documented physical values: over 75 degC, over 450 A, over 4.2 V per cell and under 10 % state of charge raise a fault, and a healthy pack raises none.", "quantifier": "every value the battery-monitor decoder can produce", "why_tests_cant": "requires all 65536 values of every decoded field against the shipped limits", "anchors": ["firmware/src/vcu/vehicleInterface/config/configDataDefault.h", "firmware/src/vcu/device/bms/orionBmsDataConversions.h", "firmware/src/vcu/vehicleLogic/stateManager/faultManager.c: isFaultBMS"]}
{"id": "C06", "title": "Fault state is absorbing", "statement": "After the vehicle state machine has entered FAULT it stays there for ever, for any button presses, inverter states or fault reports.", "quantifier": "every reachable machine state and every later input history", "why_tests_cant": "histories are unbounded", "anchors": ["firmware/src/vcu/vehicleLogic/stateManager/stateMachine.c: VSM_Step, stateFault"]}
{"id": "C07", "title": "Drive faults reach the fault state promptly; start-up tolerates LV errors only", "statement": "Whenever the fault monitor reports a drive fault the machine is in FAULT after that step (after the next one when it was still in INIT); an LV-system error takes it to FAULT from LV_READY onwards and never from LV_STARTUP.", "quantifier": "every reachable state, every input history", "why_tests_cant": "must hold from every state under every combination of coincident events", "anchors": ["firmware/src/vcu/vehicleLogic/stateManager/stateMachine.c: stateLvStartup, stateLvReady, stateHvActive, stateHvCharging, stateActiveNeutral, stateActiveForward", "firmware/README.md: Fault Monitoring"]}
{"id": "C08", "title": "Outputs are made safe in the fault state", "statement": "While in FAULT every control step forces torque off, direction forward and the ECU error output on. (To be settled: whether this is already true at the end of the step that entered FAULT.)", "quantifier": "every history leading to FAULT, every later step", "why_tests_cant": "the window between entering FAULT and applying the outputs only shows on specific schedules", "anchors": ["firmware/src/vcu/vehicleLogic/stateManager/stateMachine.c: stateFault, VSM_Step"]}
{"id": "C09", "title": "Drive sequence cannot be short-cut", "statement": "State changes follow the documented diagram only; a vehicle that is in ACTIVE_FORWARD has, since power-up, been ready, been asked to engage HV, completed the HV wait, seen the inverter report READY within the charge timeout, and been asked again to drive, in that order.", "quantifier": "every input history from power-up to the first ACTIVE_FORWARD state", "why_tests_cant": "a path property over all histories", "anchors": ["firmware/src/vcu/vehicleLogic/stateManager/stateMachine.c"]}
{"id": "C10", "title": "HV wait and charge timeout are honoured", "statement": "HV_ACTIVE lasts until the configured wait has elapsed and then moves on (unless a fault intervenes); HV_CHARGING is left no later than the configured timeout plus one tick: for neutral if the inverter is ready, for FAULT otherwise.", "quantifier": "every configured wait/timeout and tick rate, every history of inverter states", "why_tests_cant": "depends on unbounded tick counts and on 32-bit multiplication wrap", "anchors": ["firmware/src/vcu/vehicleLogic/stateManager/stateMachine.c: stateHvActive, stateHvCharging"]}
{"id": "C11", "title": "One button press causes at most one state change", "statement": "A state change requested by the dashboard button happens only on a released-to-pressed edge seen by the machine in that state; holding the button never causes a second change.", "quantifier": "every history of button samples", "why_tests_cant": "edges, holds and state changes interleave in unboundedly many ways", "anchors": ["firmware/src/vcu/vehicleLogic/stateManager/stateMachine.c: stateLvReady, stateActiveNeutral, stateActiveForward"]}
{"id": "C12", "title": "HV engages only on a deliberate request", "statement": "HV is engaged only when the driver presses the button after the vehicle became ready and the brake is applied, as the README's user journey describes.", "quantifier": "every history of button and brake samples from power-up", "why_tests_cant": "a button held through start-up is one of infinitely many histories", "anchors": ["firmware/src/vcu/vehicleLogic/stateManager/stateMachine.c: stateLvReady", "firmware/README.md: Starting vehicle & moving into drive state"]}
{"id": "C13", "title": "Torque is requested only in the drive state", "statement": "For every interleaving of the state-manager task, the throttle task, sensor updates and PC commands, a non-zero torque request reaches the inverter only while the state machine is in ACTIVE_FORWARD, or in the single control period in which it has just entered FAULT from ACTIVE_FORWARD.", "quantifier": "every schedule of tasks and every input history", "why_tests_cant": "schedules and histories are unbounded", "anchors": ["firmware/src/vcu/vehicleLogic/throttleController/throttleController.c", "firmware/src/vcu/vehicleLogic/stateManager/stateMachine.c", "firmware/src/vcu/vehicleInterface/vehicleControl/vehicleControl.c"]}
{"id": "C14", "title": "Torque map stays within the calibrated envelope", "statement": "For every accelerator reading, including NaN, infinities and out-of-range values, the requested torque is a finite number between 0 and the map's largest entry; it is 0 outside [0,1], 0 throughout the dead zone, and equals the table entries at the table points.", "quantifier": "every 32-bit float accelerator value", "why_tests_cant": "2^32 inputs with rounding at every operation", "anchors": ["firmware/src/vcu/vehicleLogic/throttleController/torqueMap.c: TorqueMap_Interpolate, TorqueMap_Default, TorqueMap_DefaultReverse"]}
{"id": "C15", "title": "Torque map interpolates linearly", "statement": "Between two table points the result is within a small stated bound of the exact straight line, so that pressing further never lowers the requested torque by more than that bound.", "quantifier": "every pair of 32-bit float accelerator values in [0,1]", "why_tests_cant": "rounding error must be bounded over about 10^9 inputs", "anchors": ["firmware/src/vcu/vehicleLogic/throttleController/torqueMap.c: TorqueMap_Interpolate"]}
{"id": "C16", "title": "Inverter is never commanded to drive and discharge at once", "statement": "No sequence of driver calls produces a command frame with both enable and discharge set, and the driver's view never has both modes on; enabling is refused while discharging and discharging is refused while enabled.", "quantifier": "every sequence of driver calls, lock failures and CAN failures", "why_tests_cant": "call sequences are unbounded", "anchors": ["firmware/src/vcu/device/inverter/cInverter.c: CInverter_SendTorqueCommand, CInverter_SendInverterEnabled, CInverter_SendInverterDischarge"]}
{"id": "C17", "title": "Torque commands are encoded faithfully", "statement": "An accepted torque request produces exactly one command frame whose torque field is the request truncated to 0.1 Nm, with the requested direction, enable set, discharge clear and all other fields zero; requests that are negative, above 3276.7 Nm or made while the inverter is not enabled produce no frame and an error.", "quantifier": "every 32-bit float torque (NaN separately), both directions, every driver state", "why_tests_cant": "2^32 torque values; the float to int16 conversion is undefined outside its range", "anchors": ["firmware/src/vcu/device/inverter/cInverter.c: SendCANCommand, CInverter_SendTorqueCommand", "firmware/src/vcu/device/inverter/dataConversions.h: torqueToMsg", "firmware/src/vcu/device/inverter/cInverterCAN.h"]}
{"id": "C18", "title": "Torque frames follow an enable, and enabling starts with a lock-out release", "statement": "In the sequence of frames sent to the inverter, a frame with enable set is preceded by a frame with enable clear since the inverter was last disabled (the lock-out release), and torque frames appear only after such an enable frame.", "quantifier": "every sequence of driver calls", "why_tests_cant": "ordering over unbounded call sequences", "anchors": ["firmware/src/vcu/device/inverter/cInverter.c: CInverter_SendInverterEnabled"]}
{"id": "C19", "title": "Failed transmissions are reported", "statement": "If a CAN frame belonging to a driver call could not be handed to the bus, the call does not return OK.", "quantifier": "every driver call and every pattern of CAN failures", "why_tests_cant": "needs every failure position in every call", "anchors": ["firmware/src/vcu/device/inverter/cInverter.c: CInverter_SendInverterEnabled, CInverter_SendInverterDischarge, CInverter_SendTorqueCommand"]}
{"id": "C20", "title": "Battery state mirrors the latest valid BMS frames", "statement": "After any sequence of queued CAN frames, each battery field equals the decoding of the latest well-formed frame of its message (right bus, right id, length 8) or its previous value if there was none; frames with other ids, bus or length change nothing, and nothing outside the battery record changes.", "quantifier": "every sequence of CAN frames, every payload", "why_tests_cant": "arbitrary interleavings of four messages with malformed traffic", "anchors": ["firmware/src/vcu/device/bms/orionBms.c: BMSProcessing, HandleMsg_MaxCellState, HandleMsg_MinCellState, HandleMsg_PackState, HandleMsg_Status"]}
{"id": "C21", "title": "BMS values are decoded in the documented units", "statement": "Decoded BMS values use the README's encodings (temperature x10, cell voltage x100, current x10, pack voltage x10, state of charge x100).", "quantifier": "every 16-bit field value", "why_tests_cant": "all 65536 encodings with float rounding", "anchors": ["firmware/src/vcu/device/bms/orionBmsDataConversions.h", "firmware/README.md: BMS Data Formats"]}
{"id": "C22", "title": "Motor and inverter state mirror the latest valid inverter frames", "statement": "After any sequence of queued CAN frames, each motor/inverter field equals the decoding of the latest well-formed frame carrying it, every other field of the vehicle state is untouched, and malformed or foreign frames change nothing.", "quantifier": "every sequence of CAN frames, every payload", "why_tests_cant": "eleven message types interleave arbitrarily", "anchors": ["firmware/src/vcu/device/inverter/cInverter.c: InverterProcessing and HandleMsg_*", "firmware/src/vcu/device/inverter/cInverterCAN.h", "firmware/src/vcu/device/inverter/dataConversions.h"]}
{"id": "C23", "title": "Signed inverter measurements keep their sign", "statement": "Negative temperatures, voltages and torques reported by the inverter are decoded as negative values.", "quantifier": "every 16-bit field value", "why_tests_cant": "half of all encodings are negative; a test must pick one", "anchors": ["firmware/src/vcu/device/inverter/dataConversions.h: msgToTemperature, msgToTorque, msgToVoltageHigh", "firmware/src/vcu/device/inverter/cInverterCAN.h"]}
{"id": "C24", "title": "ADC readings are never torn and never stale by more than one scan", "statement": "Whatever the interleaving of DMA half/complete interrupts and readers, a successful ADC read returns the value of its channel from the most recently completed scan; before the first completed scan reads report 'not ready'.", "quantifier": "every channel count, every interleaving of half-complete, complete and read events, every DMA content", "why_tests_cant": "interrupt interleavings are unbounded", "anchors": ["firmware/src/system-lib/adc/adc.c: ADC_Get, HAL_ADC_ConvHalfCpltCallback, HAL_ADC_ConvCpltCallback, ADC_Init"]}
{"id": "C25", "title": "ADC reads reject channels that do not exist", "statement": "Reading a channel outside the configured number of channels is refused and never touches memory outside the sample buffers.", "quantifier": "every channel count and channel number", "why_tests_cant": "boundary over all configurations", "anchors": ["firmware/src/system-lib/adc/adc.c: ADC_Get"]}
{"id": "C26", "title": "Sensor scaling is bounded and monotone", "statement": "With saturation enabled a scaled reading lies in the configured output range for every raw value; a larger raw value never scales to a smaller output; the calibration end points map to the ends of the range.", "quantifier": "every 16-bit raw value, every calibration", "why_tests_cant": "2^16 raws times 2^64 calibrations with float rounding", "anchors": ["firmware/src/system-lib/adc/adc.c: ADC_ApplyScaling"]}
{"id": "C27", "title": "Pedal readings are published consistently", "statement": "Each sensing cycle publishes the two pedal channels, their raw values and the average from one and the same cycle; the average changes only when both channels were read successfully, and with the shipped calibration it always lies in [0,1].", "quantifier": "every sequence of sensing cycles, raw values and ADC failures", "why_tests_cant": "failure patterns across cycles are unbounded", "anchors": ["firmware/src/vcu/device/discretesense/discretesense.c: DiscreteSense_TaskMethod", "firmware/src/vcu/startup/initialize.c: mDiscreteSense"]}
{"id": "C28", "title": "Accelerator validity reflects current data", "statement": "The published 'accelerator valid' flag is true only while the accelerator value comes from the latest sensing cycle.", "quantifier": "every sequence of sensing cycles and ADC failures", "why_tests_cant": "needs failure after success histories", "anchors": ["firmware/src/vcu/device/discretesense/discretesense.c: DiscreteSense_TaskMethod"]}
{"id": "C29", "title": "PC frames survive the encode/decode round trip under any chunking", "statement": "A frame built by the encoder for any address, function and payload, delivered to the decoder in any number of pieces after any amount of non-frame noise, is recovered intact with its payload, address and function.", "quantifier": "every frame content and length, every split into chunks, every noise prefix that contains no complete valid frame overlapping it", "why_tests_cant": "chunkings and noise are unbounded", "anchors": ["firmware/src/system-lib/uart/msgframeencode.c", "firmware/src/system-lib/uart/msgframedecode.c"]}
{"id": "C30", "title": "The frame decoder accepts only genuine frames", "statement": "Every frame the decoder hands out lies completely inside bytes received, starts with ':', ends with CR LF, has the configured length and carries a matching CRC; frames handed out are disjoint and in reception order.", "quantifier": "every byte stream, every chunking, every call pattern", "why_tests_cant": "input streams are unbounded", "anchors": ["firmware/src/system-lib/uart/msgframedecode.c: MsgFrameDecode_RecvBytes, MsgFrameDecode_RecvMsg, verifyCrc"]}
{"id": "C31", "title": "The frame decoder never accesses memory outside its buffer", "statement": "Under every sequence of receive and decode calls all buffer accesses are inside the 1024-byte buffer, its cursors stay ordered, and bytes are refused rather than overwritten when there is no room.", "quantifier": "every call sequence and every configured frame length within the documented range", "why_tests_cant": "cursor arithmetic over unbounded call sequences", "anchors": ["firmware/src/system-lib/uart/msgframedecode.c"]}
{"id": "C32", "title": "Corrupted frames are rejected", "statement": "A frame in which any burst of up to 32 bits in the checked bytes, or any bits of the CRC field, or a delimiter was altered is not accepted.", "quantifier": "every frame content and length and every such error pattern", "why_tests_cant": "2^32 error patterns at every position of every frame", "anchors": ["firmware/src/system-lib/uart/msgframedecode.c: verifyCrc", "firmware/src/system-lib/crc/crc.c", "tools/ecu-config/decode_common.py: crc32mpeg2"]}
{"id": "C33", "title": "CRC service failure never validates a frame", "statement": "If the CRC could not be calculated the frame is not accepted.", "quantifier": "every frame and every pattern of CRC lock failures", "why_tests_cant": "needs a lock failure coinciding with a crafted frame", "anchors": ["firmware/src/system-lib/uart/msgframedecode.c: verifyCrc", "firmware/src/system-lib/crc/crc.c: CRC_Calculate"]}
{"id": "C34", "title": "PC commands act only when properly addressed and enabled", "statement": "A received byte stream causes an actuator change only through a complete valid 19-byte frame addressed to the ECU with a known function, only after control has been enabled, and exactly once per frame, in order.", "quantifier": "every byte stream and every chunking by the receive stream", "why_tests_cant": "streams and chunkings are unbounded", "anchors": ["firmware/src/vcu/device/pcinterface/requests.c: PCInterface_HandleRequests, handleMessage, handleMsgTestSdc, handleMsgTestPdm"]}
{"id": "C35", "title": "No PC frame is lost or starved by the request loop", "statement": "With at most eight bytes taken per iteration and one frame handled per iteration, every valid frame arriving back to back is handled and the decode buffer never fills up.", "quantifier": "every stream made of valid frames and noise, any length", "why_tests_cant": "needs unbounded streams", "anchors": ["firmware/src/vcu/device/pcinterface/requests.c: PCInterface_HandleRequests", "firmware/src/system-lib/uart/msgframedecode.c"]}
{"id": "C36", "title": "State broadcast tells the PC the true values", "statement": "Once a second each broadcast field, decoded by the PC side, equals the vehicle state's value for that field id at the snapshot.", "quantifier": "every vehicle state", "why_tests_cant": "all field values including float bit patterns", "anchors": ["firmware/src/vcu/device/pcinterface/periodicupdates.c", "firmware/src/vcu/device/pcinterface/fieldId.h"]}
{"id": "C37", "title": "Log text reaches the PC unaltered", "statement": "The concatenated non-padding payloads of log frames equal the bytes written to the log stream, in order, without loss, duplication or reordering.", "quantifier": "every log stream content and length", "why_tests_cant": "chunk boundaries at every length", "anchors": ["firmware/src/vcu/device/pcinterface/pcinterface.c: flushLogMessage", "firmware/src/system-lib/logging/logging.c: Log_Print"]}
{"id": "C38", "title": "Debug terminal executes each line exactly once with its own arguments", "statement": "Each newline-terminated command line sent to the debug terminal, in any chunking, is executed once with the words of that line as arguments.", "quantifier": "every sequence of lines and every chunking that fits the buffer", "why_tests_cant": "several lines in one chunk is one of many splits", "anchors": ["firmware/src/vcu/device/pcinterface/debugterm.c: processBuffer, processCommandStr, DebugTermRecv"]}
{"id": "C39", "title": "Debug terminal cannot corrupt memory", "statement": "No command line can write outside the argument table or the line buffer or dereference a null command.", "quantifier": "every command line", "why_tests_cant": "memory corruption is not observable by functional tests", "anchors": ["firmware/src/vcu/device/pcinterface/debugterm.c: processCommandStr", "firmware/src/vcu/device/pcinterface/debugtermcommands.c: cmd_help"]}
{"id": "C40", "title": "Terminal commands are all-or-nothing", "statement": "setpdm and setsdc either apply exactly the requested outputs or report an error and change nothing.", "quantifier": "every argument list", "why_tests_cant": "argument lists are unbounded", "anchors": ["firmware/src/vcu/device/pcinterface/debugtermcommands.c: cmd_setpdm, cmd_setsdc"]}
{"id": "C41", "title": "Wheel speed counts every tooth edge once", "statement": "The published count is the number of low-to-high edges in the sampled second and the published speed is 60*count/teeth RPM.", "quantifier": "every sample stream", "why_tests_cant": "edges at batch boundaries and 16-bit truncation", "anchors": ["firmware/src/vcu/device/wheelspeed/wheelspeed.c: countLowHighTransitions, calculateRpm, Wheelspeed_TaskMethod"]}
{"id": "C42", "title": "Wheel speed is refreshed once per second for ever", "statement": "Consecutive wheel-speed updates are always exactly 100 timer ticks apart.", "quantifier": "every uptime", "why_tests_cant": "the 16-bit counter wraps after eleven minutes", "anchors": ["firmware/src/vcu/device/wheelspeed/wheelspeed.c: Wheelspeed_TaskMethod"]}
{"id": "C43", "title": "Power channel pins and reported state agree", "statement": "After any sequence of power-channel calls each configured channel's pin equals the reported channel state and the last accepted request; rejected calls change neither, and no call touches another channel.", "quantifier": "every call sequence, channel number and lock failure pattern", "why_tests_cant": "call sequences are unbounded", "anchors": ["firmware/src/vcu/device/pdm/pdm.c: PDM_SetOutputEnabled, PDM_Init"]}
{"id": "C44", "title": "Shutdown-circuit inputs are reported faithfully", "statement": "Once the interrupt handler and the SDC task have run after the last pin change, the published shutdown-circuit state equals the pins; the ECU error output equals the last requested value.", "quantifier": "every history of pin changes, interrupts and task runs", "why_tests_cant": "interrupt/task interleavings are unbounded", "anchors": ["firmware/src/vcu/device/sdc/sdc.c"]}
{"id": "C45", "title": "CAN reception delivers each frame to exactly the interested drivers", "statement": "Each received frame is appended, in order, to every registered queue whose mask matches and that has room, and to no other; registration is refused beyond the capacity.", "quantifier": "every registration set and every frame sequence", "why_tests_cant": "masks and sequences are unbounded", "anchors": ["firmware/src/system-lib/can/can.c: HAL_CAN_RxFifo0MsgPendingCallback, CAN_RegisterQueue"]}
{"id": "C46", "title": "CAN transmission is FIFO and eventually completes", "statement": "Frames accepted for transmission are put on the bus in the order they were accepted, each exactly once, and a queued frame is sent once a mailbox is free.", "quantifier": "every sequence of sends and mailbox completions", "why_tests_cant": "orderings under load are unbounded", "anchors": ["firmware/src/system-lib/can/can.c: CAN_SendMessage, CAN_Config, HAL_CAN_TxMailbox0CompleteCallback"]}
{"id": "C47", "title": "UART transmission preserves the byte stream", "statement": "Bytes of accepted messages appear on the wire in order, unmodified and exactly once, as long as no error interrupt or failed DMA start occurs and the pending stream has room; no DMA transfer exceeds the 512-byte buffer.", "quantifier": "every sequence of sends and completion interrupts", "why_tests_cant": "interleavings are unbounded", "anchors": ["firmware/src/system-lib/uart/uart.c: UART_SendMessage, HAL_UART_TxCpltCallback"]}
{"id": "C48", "title": "UART accepted data is never lost or overtaken", "statement": "A message for which the UART driver returned OK is completely transmitted, before any later message, also when the line is busy or after a line error.", "quantifier": "every sequence of sends, completions and errors", "why_tests_cant": "needs rare error/overflow schedules", "anchors": ["firmware/src/system-lib/uart/uart.c: UART_SendMessage, HAL_UART_ErrorCallback, HAL_UART_TxCpltCallback"]}
{"id": "C49", "title": "Timer ticks wake exactly the registered tasks", "statement": "Each timer period notifies every registered task once and nobody else; registration order and count are preserved and the table never overflows.", "quantifier": "every sequence of registrations and ticks", "why_tests_cant": "unbounded call sequences", "anchors": ["firmware/src/system-lib/tasktimer/tasktimer.c"]}
{"id": "C50", "title": "Modules start only after what they depend on", "statement": "The boot sequence initialises every module after all modules it declares as dependencies; a module whose dependency is missing refuses to initialise, and module ids are unique.", "quantifier": "every order of initialisation calls; the shipped boot order", "why_tests_cant": "orders are factorially many", "anchors": ["firmware/src/system-lib/depends/depends.c", "firmware/src/system-lib/depends/depends.h", "firmware/src/vcu/startup/initialize.c"]}
{"id": "C51", "title": "GPS sentences are accepted only with a correct checksum and the published fix comes from one sentence", "statement": "The GPS position, time and fix in the vehicle state come from one complete sentence '$GPGGA,...*hh' whose XOR checksum matches.", "quantifier": "every received byte sequence", "why_tests_cant": "streams are unbounded", "anchors": ["firmware/src/system-lib/uart/nmeadecode.c", "firmware/src/vcu/device/gps/gps.c"]}
{"id": "C52", "title": "The GPS decoder decodes every valid sentence and stays inside its buffer", "statement": "A stream of valid sentences, however it is split, is decoded sentence by sentence with all accesses inside the buffer.", "quantifier": "every sentence sequence and chunking", "why_tests_cant": "cursor arithmetic over unbounded streams", "anchors": ["firmware/src/system-lib/uart/nmeadecode.c: NmeaDecode_Decode, tryDecode, NmeaDecode_AccumulateBytes"]}
{"id": "C53", "title": "UTC time fields are parsed exactly", "statement": "A time field hhmmss or hhmmss.sss is parsed to exactly those numbers and any other text is rejected.", "quantifier": "every 11-byte field", "why_tests_cant": "256^11 inputs", "anchors": ["firmware/src/system-lib/uart/nmeatypes.c: NmeaCharToUTCTime"]}
{"id": "C54", "title": "I2C transfers are mutually exclusive and complete before returning", "statement": "At most one transfer per bus is in progress, the bus is released on every path, and a call that returned OK has finished its transfer, with the caller's bytes written or the received bytes handed over.", "quantifier": "every interleaving of callers, completions and failures", "why_tests_cant": "interleavings are unbounded", "anchors": ["firmware/src/system-lib/i2c/i2c.c: I2C_Write, I2C_Read, I2C_Config"]}
{"id": "C55", "title": "SPI bus is always released", "statement": "After a transfer completes or fails to start the SPI bus is available again.", "quantifier": "every sequence of transfers and DMA failures", "why_tests_cant": "requires failure injection at every position", "anchors": ["firmware/src/system-lib/spi/spi.c: SPI_TransmitReceive, HAL_SPI_TxRxCpltCallback"]}
{"id": "C56", "title": "Status LED blinks with a fixed period and the dashboard indication is not disturbed", "statement": "The status LED toggles every 100 watchdog ticks, and the dashboard indication keeps the value last requested.", "quantifier": "every number of ticks and every interleaving with dashboard requests", "why_tests_cant": "interleavings are unbounded", "anchors": ["firmware/src/vcu/vehicleLogic/watchdogTrigger/watchdogTrigger.c", "firmware/src/vcu/device/dashboard_output/dashboard_output.c", "firmware/src/vcu/startup/initialize.c"]}
{"id": "C57", "title": "Fault monitor observes the live vehicle state", "statement": "After the shipped boot sequence the fault monitor reads its snapshots from the same vehicle state that the drivers update.", "quantifier": "the shipped initialisation; every later history", "why_tests_cant": "the pointer is only dereferenced on target; unit tests set it by hand", "anchors": ["firmware/src/vcu/vehicleLogic/stateManager/faultManager.c: FaultManager_Step", "firmware/src/vcu/vehicleLogic/stateManager/stateMachine.c: VSM_Init", "firmware/src/vcu/startup/initialize.c"]}
{"id": "C58", "title": "ECU error output follows the documented life cycle", "statement": "From the first control step the ECU error output is asserted; it is released only by the transition from LV_READY to HV_ACTIVE (or an explicit PC/debug command) and asserted again while in FAULT.", "quantifier": "every schedule and input history", "why_tests_cant": "histories are unbounded", "anchors": ["firmware/src/vcu/vehicleLogic/stateManager/stateMachine.c", "firmware/src/vcu/device/sdc/sdc.c", "firmware/src/vcu/device/pcinterface/requests.c"]}
{"id": "C59", "title": "Received UART bytes reach their consumer exactly once and in order", "statement": "Every byte received on a UART is delivered exactly once, and in the order of arrival, to the stream its consumer reads.", "quantifier": "every byte sequence, burst structure and interrupt timing", "why_tests_cant": "burst lengths and interrupt timings are unbounded, and the half-transfer interrupt exists only on the target", "anchors": ["firmware/src/system-lib/uart/uart.c: HAL_UARTEx_RxEventCallback", "firmware/src/cube-proj/Drivers/STM32F7xx_HAL_Driver/Src/stm32f7xx_hal_uart.c: UART_DMARxHalfCplt"]}
{"id": "C60", "title": "Every change of a shutdown-circuit input is reported", "statement": "When an input of the shutdown circuit changes, in either direction, the vehicle state shows the new level once interrupt handler and task have run, without waiting for another input to change.", "quantifier": "every history of pin levels and every schedule", "why_tests_cant": "unit tests call the handler by hand; on the target only configured edges do", "anchors": ["firmware/src/vcu/device/sdc/sdc.c", "firmware/src/cube-proj/Core/Src/main.c: MX_GPIO_Init", "firmware/src/vcu/startup/interrupts.c"]}
{"id": "C61", "title": "Interrupts during start-up are harmless", "statement": "A timer or pin interrupt that arrives at any point of the boot sequence does not make the program misbehave.", "quantifier": "every point of the boot sequence, every interrupt", "why_tests_cant": "interrupt points between any two instructions cannot be enumerated by tests", "anchors": ["firmware/src/vcu/startup/interrupts.c", "firmware/src/vcu/startup/initialize.c", "firmware/src/vcu/device/sdc/sdc.c: SDC_IRQHandler", "firmware/src/system-lib/tasktimer/tasktimer.c"]}
{"id": "C62", "title": "A failed start-up is visible", "statement": "If a step of the boot sequence fails, the ECU stops and its error output is asserted.", "quantifier": "every combination of hardware failures", "why_tests_cant": "34 independent failure points", "anchors": ["firmware/src/vcu/startup/initialize.c: ECU_Init_Error, TRY_INIT"]}
{"id": "C63", "title": "PC tool and ECU speak the same frame format", "statement": "What the PC tool encodes, the ECU decodes as the same address, function and payload; what the ECU encodes, the PC tool decodes likewise; both compute the same CRC for every byte string, and the PC refuses to encode a payload that is not bytes.", "quantifier": "every address, function, payload and chunking", "why_tests_cant": "two implementations in two languages; test vectors cover a handful of byte strings", "anchors": ["tools/ecu-config/decode_common.py: crc32mpeg2, try_decode", "tools/ecu-config/encode_common.py: encode_message", "firmware/src/system-lib/uart/msgframeencode.c", "firmware/src/system-lib/uart/msgframedecode.c", "firmware/src/system-lib/crc/crc.c"]}
{"id": "C64", "title": "The PC decoder finds every frame and invents none", "statement": "However the serial bytes are cut into reads, the fixed-length decoder of the PC tool reports the same messages; each reported message lies in the stream, and one with a correct CRC is a valid frame; every frame of its length on the line is reported.", "quantifier": "every byte stream and every way of cutting it into reads", "why_tests_cant": "the stream and its chunking are unbounded", "anchors": ["tools/ecu-config/decode_common.py"]}
{"id": "C65", "title": "A state broadcast shows on the PC terminal as sent", "statement": "After a broadcast of the ECU the PC viewer shows one update per field, with the field's name and the value in the vehicle state, however the bytes are cut into reads and whatever else is on the line.", "quantifier": "every vehicle state, every chunking, every other traffic", "why_tests_cant": "end-to-end over two programs with unbounded traffic", "anchors": ["firmware/src/vcu/device/pcinterface/periodicupdates.c", "tools/ecu-config/log_view.py", "tools/ecu-config/decode_common.py"]}
{"id": "C66", "title": "Log text shows on the PC terminal as written", "statement": "The concatenation of what the PC log viewer prints is the text written to the log, in order, apart from what is still in the ECU's buffer; the same for the simulated sender.", "quantifier": "every sequence of log writes and flushes, every chunking", "why_tests_cant": "histories are unbounded", "anchors": ["firmware/src/vcu/device/pcinterface/periodicupdates.c", "firmware/src/vcu/device/pcinterface/pcinterface.c", "tools/ecu-config/log_view.py", "tools/ecu-config/sim-server.py: create_log_msgs"]}
{"id": "C67", "title": "The variable-length PC decoder reports exactly the valid frames", "statement": "Every message reported is a valid frame of the stream, in order; a complete frame is reported once its last byte has been read.", "quantifier": "every byte stream and chunking", "why_tests_cant": "the stream is unbounded", "anchors": ["tools/ecu-config/decode_common.py"]}
{"id": "C68", "title": "FAULT is entered only for a cause", "statement": "The vehicle enters FAULT only when the fault monitor reports a fault, or a low-voltage error after start-up, or when the inverter is seen not ready after pre-charge has lasted longer than the configured time. A step that cannot read the vehicle state does not move the vehicle.", "quantifier": "every history of control steps", "why_tests_cant": "spurious faults stop the car; absence over all histories cannot be tested", "anchors": ["firmware/src/vcu/vehicleLogic/stateManager/stateMachine.c"]}
{"id": "C69", "title": "The torque frames follow the pedal", "statement": "Every frame that asks the inverter for torque asks for what the calibrated curve gives at the pedal position read in the same activation of the throttle task; when driving, every undisturbed activation sends it; when the pedal could not be read, or outside driving, no torque is asked for.", "quantifier": "every schedule of the two tasks, every pedal value including NaN", "why_tests_cant": "schedules and float values cannot be enumerated", "anchors": ["firmware/src/vcu/vehicleLogic/throttleController/throttleController.c", "firmware/src/vcu/vehicleInterface/vehicleControl/vehicleControl.c", "firmware/src/vcu/device/inverter/cInverter.c"]}
{"id": "C71", "title": "Locks are used consistently and never block for ever", "statement": "No task gives back a lock it does not hold, two tasks never hold the same lock, the shared data behind a lock (vehicle state, inverter command data, CRC unit, log, throttle flags) is only touched by its holder, a holder gives the lock back after a bounded number of its own steps, a task waiting for its next tick holds nothing, and there is no deadlock: every task can always reach the end of its round.", "quantifier": "every interleaving of the eleven tasks and every outcome of their branches", "why_tests_cant": "interleavings cannot be enumerated and a host test has no scheduler", "anchors": ["firmware/src/vcu/vehicleInterface/vehicleState/vehicleState.c", "firmware/src/vcu/vehicleLogic/throttleController/throttleController.c", "firmware/src/vcu/device/inverter/cInverter.c", "firmware/src/vcu/vehicleLogic/stateManager/stateMachine.c", "firmware/src/system-lib/logging/logging.c", "firmware/src/system-lib/crc/crc.c"]}
{"id": "C72", "title": "Frames of different tasks stay apart on the inverter's bus", "statement": "Each frame that appears on the inverter's CAN bus is exactly a frame that some task asked to send, and each frame a task was told is accepted is sent, fails on the bus, or is still waiting: frames of different tasks are never mixed, duplicated or lost.", "quantifier": "every interleaving of the sending tasks with each other and with the bus, every frame content", "why_tests_cant": "a mix-up needs a task switch between two particular register writes", "anchors": ["firmware/src/system-lib/can/can.c", "firmware/src/vcu/device/pcinterface/pcinterface.c", "firmware/src/vcu/device/inverter/cInverter.c", "firmware/src/vcu/startup/initialize.c"]}
{"id": "C70", "title": "Log messages reach the PC, above all at start-up", "statement": "A log message is appended to the log text up to 512 characters and as far as there is room, without reading outside the message. Every message of the start-up sequence reaches the PC complete and in order, and when the start-up fails the PC is told which module failed.", "quantifier": "every message memory content, every combination of failing checks, every schedule during and after start-up", "why_tests_cant": "needs the scheduler, the full start-up sequence and all failure combinations together", "anchors": ["firmware/src/system-lib/logging/logging.c", "firmware/src/vcu/startup/initialize.c", "firmware/src/vcu/startup/welcomemsg.c", "firmware/src/vcu/device/pcinterface/pcinterface.c: PCInterface_Init, flushLogMessage"]}
{"id": "C73", "title": "Start-up comes first, and tasks run by priority", "statement": "No task runs before the start-up sequence has completed, none runs after a failed start-up, and a task runs only if no ready task has asked for a higher priority.", "quantifier": "every schedule the kernel allows, every combination of failing checks", "why_tests_cant": "depends on the kernel's configuration and on schedules that a host test does not have", "anchors": ["firmware/src/vcu/startup/initialize.c", "firmware/src/cube-proj/Core/Inc/FreeRTOSConfig.h: configMAX_PRIORITIES", "firmware/src/cube-proj/Lib/FreeRTOS/Source/tasks.c: prvInitialiseNewTask", "firmware/src/vcu/device/bms/bms.h: BMS_TASK_PRIORITY", "firmware/src/vcu/device/wheelspeed/wheelspeed.h: WHEELSPEED_TASK_PRIORITY"]}
{"id": "C74", "title": "A stream buffer is a queue", "statement": "With one sender and one receiver running in any interleaving, the bytes a stream buffer reports as stored come out once, in order and unaltered; a send stores at least what fitted when it began, a receive returns at least what was there; every call ends, none reads or writes outside the buffer, and none stops the controller.", "quantifier": "every buffer size from 2, every sequence of sends and receives of any data, every interleaving of the single memory accesses", "why_tests_cant": "the interleavings of sender and receiver accesses are unbounded, and wrap-around can fall anywhere", "anchors": ["firmware/src/cube-proj/Lib/FreeRTOS/Source/stream_buffer.c: xStreamBufferSend, xStreamBufferSendFromISR, xStreamBufferReceive, prvWriteBytesToBuffer, prvReadBytesFromBuffer, xStreamBufferSpacesAvailable", "firmware/src/cube-proj/Core/Inc/FreeRTOSConfig.h: configASSERT"]}
{"id": "C75", "title": "Commands from both PC ports arrive", "statement": "The bytes received on either of the two PC serial ports reach the command decoder, each port's bytes in order, and a complete valid command sent on one port is executed whatever arrives on the other.", "quantifier": "every sequence of reception interrupts of both ports, every nesting the interrupt priorities allow", "why_tests_cant": "needs interrupts of different priority writing to one stream at every point of each other's execution", "anchors": ["firmware/src/system-lib/uart/uart.c: HAL_UARTEx_RxEventCallback", "firmware/src/vcu/device/pcinterface/pcinterface.c: PCInterface_Init", "firmware/src/cube-proj/Core/Src/main.c: MX_DMA_Init", "firmware/src/cube-proj/Core/Src/stm32f7xx_hal_msp.c: HAL_UART_MspInit"]}
{"id": "C76", "title": "Interrupt priorities never let the kernel be corrupted", "statement": "No interrupt handler that uses a kernel service can preempt a task or handler that is inside the kernel; no handler trips the kernel's priority assertion; the interrupt mask is on exactly while the kernel is in use; and handlers nest at most five deep.", "quantifier": "every sequence of task kernel calls, interrupts and processor steps, and every assignment of priorities", "why_tests_cant": "the preemption can happen between any two instructions, in unbounded combinations of interrupts", "anchors": ["firmware/src/cube-proj/Core/Inc/FreeRTOSConfig.h: configMAX_SYSCALL_INTERRUPT_PRIORITY", "firmware/src/cube-proj/Core/Src/stm32f7xx_hal_msp.c: HAL_CAN_MspInit, HAL_UART_MspInit, HAL_TIM_Base_MspInit", "firmware/src/cube-proj/Core/Src/main.c: MX_DMA_Init, MX_GPIO_Init", "firmware/src/cube-proj/Core/Src/stm32f7xx_it.c", "firmware/src/cube-proj/Lib/FreeRTOS/Source/portable/GCC/ARM_CM7/r0p1/port.c: vPortEnterCritical, vPortExitCritical, vPortValidateInterruptPriority"]}
{"id": "C77", "title": "An interrupt during start-up does no harm", "statement": "An interrupt that arrives at any point of a module's initialisation or of later registrations never uses an uninitialised pointer, index or kernel object.", "quantifier": "every position of interrupts among the stores of the initialisation, every number of registered tasks and queues, every pin level", "why_tests_cant": "the interrupt may fall between any two stores of the initialisation", "anchors": ["firmware/src/vcu/device/sdc/sdc.c: SDC_Init, SDC_IRQHandler", "firmware/src/system-lib/tasktimer/tasktimer.c: TaskTimer_Init, TaskTimer_RegisterTask, TaskTimer_TIM_PeriodElapsedCallback", "firmware/src/vcu/device/wheelspeed/wheelspeed.c", "firmware/src/system-lib/uart/uart.c", "firmware/src/system-lib/can/can.c", "firmware/src/system-lib/adc/adc.c", "firmware/src/cube-proj/Core/Src/main.c: MX_GPIO_Init, main"]}
{"id": "C78", "title": "The timers run at the rates the firmware relies on", "statement": "In any second of running time the task timer interrupts exactly 100 times, the HAL time base 1000 times and the wheel sensor sampling timer 2000 times, so that one batch of the wheel speed task is one second.", "quantifier": "every number of clock cycles and every second of running time, every timer set-up, every wheel sensor signal", "why_tests_cant": "a rate is a statement about every window of an unbounded run, and the host tests have no timers", "anchors": ["firmware/src/cube-proj/Core/Src/main.c: SystemClock_Config, MX_TIM2_Init, MX_TIM3_Init", "firmware/src/cube-proj/Core/Src/stm32f7xx_hal_timebase_tim.c: HAL_InitTick", "firmware/src/system-lib/tasktimer/tasktimer.c: TaskTimer_Init", "firmware/src/vcu/device/wheelspeed/wheelspeed.c"]}
{"id": "C79", "title": "Peripherals are configured with their clock on", "statement": "No peripheral register is written during start-up before the clock of that peripheral is on, so that every setting asked for takes effect.", "quantifier": "every order, repetition and omission of the initialisation functions", "why_tests_cant": "host tests have no clock gating; a lost register write is silent on the target", "anchors": ["firmware/src/cube-proj/Core/Src/main.c: main, MX_DMA_Init", "firmware/src/cube-proj/Core/Src/stm32f7xx_hal_msp.c: HAL_ADC_MspInit, HAL_UART_MspInit, HAL_I2C_MspInit"]}
{"id": "C80", "title": "An ADC reading is a conversion of its channel", "statement": "A successful ADC reading of a channel is a value the converter measured on that channel in the last completed scan, for as long as the controller runs; in particular the published pedal and brake values follow the sensors.", "quantifier": "every sequence of conversions and served interrupts, every DMA configuration, every channel", "why_tests_cant": "host tests replace the converter and the DMA by a filled array; the transfer width and the number of transfers are hardware behaviour over an unbounded run", "anchors": ["firmware/src/cube-proj/Core/Src/main.c: MX_ADC1_Init", "firmware/src/cube-proj/Core/Src/stm32f7xx_hal_msp.c: HAL_ADC_MspInit", "firmware/src/system-lib/adc/adc.c: ADC_Init, HAL_ADC_ConvHalfCpltCallback, HAL_ADC_ConvCpltCallback, ADC_Get", "firmware/src/vcu/device/discretesense/discretesense.c"]}
{"id": "C81", "title": "A configured CAN bus receives every frame", "statement": "Once a bus has been configured successfully, every frame on it, standard or extended, reaches the driver, whatever other buses are configured and in whatever order.", "quantifier": "every sequence of configuration calls, every frame", "why_tests_cant": "the buses share filter hardware that host tests do not have, and the number of orders and frames is unbounded", "anchors": ["firmware/src/system-lib/can/can.c: CAN_Config", "firmware/src/vcu/startup/initialize.c", "firmware/src/cube-proj/Drivers/STM32F7xx_HAL_Driver/Src/stm32f7xx_hal_can.c: HAL_CAN_ConfigFilter, HAL_CAN_Start"]}
{"id": "C82", "title": "A disturbed CAN bus recovers", "statement": "Whatever disturbances occur on a CAN bus, once they end the controller sends and receives on it again, and while it cannot, senders are told so.", "quantifier": "every sequence of sends, transmissions, failures of each kind, receptions, errors and bus idle times", "why_tests_cant": "needs a disturbed bus and error counters over an unbounded run; host tests have no bus", "anchors": ["firmware/src/cube-proj/Core/Src/main.c: MX_CAN1_Init, MX_CAN2_Init, MX_CAN3_Init", "firmware/src/system-lib/can/can.c: CAN_SendMessage, CAN_Config"]}
{"id": "C83", "title": "Serial ports run at the rate their partners use", "statement": "Any sequence of bytes sent on a serial line, with any pauses, is received bit for bit as sent by a partner whose clock is within 2.5 % of the nominal rate, in both directions, whatever the phase of the clocks.", "quantifier": "every byte sequence and spacing, every clock deviation and phase within the tolerance", "why_tests_cant": "clock ratios and phases form a continuum, and host tests have no line", "anchors": ["firmware/src/cube-proj/Core/Src/main.c: SystemClock_Config, MX_USART1_UART_Init, MX_USART3_UART_Init, MX_USART6_UART_Init", "firmware/src/cube-proj/Drivers/STM32F7xx_HAL_Driver/Src/stm32f7xx_hal_uart.c: UART_SetConfig", "tools/ecu-config/log_view.py: BAUD_RATE"]}
{"id": "C84", "title": "The serial ports move bytes", "statement": "After start-up the bytes of an accepted message appear on the line, and received bytes reach their stream, on each of the three serial ports.", "quantifier": "every order of the initialisation functions, every sequence of messages, bytes and interrupts", "why_tests_cant": "depends on whether the DMA streams were configured with their clock on, which host tests do not have", "anchors": ["firmware/src/cube-proj/Core/Src/main.c: main, MX_DMA_Init", "firmware/src/cube-proj/Core/Src/stm32f7xx_hal_msp.c: HAL_UART_MspInit", "firmware/src/system-lib/uart/uart.c: UART_SendMessage, UART_Config"]}
{"id": "C85", "title": "Output pins do not disturb each other", "statement": "The level of an output pin after any run is the one given by the write and toggle calls made on that pin alone. Calls on other pins, of the same port or of another, never change it, wherever tasks preempt each other, also in the middle of a toggle. A pin used by one task only always has the level that task's finished calls give. The shipped outputs (six power channels, status LED, debug pin, controller error output) are nine different pins and start low.", "quantifier": "all pins, all sets of tasks with any sequences of write and toggle calls, all interleavings of the individual register accesses, all initial port values", "why_tests_cant": "The toggle reads the whole port and writes it back in a second access; a wrong read-modify-write would corrupt neighbours only when a preemption falls between the two accesses.", "anchors": ["firmware/src/system-lib/gpio/gpio.c: GPIO_WritePin, GPIO_TogglePin", "firmware/src/vcu/vehicleInterface/config/deviceMapping.c: pdmChannels, Mapping_GPO_LED, Mapping_GPO_DebugToggle, Mapping_GPO_SDC_ECUError", "firmware/src/cube-proj/Core/Src/main.c: MX_GPIO_Init"]}
{"id": "C86", "title": "Date and time are set and read as one value", "statement": "A date and time that was set is read back, advanced by the seconds that have passed, and every read gives a date and a time that belong to the same instant.", "quantifier": "all valid dates and times, all delays inside and between the calls, all numbers of readers", "why_tests_cant": "The failures need a midnight, or a second reader, between two register accesses a few microseconds apart.", "anchors": ["firmware/src/system-lib/rtc/rtc.c: RTC_SetDateTime, RTC_GetDateTime", "firmware/src/cube-proj/Drivers/STM32F7xx_HAL_Driver/Src/stm32f7xx_hal_rtc.c: HAL_RTC_SetTime, HAL_RTC_GetTime, HAL_RTC_SetDate, HAL_RTC_GetDate"]}
{"id": "C87", "title": "The text made of received GPS data stays inside its buffer", "statement": "For every chunk the GPS task can receive, whatever its bytes, building the debug text writes only inside the task's buffer, and the text is the heading, the received bytes and a newline.", "quantifier": "all chunks of up to 2048 bytes with any contents, including zero bytes", "why_tests_cant": "The code passes the same size limit for every append, so nothing but the arithmetic over all chunk lengths shows that the end of the buffer is not passed.", "anchors": ["firmware/src/vcu/device/gps/gps.c: GPS_TaskMethod"]}
{"id": "C88", "title": "While an SPI bus is clocked exactly the addressed device is selected", "statement": "While data moves on an SPI bus, by DMA or by the blocking call, the device it is meant for is selected and no other device on that bus is; blocking calls are made one at a time, move at most 16 bytes, release everything when they return and report what happened.", "quantifier": "every number of tasks and devices, every interleaving of blocking calls, DMA transfers and their completions, every answer of the HAL", "why_tests_cant": "selecting two devices needs two tasks at the wrong moment", "anchors": ["firmware/src/system-lib/spi/spi.c: SPI_TransmitReceiveBlocking, SPI_TransmitReceive", "firmware/src/system-lib/spi/spi.h"]}
{"id": "C89", "title": "The inverter is told what the controller decided", "statement": "Every frame on the inverter's bus is a command that the throttle controller or the state manager gave and the CAN driver accepted, each at most once and in the order given; when the bus is free all of them appear, and after driving has ended the last command the inverter has received is zero torque.", "quantifier": "all interleavings of the state-manager task, the throttle task, PC commands and the bus controller, all pedal readings, all failed or delayed transmissions", "why_tests_cant": "The order on the bus depends on which mailbox is free when, which needs an unlucky interleaving of two tasks and the controller.", "anchors": ["firmware/src/vcu/device/inverter/cInverter.c: SendCANCommand, CInverter_SendTorqueCommand, CInverter_SendInverterEnabled", "firmware/src/system-lib/can/can.c: CAN_SendMessage", "firmware/src/vcu/vehicleLogic/throttleController/throttleController.c: ThrottleController_Task", "firmware/src/cube-proj/Core/Src/main.c: MX_CAN1_Init"]}
{"id": "C90", "title": "A stopped processor or a hung task leaves the vehicle safe", "statement": "When the processor ends in a fault handler or a failed assertion, or a critical task hangs, the ECU error output is asserted and the inverter is not told to drive any more (README, Special Faults and Soft Watchdog).", "quantifier": "all schedules, all moments at which the processor stops or a task stops running, all pedal readings afterwards", "why_tests_cant": "The moment of the stop and what the bus controller does after it range over every reachable state; unit tests exercise single modules that do not hang.", "anchors": ["firmware/src/cube-proj/Core/Src/stm32f7xx_it.c: HardFault_Handler, MemManage_Handler, BusFault_Handler, UsageFault_Handler", "firmware/src/cube-proj/Core/Src/main.c: Error_Handler", "firmware/src/vcu/vehicleLogic/watchdogTrigger/watchdogTrigger.c: WatchdogTrigger", "README.md: Special Faults, Soft Watchdog"]}
{"id": "C91", "title": "A lasting fault stops the drive within a fixed time", "statement": "Once a fault condition is present in every snapshot of the vehicle state, then after the configured tolerance plus three periods of the 10 ms timer no frame asks the inverter for torque any more and the ECU error output is asserted, whatever the order in which the control tasks run.", "quantifier": "all configurations with tolerances below 65535 steps, all prior histories, all fault kinds, all interleavings of timer ticks, state-manager work, throttle work and PC commands", "why_tests_cant": "The bound is in real time over every interleaving of two tasks with the timer and over every prior history; a test calls one step at a time and cannot show that wake-ups are neither lost nor late.", "anchors": ["firmware/src/vcu/vehicleLogic/stateManager/vehicleStateManager.c: StateManagerProcessing", "firmware/src/vcu/vehicleLogic/throttleController/throttleController.c: ThrottleController", "firmware/src/system-lib/tasktimer/tasktimer.c: TaskTimer_TIM_PeriodElapsedCallback", "firmware/src/vcu/vehicleLogic/stateManager/faultManager.c: FaultManager_Step", "firmware/src/vcu/vehicleLogic/stateManager/stateMachine.c: VSM_Step"]}
{"id": "C92", "title": "Control tasks use the readings of the current period", "statement": "Whenever a control task reads the vehicle state in an activation started by a timer tick, the pedal, brake and button values it finds come from a cycle of the sensing task that began at that tick or later, never from an earlier period (README, RTOS Tasks and Priorities: the latest sensor data is available to the logical tasks).", "quantifier": "all interleavings of timer ticks, other notifications and actions of the ten tasks that fixed-priority preemption with priority inheritance allows, all readings and ADC failures", "why_tests_cant": "Staleness depends on where ticks fall relative to the critical sections of all tasks; unit tests call one task body at a time and have no scheduler.", "anchors": ["firmware/src/vcu/device/discretesense/discretesense.c: DiscreteSense_TaskMethod", "firmware/src/vcu/vehicleLogic/throttleController/throttleController.c: ThrottleController", "firmware/src/vcu/vehicleLogic/stateManager/vehicleStateManager.c: StateManagerProcessing", "firmware/src/vcu/vehicleInterface/vehicleState/vehicleState.c: VehicleState_AccessAcquire, VehicleState_CopyState", "firmware/src/system-lib/tasktimer/tasktimer.c: TaskTimer_TIM_PeriodElapsedCallback", "README.md: RTOS Tasks and Priorities"]}
{"id": "C93", "title": "The driver starts the vehicle and is shown its state", "statement": "After power on, the driver needs only brake and button: the ECU supplies inverter, battery management, sensors and dashboard through its power channels, and the dashboard LED shows the state the vehicle is in; a fault takes the supply from the inverter (README, Starting vehicle & moving into drive state, Special Faults).", "quantifier": "all histories of control-task work, PC requests, lock failures and watchdog activations from power-up", "why_tests_cant": "That no component ever switches an output is a statement about every reachable state of all tasks together; unit tests mock the outputs of one module.", "anchors": ["firmware/src/vcu/vehicleInterface/vehicleControl/vehicleControl.c: VehicleControl_SetPowerChannel, VehicleControl_SetDash", "firmware/src/vcu/device/pdm/pdm.c: PDM_SetOutputEnabled", "firmware/src/vcu/vehicleLogic/stateManager/stateMachine.c: VSM_Step", "firmware/src/vcu/vehicleLogic/watchdogTrigger/watchdogTrigger.c: WatchdogTrigger", "firmware/src/vcu/device/pcinterface/requests.c: handleMsgTestPdm", "README.md: User Journeys"]}
{"id": "C94", "title": "From the pedal sensors to the torque request", "statement": "Every frame that asks the inverter for torque carries the torque of the pedal position that both sensors showed at or after the timer tick that started the present activation of the throttle task; with the pedal below a tenth of its travel no frame asks for torque, whatever was measured before; and when the sensor readings themselves show a fault condition from some tick on, then, as long as the control tasks finish within each period, no frame asks for torque and the error output is on after the configured tolerance plus three ticks, for good.", "quantifier": "all interleavings of timer ticks, notifications and actions of the ten tasks that fixed-priority preemption with priority inheritance allows, together with all steps of throttle task, state manager and PC requests; all sensor readings; all configurations with sensible calibrations", "why_tests_cant": "The chain runs through three tasks, a mutex and the kernel; whether the value in a frame belongs to the present period depends on every possible interleaving, and the stopping time on every history of readings.", "anchors": ["firmware/src/vcu/device/discretesense/discretesense.c: DiscreteSense_TaskMethod", "firmware/src/vcu/vehicleLogic/throttleController/throttleController.c: ThrottleController", "firmware/src/vcu/vehicleLogic/stateManager/stateMachine.c: VSM_Step", "firmware/src/vcu/vehicleLogic/stateManager/faultManager.c: FaultManager_Step", "firmware/src/vcu/device/inverter/cInverter.c: CInverter_SendTorqueCommand", "firmware/src/system-lib/tasktimer/tasktimer.c: TaskTimer_TIM_PeriodElapsedCallback", "firmware/src/system-lib/adc/adc.c: ADC_Get"]}
{"id": "C95", "title": "A battery report on the CAN bus stops the drive", "statement": "When, after the start-up check, a battery message arrives whose values meet a fault condition (hot cell, high cell voltage, high current, low charge) and the battery does not take it back, then, as long as the battery task and the control tasks finish within each period, no frame asks for torque and the error output is on after the configured tolerance plus four ticks, for good; the message is not lost as long as fewer than 256 frames of that bus arrive in two periods.", "quantifier": "all frames and frame contents on both buses, all interleavings of receive interrupts, timer ticks and actions of the ten tasks that fixed-priority preemption with priority inheritance allows, all configurations", "why_tests_cant": "The message crosses an interrupt, a bounded queue, three tasks and a mutex; the time until torque stops depends on where in the period it arrives and on everything else in the queue.", "anchors": ["firmware/src/system-lib/can/can.c: ISR_RxMsgPending", "firmware/src/vcu/device/bms/orionBms.c: BMSProcessing", "firmware/src/vcu/vehicleLogic/stateManager/faultManager.c: FaultManager_Step", "firmware/src/vcu/vehicleLogic/stateManager/stateMachine.c: VSM_Step", "firmware/src/vcu/vehicleLogic/throttleController/throttleController.c: ThrottleController"]}
{"id": "C96", "title": "A battery or inverter that falls silent is noticed", "statement": "When no message of the battery (or of the inverter) arrives for longer than the CAN time-out configured for it, the drive stops asking for torque.", "quantifier": "all configured time-outs, all lengths of the silence, all interleavings of interrupts, ticks and tasks, all other traffic", "why_tests_cant": "An absence of messages is a property of whole histories: a test sees one pattern of traffic and one length of silence.", "anchors": ["firmware/src/vcu/vehicleInterface/config/configData.h: canTimeout", "firmware/src/vcu/device/bms/orionBms.c: BMSProcessing", "firmware/src/vcu/device/inverter/cInverter.c: InverterProcessing", "firmware/src/vcu/vehicleLogic/stateManager/faultManager.c: FaultManager_Step"]}
{"id": "C97", "title": "Kernel queues and semaphores: order, bounds and wake-ups under any interleaving", "statement": "Items received from a queue are the items sent, in the order in which they were sent, none lost, none twice, and never more than the queue's length are held; nothing outside the queue's storage is read or written. A call from an interrupt, or from a task that does not wait, succeeds exactly when there is room (respectively an item) and otherwise answers full (empty) at once. A task that waits for room or for an item is not forgotten: whenever there is room (an item) and the scheduler runs, some task that is not asleep is in the middle of the same kind of call and succeeds at its next step. Among the sleeping tasks one of the highest priority is woken first. This holds for queues of up to 127 items; queues that are only used without waiting never put a task to sleep, whatever their length.", "quantifier": "all queue lengths and item sizes that fit the address space, all histories of calls from any number of tasks and interrupts, interleaved between any two critical sections, all time-outs, all priorities", "why_tests_cant": "A lost wake-up needs an interrupt between two particular critical sections of a call that waits; the ring's order must hold for every history of wrap-arounds.", "anchors": ["firmware/src/cube-proj/Lib/FreeRTOS/Source/queue.c: xQueueGenericSend, xQueueReceive, xQueueGenericSendFromISR, xQueueReceiveFromISR, prvUnlockQueue", "firmware/src/cube-proj/Lib/FreeRTOS/Source/tasks.c: vTaskPlaceOnEventList, xTaskRemoveFromEventList", "firmware/src/system-lib/can/can.c: CAN_SendMessage, HAL_CAN_RxFifo0MsgPendingCallback"]}
{"id": "C98", "title": "Kernel time: delays, time-outs and wake-ups across the wrap of the tick count", "statement": "A task that sleeps for n ticks is ready after exactly n ticks, not earlier and not later, unless an event wakes it, whenever the 32-bit tick count wraps and however often; a wait with portMAX_DELAY is ended only by an event. Ticks and events that arrive while the scheduler is suspended are not lost: they take effect when it runs again. A call that waits at most n ticks reports a time-out exactly when n ticks have passed since it began, as long as its looks at the clock are less than 2^32 ticks apart. No assertion of the kernel's tick handler can fail.", "quantifier": "all initial tick counts, all histories of sleeping tasks, events, ticks and (nested) suspensions of the scheduler, any number of tasks and of wraps of the tick count; all time-outs and all patterns of looks at the clock", "why_tests_cant": "The tick count wraps after 49.7 days; a test would have to run that long with delays that end around the wrap, in every order.", "anchors": ["firmware/src/cube-proj/Lib/FreeRTOS/Source/tasks.c: xTaskIncrementTick, prvAddCurrentTaskToDelayedList, xTaskResumeAll, xTaskRemoveFromEventList, xTaskCheckForTimeOut", "firmware/src/cube-proj/Lib/FreeRTOS/Source/list.c: vListInsert", "firmware/src/system-lib/logging/logging.c: Log_Print", "firmware/src/system-lib/uart/uart.c: UART_SendMessage"]}
{"id": "C99", "title": "Kernel mutexes: one owner, and no lasting priority inversion", "statement": "A mutex is taken only when nobody has it and given back only by its owner. The owner runs with at least the priority of every task that waits for the mutex, so while it is able to run no task less important than a waiting one gets the processor, except to finish with another mutex that such a task needs. A task has its own priority again as soon as no task that raised it is in the middle of taking its mutex, also when that task gave up after a time-out. When the mutex is given back the most important waiting task is woken, and whoever takes it is at least as important as those still waiting. The running task is always one of the most important tasks able to run, and no assertion of the kernel fails. All this holds when tasks take one mutex at a time, as the firmware's tasks do (C71).", "quantifier": "all numbers of tasks and mutexes, all priorities, all histories of takes with and without time-outs, gives, blocking, wake-ups, time-outs and task switches, interleaved between any two critical sections of the calls", "why_tests_cant": "Priority inversion needs three tasks and a switch between two particular critical sections; a time-out that races with the give is a matter of single instructions.", "anchors": ["firmware/src/cube-proj/Lib/FreeRTOS/Source/queue.c: xQueueSemaphoreTake, xQueueGenericSend, prvGetDisinheritPriorityAfterTimeout", "firmware/src/cube-proj/Lib/FreeRTOS/Source/tasks.c: xTaskPriorityInherit, xTaskPriorityDisinherit, vTaskPriorityDisinheritAfterTimeout, vTaskSwitchContext", "firmware/src/vcu/vehicleInterface/vehicleState/vehicleState.c: VehicleState_AccessAcquire"]}
{"id": "C100", "title": "The dashboard button alone starts and stops the drive", "statement": "From power-up, no high voltage is requested and no frame enables the inverter before the sensing task has published the button pressed, and no frame asks for torque before it has published it pressed, then released, then pressed again. A button that is stuck in either position therefore never makes the car drive. Standing in neutral, the vehicle asks for no torque while the button is published released, whatever the pedal does. While driving, once the published button is pressed and stays so, no frame asks for torque after three ticks of the timer.", "quantifier": "every configuration, every schedule of all tasks under the kernel's priorities, every sequence of sensor readings, any history since power-up", "why_tests_cant": "The claim is about all histories: the button passes through two tasks, a shared state and a mutex, and a glitch in any interleaving could count as a press.", "anchors": ["firmware/src/vcu/vehicleLogic/stateManager/stateMachine.c: stateLvReady, stateActiveNeutral, stateActiveForward", "firmware/src/vcu/vehicleLogic/throttleController/throttleController.c: ThrottleController", "firmware/src/vcu/device/discretesense/discretesense.c: DiscreteSense_TaskMethod", "firmware/src/vcu/device/inverter/cInverter.c: CInverter_SendTorqueCommand, CInverter_SendInverterEnabled"]}
{"id": "C101", "title": "No tick of the timer is lost", "statement": "Every notification that the 100 Hz timer or another interrupt gives to a task is reported to it exactly once, also when it comes while the task runs, waits on a serial port or a stream, or while the scheduler is suspended; a task sleeps only while nothing is outstanding and its time is not up, a wait that reports nothing has lasted its whole time, and no wait lasts longer than its time once the task gets the processor.", "quantifier": "every history of waits, notifications, ticks, suspensions of the scheduler and stream traffic in any interleaving, at most 2^32-1 notifications outstanding", "why_tests_cant": "a lost wake-up needs an interrupt in the few instructions between looking at the count and going to sleep", "anchors": ["firmware/src/cube-proj/Lib/FreeRTOS/Source/tasks.c: ulTaskNotifyTake, vTaskNotifyGiveFromISR, xTaskNotifyWait, xTaskGenericNotify, xTaskNotifyStateClear", "firmware/src/system-lib/tasktimer/tasktimer.c: TaskTimer_TIM_PeriodElapsedCallback"]}
{"id": "C102", "title": "A wait on a stream ends when there is something to do", "statement": "A task that waits for bytes of a stream is woken when bytes are stored, and gets nothing only after its whole waiting time; a serial send that waits for room goes on as soon as the port has sent enough bytes, and is cut only after its whole waiting time; no wait lasts longer than its time once the task gets the processor.", "quantifier": "every history of sends, receives, notifications, ticks and suspensions of the scheduler, every interleaving", "why_tests_cant": "needs the sender between any two steps of the waiting call, and the interaction with an interrupt that the caller has disabled", "anchors": ["firmware/src/cube-proj/Lib/FreeRTOS/Source/stream_buffer.c: xStreamBufferSend, xStreamBufferReceive, sbSEND_COMPLETE_FROM_ISR, sbRECEIVE_COMPLETED_FROM_ISR", "firmware/src/system-lib/uart/uart.c: UART_SendMessage, HAL_UART_TxCpltCallback", "firmware/src/vcu/device/gps/gps.c: GPS_TaskMethod"]}
{"id": "C103", "title": "The inverter is commanded once in every timer period", "statement": "Once the inverter has been enabled, every 10 ms timer period brings exactly one torque command for it, which keeps it enabled and is within its limits, as long as the throttle task finishes before the next tick; in no run are there more commands, or more frames that ask for torque, than timer ticks.", "quantifier": "every run of timer ticks, task actions allowed by the kernel, sensor readings, faults and state changes; every number of periods", "why_tests_cant": "the claim is about every interleaving of the tasks over an unbounded number of periods; a test sees one activation of the throttle task", "anchors": ["firmware/src/vcu/vehicleLogic/throttleController/throttleController.c: ThrottleController", "firmware/src/vcu/device/inverter/cInverter.c: CInverter_SendTorqueCommand, CInverter_SendInverterEnabled", "firmware/src/system-lib/tasktimer/tasktimer.c: TaskTimer_TIM_PeriodElapsedCallback"]}
{"id": "C104", "title": "In the drive state the pedal is answered within the same period", "statement": "While the machine stays in the drive state, every torque command, also one of no torque, holds the torque the calibrated curve gives for a pedal position measured after the timer tick that started the activation; so if the pedal is at one position in a period, that period's single command asks for the torque of that position, and if it is let go (below a tenth of its way) the command asks for none.", "quantifier": "every run of timer ticks, task actions allowed by the kernel and sensor readings with the machine in the drive state; every calibration", "why_tests_cant": "the value passes through three tasks that can be interleaved and preempted in any way; a test checks one order", "anchors": ["firmware/src/vcu/vehicleInterface/vehicleState/vehicleState.c: VehicleState_AccessAcquire", "firmware/src/vcu/device/discretesense/discretesense.c: DiscreteSense_TaskMethod", "firmware/src/vcu/vehicleLogic/throttleController/throttleController.c: ThrottleController, getTorqueMagnitude", "firmware/src/vcu/device/inverter/cInverter.c: CInverter_SendTorqueCommand"]}
