-Q theories Verif
theories/Base/Words.v
theories/Base/F32.v
theories/Model/VehicleState.v
theories/Model/FaultManager.v
theories/Model/StateMachine.v
theories/Model/Throttle.v
theories/Model/InverterCmd.v
theories/Spec/FaultSpec.v
theories/Proof/FaultProof.v
theories/Props/FaultProps.v
theories/Spec/VsmSpec.v
theories/Proof/VsmProof.v
theories/Props/VsmProps.v
theories/Base/F32Real.v
theories/Spec/InverterSpec.v
theories/Proof/F32Facts.v
theories/Proof/InverterCmdProof.v
theories/Props/InverterProps.v
theories/Spec/TorqueSpec.v
theories/Proof/TorqueProof.v
theories/Props/TorqueProps.v
theories/Model/CanFrame.v
theories/Model/Bms.v
theories/Model/InverterRx.v
theories/Spec/RxSpec.v
theories/Proof/BitFacts.v
theories/Proof/RxProof.v
theories/Spec/BmsDocSpec.v
theories/Proof/DecodeProof.v
theories/Props/RxProps.v
theories/Props/BatteryLimitProps.v
theories/Base/Mem.v
theories/Model/Crc.v
theories/Model/MsgFrame.v
theories/Spec/FrameSpec.v
theories/Spec/DecoderSpec.v
theories/Proof/MemFacts.v
theories/Proof/CrcProof.v
theories/Proof/FrameProof.v
theories/Props/FrameProps.v
theories/Base/Stream.v
theories/Model/PcRequests.v
theories/Spec/PcSpec.v
theories/Proof/PcProof.v
theories/Props/PcProps.v
theories/Base/Text.v
theories/Model/DebugTerm.v
theories/Spec/TermSpec.v
theories/Proof/TermProof.v
theories/Props/TermProps.v
theories/Model/PcPeriodic.v
theories/Spec/PcPeriodicSpec.v
theories/Proof/PcPeriodicProof.v
theories/Props/PcPeriodicProps.v
theories/Model/Adc.v
theories/Model/DiscreteSense.v
theories/Spec/AdcSpec.v
theories/Proof/AdcProof.v
theories/Spec/SenseSpec.v
theories/Proof/SenseProof.v
theories/Props/AdcProps.v
theories/Base/Gpio.v
theories/Model/Wheelspeed.v
theories/Model/Pdm.v
theories/Model/Sdc.v
theories/Spec/IoSpec.v
theories/Proof/IoProof.v
theories/Props/IoProps.v
theories/Model/CanDriver.v
theories/Spec/CanDriverSpec.v
theories/Proof/CanDriverProof.v
theories/Props/CanDriverProps.v
theories/Model/Uart.v
theories/Spec/UartSpec.v
theories/Proof/UartProof.v
theories/Props/UartProps.v
theories/Model/TaskTimer.v
theories/Model/Watchdog.v
theories/Spec/TimerSpec.v
theories/Proof/TimerProof.v
theories/Props/TimerProps.v
theories/Model/Boot.v
theories/Spec/BootSpec.v
theories/Proof/BootProof.v
theories/Props/BootProps.v
theories/Model/SdcEdge.v
theories/Spec/SdcEdgeSpec.v
theories/Props/SdcEdgeProps.v
theories/Model/NmeaTypes.v
theories/Model/Nmea.v
theories/Model/Gps.v
theories/Spec/NmeaSpec.v
theories/Proof/NmeaProof.v
theories/Proof/GpsProof.v
theories/Props/NmeaProps.v
theories/Model/I2c.v
theories/Model/Spi.v
theories/Spec/BusSpec.v
theories/Proof/I2cProof.v
theories/Proof/SpiProof.v
theories/Props/BusProps.v
theories/Model/Ecu.v
theories/Spec/EcuSpec.v
theories/Proof/EcuProof.v
theories/Proof/EcuFrames.v
theories/Proof/EcuPedal.v
theories/Props/EcuProps.v
theories/Model/PcTool.v
theories/Spec/PcToolSpec.v
theories/Proof/PcToolProof.v
theories/Proof/PcViewProof.v
theories/Props/PcToolProps.v
theories/Props/PedalProps.v
theories/Model/Locks.v
theories/Spec/LockSpec.v
theories/Proof/LockProof.v
theories/Props/LockProps.v
theories/Model/CanMailbox.v
theories/Spec/CanMailboxSpec.v
theories/Proof/CanMailboxProof.v
theories/Props/CanMailboxProps.v
theories/Model/BootRun.v
theories/Spec/BootRunSpec.v
theories/Proof/BootRunProof.v
theories/Props/BootRunProps.v
theories/Model/StreamRing.v
theories/Spec/StreamRingSpec.v
theories/Proof/StreamRingProof.v
theories/Props/StreamRingProps.v
theories/Model/Nvic.v
theories/Spec/NvicSpec.v
theories/Proof/NvicProof.v
theories/Props/NvicProps.v
theories/Model/EarlyIrq.v
theories/Spec/EarlyIrqSpec.v
theories/Proof/EarlyIrqProof.v
theories/Props/EarlyIrqProps.v
theories/Model/WheelTimer.v
theories/Spec/WheelTimerSpec.v
theories/Proof/WheelTimerProof.v
theories/Props/WheelTimerProps.v
theories/Model/BringUp.v
theories/Spec/BringUpSpec.v
theories/Proof/BringUpProof.v
theories/Props/BringUpProps.v
theories/Model/AdcHw.v
theories/Spec/AdcHwSpec.v
theories/Proof/AdcHwProof.v
theories/Props/AdcHwProps.v
theories/Model/CanFilter.v
theories/Spec/CanFilterSpec.v
theories/Proof/CanFilterProof.v
theories/Props/CanFilterProps.v
theories/Model/BusOff.v
theories/Spec/BusOffSpec.v
theories/Proof/BusOffProof.v
theories/Props/BusOffProps.v
theories/Model/SerialLine.v
theories/Spec/SerialLineSpec.v
theories/Proof/SerialLineProof.v
theories/Props/SerialLineProps.v
theories/Model/SerialDma.v
theories/Spec/SerialDmaSpec.v
theories/Proof/SerialDmaProof.v
theories/Props/SerialDmaProps.v
theories/Model/GpioPorts.v
theories/Spec/GpioPortsSpec.v
theories/Proof/GpioPortsProof.v
theories/Props/GpioPortsProps.v
theories/Model/Clock.v
theories/Spec/ClockSpec.v
theories/Proof/ClockProof.v
theories/Props/ClockProps.v
theories/Model/GpsText.v
theories/Proof/GpsTextProof.v
theories/Props/GpsTextProps.v
theories/Model/SpiSync.v
theories/Spec/SpiSyncSpec.v
theories/Proof/SpiSyncProof.v
theories/Props/SpiSyncProps.v
theories/Model/EcuBus.v
theories/Spec/EcuBusSpec.v
theories/Proof/EcuBusProof.v
theories/Props/EcuBusProps.v
theories/Model/RealTime.v
theories/Spec/RealTimeSpec.v
theories/Proof/RealTimeProof.v
theories/Props/RealTimeProps.v
theories/Model/Fresh.v
theories/Spec/FreshSpec.v
theories/Proof/FreshProof.v
theories/Props/FreshProps.v
theories/Model/Outputs.v
theories/Spec/OutputsSpec.v
theories/Proof/OutputsProof.v
theories/Props/OutputsProps.v
theories/Model/Vehicle.v
theories/Spec/VehicleSpec.v
theories/Proof/VehicleProof.v
theories/Proof/VehicleClaims.v
theories/Props/VehicleProps.v
theories/Model/Reports.v
theories/Spec/ReportsSpec.v
theories/Proof/ReportsProof.v
theories/Proof/ReportsClaims.v
theories/Props/ReportsProps.v
theories/Model/KQueue.v
theories/Spec/KQueueSpec.v
theories/Proof/KQueueProof.v
theories/Proof/KQueueWake.v
theories/Proof/KQueueCalls.v
theories/Props/KQueueProps.v
theories/Model/KTime.v
theories/Spec/KTimeSpec.v
theories/Proof/KTimeProof.v
theories/Props/KTimeProps.v
theories/Model/KMutex.v
theories/Spec/KMutexSpec.v
theories/Proof/KMutexProof.v
theories/Props/KMutexProps.v
theories/Spec/ButtonSpec.v
theories/Proof/ButtonProof.v
theories/Proof/ButtonTime.v
theories/Props/ButtonProps.v
theories/Model/KNotify.v
theories/Spec/KNotifySpec.v
theories/Spec/KTimelySpec.v
theories/Proof/KNotifyProof.v
theories/Proof/KNotifyClaims.v
theories/Proof/KStreamWait.v
theories/Proof/KTimelyProof.v
theories/Props/KNotifyProps.v
theories/Spec/CommandSpec.v
theories/Proof/CommandProof.v
theories/Props/CommandProps.v
theories/Spec/FollowSpec.v
theories/Proof/FollowProof.v
theories/Props/FollowProps.v
