-Q theories Verif

theories/PyBase.v
theories/GCode.v
theories/GCodeSpec.v
theories/GCodeProofs.v
theories/PropsParser.v
theories/PyNum.v
theories/Config.v
theories/Coordinates.v
theories/Pulses.v
theories/GMachine.v
theories/ExampleBase.v
theories/PyFloatFacts.v
theories/FloatBound.v
theories/WordFacts.v
theories/PropsWords.v
theories/GMachineProofs.v
theories/MachineFacts.v
theories/MachineRel.v
theories/MachineHist.v
theories/MachineFloat.v
theories/PropsMachine.v
theories/Decimal.v
theories/MachinePos.v
theories/MachineArc.v
theories/MachineWork.v
theories/MachineHome.v
theories/PropsPosition.v
theories/MainLoop.v
theories/MainSpec.v
theories/MainProofs.v
theories/PropsMain.v
theories/PulseSpec.v
theories/LinearGen.v
theories/LinearReal.v
theories/LinearRun.v
theories/LinearLaw.v
theories/PropsPulses.v
theories/MachineQuery.v
theories/RapidLaw.v
theories/PropsQuery.v
theories/Pid.v
theories/PidProofs.v
theories/Heater.v
theories/HeaterProofs.v
theories/PropsHeat.v
theories/Thermistor.v
theories/ThermistorProofs.v
theories/PropsSensor.v
theories/Dma.v
theories/Gpio.v
theories/GpioProofs.v
theories/DmaGpio.v
theories/DmaSpec.v
theories/DmaGpioProofs.v
theories/Pwm.v
theories/PwmSpec.v
theories/PwmProofs.v
theories/PwmFloat.v
theories/PwmRace.v
theories/Watchdog.v
theories/WatchdogProofs.v
theories/PropsDma.v
theories/Hal.v
theories/HalSpec.v
theories/MoveProofs.v
theories/MoveNew.v
theories/CalibProofs.v
theories/HalProofs.v
theories/MoveFail.v
theories/PropsHal.v
theories/ArcSpec.v
theories/ArcRun.v
theories/LinearTravel.v
theories/ArcMake.v
theories/ArcFloat.v
theories/ArcGrid.v
theories/ArcDone.v
theories/ArcEnd.v
theories/ArcMachine.v
theories/ArcFail.v
theories/ArcTravel.v
theories/ArcReal.v
theories/ArcAdjust.v
theories/ArcTotal.v
theories/ArcQuarters.v
theories/ArcExact.v
theories/ArcNet.v
theories/ArcAngle.v
theories/ArcFloatNet.v
theories/ArcFloatEnd.v
theories/PropsArc.v
theories/PropsArcEnd.v
theories/PropsArcFloat.v
theories/MachineArcMoves.v
theories/PropsArcMoves.v
theories/PropsArcExact.v
theories/PropsArcNet.v
theories/MachineMoves.v
theories/PropsMoves.v
theories/FloatRel.v
theories/FloatWarp.v
theories/LinearFloat.v
theories/LinearFloatRun.v
theories/LinearFloatTime.v
theories/LinearFloatPause.v
theories/LinearFloatLimit.v
theories/PropsLinFloat.v
theories/StraightRun.v
theories/PropsStraight.v
theories/RapidFloat.v
theories/PropsRapid.v
theories/LineAnswers.v
theories/PropsAnswers.v
theories/HalVirtual.v
theories/HalVirtualProofs.v
theories/HalVirtualSound.v
theories/PropsVirtual.v
theories/HalDrive.v
theories/HalPause.v
theories/PropsDrive.v
theories/PropsLine.v
theories/LinearFloatSpeed.v
theories/PropsSpeed.v
theories/Board.v
theories/BoardSpec.v
theories/BoardProofs.v
theories/PropsBoard.v
theories/CircleCount.v
theories/Schedule.v
theories/ArcPath.v
theories/PropsArcPath.v
theories/Warp.v
theories/ArcMotion.v
theories/PropsArcMotion.v
theories/Mailbox.v
theories/MailboxSpec.v
theories/MailboxProofs.v
theories/ExitModel.v
theories/ExitProofs.v
theories/PropsMailbox.v
theories/TextDrive.v
theories/PropsText.v
theories/TableDrive.v
theories/PropsTable.v
theories/TableArcs.v
theories/PropsTableArcs.v
theories/PropsCircles.v
theories/AdsChip.v
theories/Ads.v
theories/AdsProofs.v
theories/PropsAds.v
theories/Outputs.v
theories/OutputsSpec.v
theories/OutputsProofs.v
theories/PropsOutputs.v
theories/WatchdogThread.v
theories/WatchdogThreadSpec.v
theories/WatchdogThreadProofs.v
theories/PropsWatchdog.v
theories/HeatOutput.v
theories/PropsHeatOutput.v
theories/FanSpec.v
theories/PropsFan.v
theories/Answer.v
theories/AnswerSpec.v
theories/PropsAnswer.v
theories/PidFinder.v
theories/PidFinderSpec.v
theories/PropsPidFinder.v
theories/ModelFinder.v
theories/PropsModelFinder.v
theories/PropsModelCoef.v
theories/QuickTest.v
theories/PropsQuickTest.v
theories/PropsHold.v
