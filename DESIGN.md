# Verification of PyCNC: design

## Goal

`properties.jsonl` lists semantic properties of PyCNC (G-code interpreter and
machine controller for Raspberry Pi). `rocq/theories` contains a model of the
code in `/repo` in Rocq/Coq 8.16.1 and proofs about it. `MANIFEST.json` maps
every property to theorem names.

A property that turned out to be false for the code is not dropped. The full
statement is kept, a `..._refuted` theorem gives a concrete counterexample
(computed in the model), and where a useful weaker statement holds it is proved
with a `_partial` suffix.

## How the code is modelled

* Python 3 semantics. Exceptions are values: `Ok v | Raise e`
  (`PyBase.v`). Mutation of machine state is a state monad whose state
  survives an exception, as in Python, so "a failing command changes nothing"
  is a theorem and not built in.
* Python `float` is IEEE-754 binary64, taken from Flocq's
  `BinarySingleNaN` (`PyNum.v`): `+ - * /`, `sqrt`, comparison, `int()`,
  `round(x)` (half-even), `round(x, 10)` (half-even on the exact binary value,
  then nearest double), `float(str)` (correctly rounded decimal).
  Python `int` is `Z`.
  `x ** 2` is modelled as `x * x` (the C library's `pow(x, 2)` is exact-rounded
  on the platforms used). `math.acos` is a parameter of the model, with the
  hypotheses needed stated in each theorem.
* The pulse generators are written once over a record of numeric operations
  and used with two instances: binary64 (what the program computes) and exact
  reals (for statements about speed, acceleration and geometry).
* Text is `list ascii` / `string`. ASCII is modelled exactly; the 128 upper codes
  stand for "any other character" (never blank, never a letter). Unicode
  upper-casing oddities are outside of the model.
* Threads and hardware running in parallel with the code are step relations;
  theorems quantify over all reachable states, i.e. over all schedules.
* Hardware (end stops, sensors, DMA progress) is nondeterministic input.

## Files (in build order)

| file | contents | /repo source |
|---|---|---|
| PyBase.v | result type, exceptions | (language) |
| GCode.v | parser | cnc/gcode.py |
| GCodeSpec.v, GCodeProofs.v | grammar of a line, proofs | |
| PyNum.v | record of numeric operations; binary64 and real instances | (language) |
| PyFloatFacts.v, WordFacts.v, Decimal.v | facts about binary64, `float(str)`, ten-decimal numbers | |
| Config.v | configuration record and default values | cnc/config.py |
| Coordinates.v | Coordinates | cnc/coordinates.py |
| Pulses.v | pulse generators | cnc/pulses.py |
| GMachine.v | G-code interpreter | cnc/gmachine.py |
| GMachineProofs.v, MachineFacts.v, MachineRel.v, MachineHist.v | inversion and frame lemmas, relations over histories | |
| MachineFloat.v, MachinePos.v, MachineArc.v, MachineWork.v, MachineHome.v | binary64 facts about positions, arcs, offsets, homing | |
| MainLoop.v | do_line, file and interactive loops, end of the program | cnc/main.py |
| Answer.v, AnswerSpec.v | answers to M105 and M114, what do_line prints; how a host reads the fields | cnc/gmachine.py (do_command), cnc/main.py (do_line) |
| MainSpec.v, MainProofs.v | vocabulary of the statements, proofs | |
| PulseSpec.v | vocabulary of the statements about pulses: steps, times, motion along a segment | |
| LinearGen.v, LinearReal.v, LinearRun.v, LinearLaw.v | linear generator: any arithmetic; exact arithmetic (constructor, time warp, iteration, motion) | |
| MachineQuery.v, RapidLaw.v | proofs about G4, M105, the sensor test and rapid moves | |
| FloatBound.v | bounds on results of binary64 operations | |
| Pid.v, PidProofs.v | controller, proofs | cnc/pid.py |
| Heater.v, HeaterProofs.v | main thread, heater threads, lock of the sensor chip as a transition system; invariants and progress | cnc/heater.py, cnc/sensors/ads111x.py (lock), cnc/gmachine.py (_heat, release, M105) |
| AdsChip.v, Ads.v, AdsProofs.v | the converter chip on the I2C bus (specification, from its data sheet); measure transfer by transfer, loading of the sensor modules; proofs | cnc/sensors/ads111x.py, cnc/sensors/thermistor.py (import), cnc/hal.py (import) |
| Thermistor.v, ThermistorProofs.v | temperature from voltage | cnc/sensors/thermistor.py |
| Dma.v | one channel of the DMA controller: control blocks, transfers, chain (hardware) | cnc/hal_raspberry/rpgpio_private.py (register layout, DMAProto) |
| Gpio.v, GpioProofs.v | GPIO registers (hardware) and class GPIO | cnc/hal_raspberry/rpgpio.py, class GPIO |
| DmaGpio.v, DmaSpec.v, DmaGpioProofs.v | class DMAGPIO; what is asked for and what is seen at the pins; proofs | cnc/hal_raspberry/rpgpio.py, class DMAGPIO |
| Pwm.v, PwmSpec.v, PwmProofs.v, PwmFloat.v, PwmRace.v | class DMAPWM cut into single accesses, with the engine running in parallel; executions with one and two threads; proofs | cnc/hal_raspberry/rpgpio.py, class DMAPWM |
| Outputs.v, OutputsSpec.v, OutputsProofs.v | outputs driven through the PWM; commands with their results and the speed they ask for; proofs | cnc/hal_raspberry/hal.py (spindle_control, extruder_heater_control, bed_heater_control) |
| Watchdog.v, WatchdogProofs.v | class DMAWatchdog: memory image, feeding, engine in parallel with other register accesses | cnc/hal_raspberry/rpgpio.py, class DMAWatchdog |
| HeatOutput.v | control methods of the heaters; the percentages sent for a heater, by the log of Heater.v | cnc/gmachine.py (_heat), cnc/config.py (pins) |
| FanSpec.v | specification of the fan after some commands; calls carried out on the registers | cnc/hal_raspberry/hal.py (fan_control) |
| PidFinder.v, PidFinderSpec.v | finder and main of the utility; its calls | utils/pid_finder.py |
| ModelFinder.v | finder and main of the utility (without the test of the result, see QuickTest.v) | utils/heater_model_finder.py |
| QuickTest.v | the test of the coefficients, with the duration of heating as an argument | utils/heater_model_finder.py:96-102 |
| WatchdogThread.v, WatchdogThreadSpec.v, WatchdogThreadProofs.v | the feeding thread and timed executions of the watchdog; paces; proofs | cnc/watchdog.py, cnc/hal_raspberry/hal.py (watchdog_feed) |
| Hal.v | init, move (thread cut into steps, DMA engine in parallel), calibrate, deinit | cnc/hal_raspberry/hal.py |
| HalSpec.v, MoveProofs.v, MoveNew.v, MoveFail.v, CalibProofs.v, HalProofs.v | vocabulary of the statements; proofs about the old movement, the new movement, failures, calibration, init and deinit | |
| Mailbox.v | messages to the firmware, allocation and mapping of memory, functions called at exit | cnc/hal_raspberry/rpgpio_private.py (PhysicalMemory, CMAPhysicalMemory, DMAProto.__init__), constructors in rpgpio.py |
| MailboxSpec.v, MailboxProofs.v | what the firmware reads in a message, what the process holds after some calls; proofs | |
| ExitModel.v, ExitProofs.v | the three DMA channels at the end of the process; the watchdog on memory of another owner | cnc/hal_raspberry/hal.py (deinit) |
| LinearTravel.v, MachineMoves.v | where the motors are during a straight move; the straight moves of a command one after the other | |
| FloatRel.v, FloatWarp.v, LinearFloat.v, LinearFloatRun.v, LinearFloatTime.v, LinearFloatPause.v, LinearFloatLimit.v, LinearFloatSpeed.v | relative errors of chains of binary64 operations; the velocity profile of a straight move, its iteration, the times of its pulses, the pauses between them and the limits of the axes in binary64 | |
| StraightRun.v | straight move commands in binary64: displacement and velocity of a line, execution to the end | |
| LineAnswers.v | no exception escapes from lines of numbers without arcs, over whole sessions (C28) | |
| RapidFloat.v | velocity of rapid moves in binary64 (C62) | |
| TextDrive.v | answered sessions as histories, modes kept over a session, steps from positions (C80) | |
| TableDrive.v | positions of the motor drivers between two signals of a move (C81) | |
| TableArcs.v | arcs in binary64 against the edges of the table; histories with full circles; sessions with arcs (C10, C80, C81) | |
| HalVirtual.v | the checks of the virtual device | cnc/hal_virtual.py (move) |
| HalPause.v | the pauses hal.move asks for on a straight move are below 54 seconds | |
| HalDrive.v | a motor driver (specification); the signals of hal.move drive the motors by the steps of the items; the generators of the machine have directions 1 and -1 | |
| HalVirtualProofs.v, HalVirtualSound.v | straight moves pass the checks; what the checks imply | |
| ArcSpec.v | vocabulary of the statements about arcs | |
| ArcTravel.v | where the motors are during and after a complete arc | |
| ArcQuarters.v, ArcExact.v, ArcNet.v | arcs on the grid in exact arithmetic: steps counted by quarters, completion, net travel, working area | |
| CircleCount.v, Schedule.v, ArcPath.v | the way of a projection of a point on a circle and the angles of its whole steps; the order in which any generator emits its steps; arcs on the grid follow the circle, in exact arithmetic | |
| Warp.v, ArcMotion.v | the time profile of any generator as a differentiable function; the motion behind the pulses of an arc, its speed, acceleration and stop, in exact arithmetic | |
| ArcReal.v, ArcAdjust.v, ArcTotal.v | arcs in exact arithmetic: velocities, the adjusted end point, success of the constructor and of the command | |
| ArcAngle.v, ArcFloatNet.v, ArcFloatEnd.v | arcs on the grid in binary64: angles and quarters, net travel, third axis, arcs of histories | |
| MachineArcMoves.v | positions and steps sent in histories with arcs (C82) | |
| ArcRun.v, ArcMake.v, ArcFloat.v, ArcGrid.v, ArcDone.v, ArcEnd.v, ArcMachine.v, ArcFail.v | circular generator: iteration over any numbers; constructor; binary64 facts about angles, grid points, the end of the iteration; arcs of machine histories; failing arcs | |
| Board.v, BoardSpec.v, BoardProofs.v | detection of the board and choice of the hardware module; files of the kernel and revision codes (specification, from the Raspberry Pi documentation); proofs | cnc/hal_raspberry/rpgpio_private.py:11-34, cnc/hal.py:99-104 |
| ExampleBase.v | running lines of text in Examples | |
| Props*.v | the theorems named in MANIFEST.json, each followed by Print Assumptions and an Example | |

## Per property: what is modelled and how it is proved

| id | model | proof |
|---|---|---|
| C01 | scanner for `clean_pattern` (re.sub) and `g_pattern` (findall), dict construction | declarative grammar as an inductive relation on strings, equivalence by induction on the string |
| C02, C03, C04 | same | induction on the string / insertion position; print then scan |
| C05 | `float(str)` on `[-+]?[0-9.]+` | correctness of Flocq division (`Bdiv_correct_aux`) against the real value of the literal |
| C06 | `is_in_aabb` | case analysis; order properties of binary64 compare |
| C07 | constructor rounding | real-number characterisation of decimal rounding |
| C08 | `do_command` for every command | invariant over histories; the box test is applied to the value that is stored |
| C09 | `_move_linear` + generator | position on the motor grid (as C16) and steps counted item by item |
| C10 | `__adjust_circle` | expected false: witness arc crossing the last quarter line; in exact arithmetic and in binary64 accepted full circles stay on the table (quarters of C35, crossings checked by `__adjust_circle`); witness circle whose radius is truncated (PropsCircles.v) |
| C11, C12, C13 | state monad `do_command` | case analysis over all commands |
| C14, C15, C16 | rounding to motor grid in binary64 | error bounds and exactness of grid points in binary64; C15 expected false (sub-step relative moves) |
| C17, C18, C20, C24–C27 | `do_command` | case analysis, invariants over histories |
| C19 | `M2`/`M30` | feed rate part expected false (overwritten at the end of do_command); rest proved |
| C21 | `__check_velocity` | invariant over emitted events |
| C22 | `_adjust_velocity` | real arithmetic instance; binary64 for limits that are whole mm/s |
| C23 | `PulseGeneratorCircular.__init__` | exact arithmetic for arcs in a plane and for long arcs; witness for the rest |
| C28 | `do_line`, `main` | false: witnesses `X1.2.3` and `G2X100Y110I1J5` from (100,100), an arc whose end is exactly on its circle (AssertionError, cnc/pulses.py:387-388); partial: lines, sessions and files of well-formed numbers without arcs (no exception escapes, in binary64) |
| C29, C58 | `main` | induction over the lines; released only at normal end or keyboard interrupt: witnesses for the rest |
| C30–C34 | generator iteration | invariants of `next`; real analysis for C33/C34; C34 expected false for diagonal moves |
| C35 | circular generator | quarter by quarter on integers, angles in exact arithmetic and in binary64 (acos: exact at -1, 0, 1 and decreasing by at least half the distance of arguments 2^-48 apart, `orderly_acos`); witnesses |
| C37 | `__adjust_circle`, `_move_circular` | exact arithmetic: characterisation of the ends that are reached; witness |
| C36 | `__circular_helper`, generator iteration | case analysis on integers; positions as a function of the steps made; binary64 bounds on the constructor; witness circle for the last pulse |
| C38 | constructor and iteration in binary64 | error bounds for every operation of the iteration, termination measure; witnesses in two planes |
| C39–C41 | `Pid.update` | invariants over update sequences |
| C42–C45 | threads as step relations | inductive invariants; C44, C45 expected false: a reachable state from which no continuation makes progress |
| C63 | heater threads against GMachine._heaters | inductive invariant; witness for a constructor that raises |
| C46, C48 | PWM control blocks and DMA engine | invariants over call sequences / all interleavings |
| C47 | read-modify-write at load/store granularity | expected false: witness schedule |
| C49, C50 | control-block encoding and DMA engine | refinement: decoded chain equals the request list |
| C51–C53, C66 | `hal.move` | induction over generator output; invariants over all interleavings of thread and engine; C53, C66 false with instant run: witness executions |
| C54 | control-block chain | induction over feed schedules |
| C55, C68 | `__calibrate_private` | induction over end-stop histories |
| C69 | `do_command` (G0, G1), `_move_linear`, `PulseGeneratorLinear` | binary64: history invariants, error bounds of displacement, rapid velocity and profile |
| C70, C71 | `hal_virtual.move` | loop invariants; binary64 bounds on the distance of pulses; C70 false for arcs: witness |
| C72 | `hal.move`, pins to motors | induction over the calls of the DMA wrapper and over histories; with C16, C30 and C51 |
| C73 | `PulseGeneratorCircular` | exact arithmetic: steps of an axis as a monotone function of the angle, times ordered by the angle |
| C74 | `PulseGeneratorCircular`, `_to_accelerated_time` | exact arithmetic: the inverse of the time profile is differentiable; composed with C73 |
| C75 | `PulseGeneratorCircular`, short arcs | as C74 for long arcs; short arcs refuted by the times of two pulses of a half circle |
| C76 | `PhysicalMemory`, `CMAPhysicalMemory`, atexit | invariant: what is held is what the registered functions give back, for arbitrary answers of the system; witnesses for a failing lock and a failing mmap |
| C77 | `deinit`, exit, watchdog memory | invariant of the PWM (it runs only while it has pins); witness session, and the engine on overwritten memory |
| C78 | times of consecutive pulses of one motor, against feed and limit | least slope of the velocity profile against the velocity of the axis, error of the times; witness of a diagonal move without adjustment |
| C79 | `re.search` on the text of /proc/cpuinfo, list of revisions, `except ImportError` | induction over lines; codes read back from their text |
| C80 | the whole chain from the text of a program to the pins | composition of C14, C16, C72 over answered sessions (TextDrive.v); the modes by the frame lemmas of C12 and C11; with arcs by C82 |
| C81 | the same chain at every moment of every move | every prefix of the signals is a prefix of the items (TableDrive.v); line_travel of C09 and the positions of C16; full circles by C10; a program of k equal circles moves the motor 4 k steps away, by induction on k (PropsCircles.v) |
| C82 | histories with arcs, position against the sum of all steps | the relation of C16 extended by arcs: net travel of C35, correction by a straight move; the drift by a round that leaves the machine unchanged (PropsArcMoves.v) |
| C65, C67 | `init`, `deinit` | register frame lemmas; witness state for C65 |
| C83 | `measure` against the chip, transfer by transfer | invariant of a measurement under arbitrary failures and moments of conversion; bound of the rounding |
| C84 | loading of the sensor modules | case analysis over the results of the operating system; witnesses |
| C85 | M3, M5 down to the level of the pin | invariant over commands, composed with C24 and C46; error bounds of the two conversions; witness for M2 |
| C86 | feeding thread and watchdog with times | induction over timed executions, composed with C54; composition with the blocked heater of C45 for the refutation |
| C87 | heater threads down to the level of the pin | composition of C39, C42, C43, C63 and C46; every call of the PWM returns (measure) |
| C88 | the fan, from the commands to the level of its pin | induction over the commands with m_fan and the fan events; refuted for a heater that cannot be started |
| C89 | printed answers to M114 and M105 | inversion of the two commands, reading of the words; C16 for the motors |
| C90 | utils/pid_finder.py | invariants of the loop; C86_ended for the watchdog that nobody feeds |
| C91 | utils/heater_model_finder.py | invariants of the three loops; every exception is one of the readings or a division by zero; a witness in binary64 |
| C92 | utils/heater_model_finder.py:96-102 | solution of the differential equation by the mean value theorem; closed form of the loop; (1-c)^n against exp(-cn) |
| C93 | cnc/pid.py | invariant of the timer; the full integral is kept while the temperature is below the target |
| C56 | register masks | bit arithmetic |
| C57 | thermistor formula | real analysis; refusal also in binary64 |
| C64 | lock of the sensor chip | invariant of the thread system |

## Trusted base

* Coq's kernel (and `coqchk`).
* The axioms printed by `Print Assumptions` under each theorem. These come from
  the standard library's classical real numbers only
  (`ClassicalDedekindReals.sig_forall_dec`, `sig_not_dec`,
  `FunctionalExtensionality.functional_extensionality_dep`, and `Classical_Prop.classic` where
  Flocq uses it). No axiom is added by this development.
* That the model corresponds to the Python text. Every definition cites file
  and lines. The model is not generated from the code.
* The meaning given to Python primitives in PyBase.v/PyNum.v and to the DMA
  hardware in Dma.v.

math.acos is a parameter of the binary64 instance. Theorems about arcs in binary64 assume
`good_acos` (finite, between 0 and math.pi, on [-1, 1]) or `orderly_acos` (see C35); refutations assume the value of
glibc's acos at the one or two points where the witness uses it, given as hexadecimal
fractions (`dbl m e` is m / 2^e).

In Heater.v a step is the work of one thread between two points at which other
threads matter; reads and writes of `_is_run` happen under the mutex, so no finer
interleaving exists for them. `time.sleep` and the timing of steps are not modelled
(any schedule is allowed). The control method is assumed not to raise.

In Hal.v the generator of hal.move is the list of items it yields, possibly followed by an
exception; a step of the thread is one call of a method of DMAGPIO or one reading of the
state of the engine; the comparison of times in line 291 of hal.py is an arbitrary boolean.
hal.calibrate is a function of the readings of the end stops, of the clock comparisons and of
`dma.is_active()`. In hal.deinit the engine of the PWM does not move between the accesses.

Hardware assumptions in Dma.v, Gpio.v and DmaSpec.v (BCM2835 peripherals manual):
a paced transfer to the PWM FIFO takes 1 us per 16 bytes and everything else takes no
time; the length register has 30 bits; in two-dimensional mode YLENGTH rows or YLENGTH + 1
rows are moved (theorems about DMAGPIO hold for both readings); the engine moves the
data of one control block in one step (the theorem `C48_needs_atomic_blocks` shows what
happens otherwise); one register access is one step; writes of the program become
visible to the engine at once; a word of memory is 4 bytes at an address divisible by 4.

In Mailbox.v the operating system and the firmware are an arbitrary function of the calls made
before; theorems assume that handles, descriptors and mappings are not given twice (`honest`)
and that giving back does not raise (`calm`). The format of messages in MailboxSpec.v is that of
the mailbox property interface of the Raspberry Pi firmware.

In Ads.v a step is one transfer on the I2C bus; before each transfer the chip may end its
conversion, and the transfer may work, raise OSError or (reading) return fewer bytes. The
registers of the chip in AdsChip.v follow the data sheet of the ADS1115 (SBAS444).

## Not modelled

Log and help texts, the formatting of numbers in the answers to M105/M114 (a parameter in Answer.v),
of `cnc/hal_virtual.py` everything but `move` (the other functions log or return constants), arguments of `ioctl`, the computation of `heat_time` in `utils/heater_model_finder.py` (an argument in QuickTest.v).
