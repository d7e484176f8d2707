{"id": "C01", "title": "Line grammar is decided exactly", "statement": "GCode.parse_line(line) returns None exactly when the line, after upper-casing and removal of whitespace, '(...)' comments and ';' comments, is empty or starts with '%'. Otherwise it returns a GCode object exactly when the cleaned text is a sequence of words LETTER[+|-](digit|'.')+ whose letters are pairwise different and do not include both G and M, and the object then holds precisely those words; in every other case it raises GCodeException. No other outcome exists.", "quantifier": "every text line (every finite string of characters)", "why_tests_cant": "the set of lines is infinite; tests try two dozen lines", "anchors": ["cnc/gcode.py: GCode.parse_line, g_pattern, clean_pattern"]}
{"id": "C02", "title": "Parsing ignores letter case", "statement": "Two lines that differ only in the case of ASCII letters give the same parse_line result (same object contents, same None, same exception).", "quantifier": "every pair of lines equal up to ASCII case", "why_tests_cant": "infinitely many lines and case patterns", "anchors": ["cnc/gcode.py: GCode.parse_line"]}
{"id": "C03", "title": "Blanks and comments do not change a command", "statement": "Inserting a blank character other than line feed at any position of a line, a closed '(...)' comment at any position outside a comment, or a ';' comment at the end, never changes the result of parse_line; in particular a line consisting only of blanks and comments parses to None.", "quantifier": "every line, every insertion position, every comment text", "why_tests_cant": "insertion positions and comment bodies are unbounded", "anchors": ["cnc/gcode.py: clean_pattern, GCode.parse_line"]}
{"id": "C04", "title": "Print/parse round trip and word-order independence", "statement": "For every set of words with different letters (not both G and M), writing the words one after another in any order, and parsing the text, gives back exactly that set of words; command() returns 'G'+value or 'M'+value of the G or M word or None if there is neither.", "quantifier": "every duplicate-free word list and every permutation of it", "why_tests_cant": "word lists are unbounded in content and order", "anchors": ["cnc/gcode.py: GCode.parse_line, GCode.command, GCode.has, GCode.has_coordinates"]}
{"id": "C05", "title": "Numeric words have their decimal value", "statement": "For every word that parse_line accepts whose literal has at least one digit and at most one '.', reading the word yields the binary64 number nearest to the decimal value written, times the unit factor; with any other literal (e.g. '1.2.3' or '.') reading the word raises ValueError.", "quantifier": "every literal of every length", "why_tests_cant": "literals are unbounded; rounding of long literals is not sampled by tests", "anchors": ["cnc/gcode.py: GCode.get, GCode.coordinates, GCode.radius"]}
{"id": "C06", "title": "Axis-aligned box test is a closed box test", "statement": "is_in_aabb(p1, p2) is true for finite coordinates exactly when each of x, y, z lies in the closed interval between the two corners' values, whichever corner is given first; e is ignored.", "quantifier": "all points and corner pairs", "why_tests_cant": "all orderings and boundary values of three real axes", "anchors": ["cnc/coordinates.py: Coordinates.is_in_aabb"]}
{"id": "C07", "title": "Coordinates are rounded to ten decimals, idempotently", "statement": "Every component of a constructed Coordinates object is the binary64 number nearest to a multiple of 1e-10 that is within 0.5e-10 of the given number; constructing again from these components changes nothing.", "quantifier": "all finite binary64 inputs", "why_tests_cant": "2^64 inputs per axis", "anchors": ["cnc/coordinates.py: Coordinates.__init__"]}
{"id": "C08", "title": "Position never leaves the work area", "statement": "After any sequence of commands, successful or failed, the reported X, Y and Z position are finite and inside [0, table size] of their axis.", "quantifier": "every history of commands and every outcome of the hardware calls", "why_tests_cant": "histories are unbounded; an error path that forgets to check needs a particular history", "anchors": ["cnc/gmachine.py: GMachine.do_command, _move_linear, _move_circular, __check_delta"]}
{"id": "C09", "title": "Every straight move stays inside the work area", "statement": "Every linear movement handed to the motors as a G0, G1 or G28 command starts at the reported position, and after every pulse of it each of the X, Y, Z axes is inside [0, table size] (to within half a motor step) when it started inside.", "quantifier": "every reachable machine state, every command, every pulse of the movement", "why_tests_cant": "intermediate pulse positions are unobservable in tests", "anchors": ["cnc/gmachine.py: _move_linear, __check_delta", "cnc/pulses.py: PulseGeneratorLinear"]}
{"id": "C10", "title": "Every arc stays inside the work area", "statement": "If a G2/G3 command is accepted then no pulse of it takes an axis outside [0, table size].", "quantifier": "every reachable machine state and every arc command", "why_tests_cant": "arcs form a continuum of start, centre, end, direction", "anchors": ["cnc/gmachine.py: _move_circular, __adjust_circle"]}
{"id": "C11", "title": "Rejected commands have no effect", "statement": "If a command other than G28 fails with an exception before the hardware layer itself fails, then no motor, spindle, fan or heater action was performed and position, feed rate, spindle speed, offset, units, distance mode, plane, fan state and heater targets are all unchanged.", "quantifier": "every machine state and every command", "why_tests_cant": "every error path of every command in every state", "anchors": ["cnc/gmachine.py: GMachine.do_command"]}
{"id": "C12", "title": "Commands change only the state they own", "statement": "Plane, units, distance mode, work offset, spindle speed, fan state, heater targets and position are each changed only by the commands documented for them (G17-19; G20/G21; G90/G91; G92/G53; M3; M106/M107/extruder heating; M104/M109/M140/M190; G0-G3/G28; and M2/M30), by every other command they are preserved.", "quantifier": "every machine state, every command", "why_tests_cant": "full cross product of commands and state components", "anchors": ["cnc/gmachine.py: GMachine.do_command"]}
{"id": "C13", "title": "Feed rate is modal and validated", "statement": "A command whose F value (or, if absent, the current feed) is below the minimum fails; a successful command with an F word makes that value the current feed for later commands, a successful command without F keeps it and a failed command never changes it; the current feed is therefore never below the minimum.", "quantifier": "every command history", "why_tests_cant": "needs an invariant over histories", "anchors": ["cnc/gmachine.py: GMachine.do_command"]}
{"id": "C14", "title": "Absolute moves end at the commanded point", "statement": "After a successful G0/G1 in absolute mode every X, Y, Z axis is within half a motor step (plus 1e-9 mm) of offset + commanded value (in current units), and an axis not mentioned does not move; the error does not grow with the number of earlier moves.", "quantifier": "every reachable state, every command", "why_tests_cant": "accumulation of rounding error over arbitrarily long programs", "anchors": ["cnc/gmachine.py: do_command, _move_linear", "cnc/coordinates.py: Coordinates.round"]}
{"id": "C15", "title": "Relative moves add up", "statement": "A sequence of relative moves whose commanded distances sum to d moves the axis by d up to one motor step.", "quantifier": "every sequence of relative moves", "why_tests_cant": "accumulated rounding only shows after many moves", "anchors": ["cnc/gmachine.py: do_command, _move_linear"]}
{"id": "C16", "title": "Reported position equals the pulses sent", "statement": "For every history of non-arc commands the reported position of each of X, Y and Z is exactly (net number of pulses sent to that axis)/(pulses per mm), correctly rounded to binary64; no drift at all.", "quantifier": "every history", "why_tests_cant": "drift needs arbitrarily long histories; binary64 rounding at every step", "anchors": ["cnc/gmachine.py: _move_linear", "cnc/pulses.py: PulseGeneratorLinear.__init__", "cnc/coordinates.py"]}
{"id": "C17", "title": "Work offset (G92/G53) semantics", "statement": "G92 with coordinates does not move the machine and afterwards the current point has exactly the given coordinates in the work frame (an absolute G1 to them produces no motion), unnamed axes keep their work coordinate; G92 without coordinates makes the current point the origin; G53 cancels the offset.", "quantifier": "every reachable state, all offsets", "why_tests_cant": "all offsets and positions, and rounding of their sums", "anchors": ["cnc/gmachine.py: do_command (G92, G53)"]}
{"id": "C18", "title": "Unit modes", "statement": "In G20 mode every coordinate and radius word is scaled by 25.4, in G21 mode by 1, regardless of history; the feed word is never scaled.", "quantifier": "every state and command", "why_tests_cant": "all values and histories", "anchors": ["cnc/gmachine.py: do_command (G20, G21)", "cnc/gcode.py: get"]}
{"id": "C19", "title": "Program end resets all modal settings", "statement": "After M2 or M30 the feed rate, spindle speed setting, offset, units, distance mode and plane have their power-on values.", "quantifier": "every machine state", "why_tests_cant": "depends on the state before the command", "anchors": ["cnc/gmachine.py: do_command (M2, M30), reset"]}
{"id": "C20", "title": "Homing", "statement": "G28 homes exactly the named axes (all three if none is named): on success the position of each of them is 0 and every other axis is unchanged, end-stop calibration is run for exactly those axes after all motion is complete, and a calibration failure is reported as an error.", "quantifier": "every reachable state, every subset of axes", "why_tests_cant": "all positions and subsets", "anchors": ["cnc/gmachine.py: do_command (G28), safe_zero"]}
{"id": "C21", "title": "No movement is started above the axis speed limits", "statement": "Every movement handed to the motors by any command history declares a maximum velocity that is at most the configured limit on each of the four axes; a movement that would declare more is rejected before any motor action.", "quantifier": "every history and every requested feed", "why_tests_cant": "all feeds and geometries", "anchors": ["cnc/gmachine.py: __check_velocity, _move_linear, _move_circular"]}
{"id": "C22", "title": "Automatic velocity adjustment makes every straight move acceptable", "statement": "With automatic velocity adjustment enabled a linear move is never rejected as too fast, whatever feed is requested, and each axis velocity is reduced by one common factor.", "quantifier": "all deltas and all feeds", "why_tests_cant": "continuum of directions and feeds; rounding at the limit", "anchors": ["cnc/pulses.py: _adjust_velocity, PulseGeneratorLinear.__init__", "cnc/gmachine.py: __check_velocity"]}
{"id": "C23", "title": "Automatic velocity adjustment makes every arc acceptable", "statement": "With automatic velocity adjustment enabled an arc move is never rejected as too fast, whatever feed is requested.", "quantifier": "all arcs and feeds", "why_tests_cant": "continuum of arcs", "anchors": ["cnc/pulses.py: PulseGeneratorCircular.__init__", "cnc/gmachine.py: __check_velocity"]}
{"id": "C24", "title": "Spindle power is within range and follows M3/M5", "statement": "Every spindle command issued to the hardware is between 0 and 100 percent; M3 with S outside [0, maximum] is rejected without action; M5 and shutdown issue 0; a spindle command is only issued after all motion has finished.", "quantifier": "every history", "why_tests_cant": "all S values and histories", "anchors": ["cnc/gmachine.py: _spindle, do_command (M3, M5), release"]}
{"id": "C25", "title": "Heater targets stay within limits", "statement": "After any history the extruder target is 0 or in [40, 250] and the bed target is 0 or in [40, 100]; a value outside, or a missing S word, is rejected without effect; target 0 turns the heater off.", "quantifier": "every history, all S values", "why_tests_cant": "all S values, all histories", "anchors": ["cnc/gmachine.py: do_command (M104, M109, M140, M190), _heat"]}
{"id": "C26", "title": "Fan control", "statement": "The fan state reported always equals the last fan command sent to the hardware; M106 turns it on unless S is 0, M107 off, and starting to heat the extruder turns it on when the automatic fan is enabled; nothing else changes it.", "quantifier": "every history", "why_tests_cant": "all histories", "anchors": ["cnc/gmachine.py: _fan, _heat, do_command (M106, M107)"]}
{"id": "C27", "title": "Unknown commands are errors, empty lines are not", "statement": "Any command word that is not one of the supported ones (including spellings such as G01 or G1.0) fails with 'unknown command' and has no effect, an empty/comment line has no effect and succeeds, and a line with coordinates but no command acts exactly like G1.", "quantifier": "all command words, all states", "why_tests_cant": "the set of command words is infinite", "anchors": ["cnc/gmachine.py: do_command", "cnc/gcode.py: command"]}
{"id": "C28", "title": "Every input line is answered with OK or ERROR", "statement": "Processing any text line prints OK or ERROR and returns; it never terminates the program with another exception.", "quantifier": "every text line in every machine state", "why_tests_cant": "needs every line; tests only use well-formed numbers", "anchors": ["cnc/main.py: do_line", "cnc/gcode.py: get"]}
{"id": "C29", "title": "Program runner", "statement": "When a file is run, lines are executed in order up to and including the first one that fails and no later one; in interactive mode a failing line does not stop the session; at normal end, quit/exit, or keyboard interrupt everything is released (spindle 0, heaters off, fan off).", "quantifier": "every file, every position of the first failing line", "why_tests_cant": "all files", "anchors": ["cnc/main.py: main, do_line", "cnc/gmachine.py: release"]}
{"id": "C30", "title": "Straight moves emit exactly the right pulses", "statement": "Iterating a linear pulse generator terminates and yields exactly one direction message, first, with the sign of each axis displacement, then on each axis exactly round(|delta| * pulses per mm) pulses; every yielded item has at least one pulse.", "quantifier": "all non-zero displacements and all feeds", "why_tests_cant": "all displacement vectors", "anchors": ["cnc/pulses.py: PulseGeneratorLinear, PulseGenerator.next"]}
{"id": "C31", "title": "Pulse times never go backwards and end within the announced time", "statement": "The times yielded by a linear generator are non-decreasing, axes pulsing in the same item share one time, the times of one axis strictly increase, the first is 0 and the last is at most total_time_s().", "quantifier": "all displacements and feeds", "why_tests_cant": "all interleavings of four axes' pulse trains", "anchors": ["cnc/pulses.py: PulseGenerator.next, _to_accelerated_time, total_time_s"]}
{"id": "C32", "title": "Straight moves follow the straight line", "statement": "After every yielded pulse of a linear movement the position of each axis is within one pulse of the point of the ideal straight segment common to all axes.", "quantifier": "all displacements, every pulse", "why_tests_cant": "all displacement vectors, every intermediate state", "anchors": ["cnc/pulses.py: PulseGeneratorLinear._interpolation_function, PulseGenerator.next"]}
{"id": "C33", "title": "Axis speed and acceleration limits hold along a straight move", "statement": "In exact arithmetic, during a linear movement the instantaneous speed of each axis never exceeds the (adjusted) requested speed for that axis and the acceleration of each axis never exceeds the configured maximum.", "quantifier": "all displacements, feeds and instants", "why_tests_cant": "a continuum of instants and moves", "anchors": ["cnc/pulses.py: _to_accelerated_time, PulseGeneratorLinear.__init__"]}
{"id": "C34", "title": "Every straight move brakes to standstill", "statement": "At the end of every linear movement the speed has returned to zero, symmetric to the acceleration at its start.", "quantifier": "all displacements and feeds", "why_tests_cant": "depends on direction: single-axis moves hide it", "anchors": ["cnc/pulses.py: _to_accelerated_time, PulseGeneratorLinear.__init__"]}
{"id": "C35", "title": "Arcs end where they should", "statement": "The net number of pulses of an arc movement on each axis equals the requested displacement of the movement on that axis; a full circle returns to its start.", "quantifier": "all arcs in all planes", "why_tests_cant": "continuum of arcs; float truncation hits only some radii", "anchors": ["cnc/pulses.py: PulseGeneratorCircular.__init__, __circular_helper, __circular_a, __circular_b"]}
{"id": "C36", "title": "Arc excursion is bounded by the radius", "statement": "At every pulse of an arc each of the two plane axes stays within one radius (in pulses) of the centre and successive pulses of an axis move it by exactly one step.", "quantifier": "all start points on or inside the circle, all iterations", "why_tests_cant": "unbounded number of iterations", "anchors": ["cnc/pulses.py: __circular_helper"]}
{"id": "C37", "title": "An arc command whose end lies on the circle is executed as that arc", "statement": "For a G2/G3 whose end point lies on the circle through the start, the arc performed ends at the commanded end point (no straight correction move is added).", "quantifier": "all arcs whose end point is on the circle", "why_tests_cant": "end slopes 0, 1 and infinity used by tests hide it", "anchors": ["cnc/gmachine.py: __adjust_circle, _move_circular"]}
{"id": "C38", "title": "Accepted arcs can be generated completely", "statement": "If a G2/G3 command passes all checks then its pulse generator runs to the end without a numeric exception.", "quantifier": "all accepted arcs in all planes", "why_tests_cant": "needs particular radii in the YZ/ZX planes", "anchors": ["cnc/pulses.py: __circular_a, __circular_b, PulseGeneratorCircular.__init__"]}
{"id": "C39", "title": "Controller output is always a valid power", "statement": "Pid.update returns a number in [0, 1] for every sequence of finite measurements and times, and the power sent to the heater is always in [0, 100] percent.", "quantifier": "all measurement and time sequences, all coefficients", "why_tests_cant": "unbounded sequences of real inputs", "anchors": ["cnc/pid.py: Pid.update", "cnc/heater.py: run"]}
{"id": "C40", "title": "Integral wind-up is bounded", "statement": "After any sequence of updates the magnitude of the accumulated integral is at most 1/I, so its contribution to the output is at most 1 in magnitude.", "quantifier": "all update sequences", "why_tests_cant": "unbounded sequences", "anchors": ["cnc/pid.py: Pid.update"]}
{"id": "C41", "title": "'Temperature reached' means it was held", "statement": "is_fixed() becomes true only after the measurements of a contiguous run of updates lasting longer than FIX_TIME_S were all within 1% of the target with output below 1, and never becomes true otherwise; it then stays true.", "quantifier": "all measurement histories", "why_tests_cant": "all histories", "anchors": ["cnc/pid.py: Pid.update, is_fixed"]}
{"id": "C42", "title": "A stopped heater stays off", "statement": "After Heater.stop() has returned, the last power command sent by that heater is 0 and it sends no other one, for every interleaving of the controlling thread with the heater thread.", "quantifier": "all thread schedules and sensor behaviours", "why_tests_cant": "schedules cannot be enumerated by tests", "anchors": ["cnc/heater.py: Heater.run, Heater.stop"]}
{"id": "C43", "title": "A sensor failure turns the heater off", "statement": "When a temperature measurement by the heater thread fails, the next power command of that thread is 0 and it sends no non-zero power until a later measurement succeeds.", "quantifier": "all schedules and sensor behaviours", "why_tests_cant": "fault timing", "anchors": ["cnc/heater.py: Heater.run"]}
{"id": "C44", "title": "A heater survives a transient sensor failure and can always be stopped", "statement": "After one failed measurement followed by successful ones the heater resumes control, and Heater.stop() always returns.", "quantifier": "all schedules and sensor behaviours", "why_tests_cant": "needs a fault injected between two lock operations", "anchors": ["cnc/heater.py: Heater.run, Heater.stop"]}
{"id": "C45", "title": "A failed measurement does not block later measurements", "statement": "After an I2C error in one temperature measurement, later measurements by any thread still return or fail, so no heater is left energised by a blocked thread.", "quantifier": "all schedules of the threads sharing the sensor chip", "why_tests_cant": "needs an I2C fault between lock and unlock", "anchors": ["cnc/sensors/ads111x.py: measure", "cnc/heater.py: run"]}
{"id": "C46", "title": "PWM duty follows the last request", "statement": "After any sequence of non-overlapping add_pin/remove_pin calls, in every PWM cycle each pin is high for exactly int(duty*256/100) of the 256 slots where duty is the last value requested for the pin, and removed pins are low.", "quantifier": "all call sequences, pins and duties", "why_tests_cant": "all interleavings of pins sharing the set word", "anchors": ["cnc/hal_raspberry/rpgpio.py: DMAPWM"]}
{"id": "C47", "title": "PWM pins do not influence each other under concurrency", "statement": "C46 also holds when calls for different pins run concurrently in different threads (both heaters and the spindle share one PWM object).", "quantifier": "all thread schedules", "why_tests_cant": "lost updates need a specific schedule", "anchors": ["cnc/hal_raspberry/rpgpio.py: DMAPWM.add_pin, remove_pin", "cnc/hal_raspberry/hal.py: extruder_heater_control, bed_heater_control, spindle_control"]}
{"id": "C48", "title": "Removing a PWM pin leaves it low", "statement": "After remove_pin returns the pin is low and stays low, whatever the DMA engine executed in between.", "quantifier": "all interleavings of the DMA engine with the call", "why_tests_cant": "hardware runs in parallel to the code", "anchors": ["cnc/hal_raspberry/rpgpio.py: DMAPWM.remove_pin"]}
{"id": "C49", "title": "The DMA program plays exactly the requested pulses", "statement": "For any sequence of add_pulse/add_delay/add_set_clear calls that fits into the buffer, after finalising, the DMA engine drives exactly the requested pins with exactly the requested delays in order and then stops.", "quantifier": "all call sequences", "why_tests_cant": "encoding of unbounded programs into linked control blocks", "anchors": ["cnc/hal_raspberry/rpgpio.py: DMAGPIO.add_pulse, add_delay, add_set_clear, finalize_stream, run"]}
{"id": "C50", "title": "The DMA buffer is never written outside its memory", "statement": "A call that would not fit raises MemoryError and writes nothing; all other writes are inside the allocated buffer.", "quantifier": "all call sequences", "why_tests_cant": "boundary cases at 30 MiB", "anchors": ["cnc/hal_raspberry/rpgpio.py: DMAGPIO"]}
{"id": "C51", "title": "Motor pins receive what the generator yields", "statement": "For every generator output sequence with non-decreasing times the Raspberry HAL produces a DMA program with the same pulses in the same order on the configured step pins, direction pins set before the following pulses, and each pulse starting at its rounded microsecond time (or right after the previous pulse if that is later).", "quantifier": "all generator outputs", "why_tests_cant": "all pulse sequences", "anchors": ["cnc/hal_raspberry/hal.py: move"]}
{"id": "C52", "title": "A new movement never overwrites one that is still running", "statement": "While a previous DMA program is running, preparing the next movement never writes to a control block that the running program may still execute, for every progress of the DMA engine.", "quantifier": "all progress schedules of the DMA engine", "why_tests_cant": "hardware progress is a schedule", "anchors": ["cnc/hal_raspberry/hal.py: move", "cnc/hal_raspberry/rpgpio.py: DMAGPIO"]}
{"id": "C53", "title": "Streaming never plays stale data", "statement": "With instant run enabled the DMA engine never executes a control block that was not written for the current movement.", "quantifier": "all relative speeds of generator and DMA engine", "why_tests_cant": "needs a slow CPU at the right moment", "anchors": ["cnc/hal_raspberry/hal.py: move (instant run)", "cnc/hal_raspberry/rpgpio.py: run_stream, finalize_stream"]}
{"id": "C54", "title": "Watchdog switches all outputs off unless fed", "statement": "If the watchdog is not fed while 2049 of its control blocks complete (2048 counted from its start) every one of GPIO pins 0-29, which include all configured output pins, becomes an input; if it is fed at least every 2046 blocks it never does.", "quantifier": "all feed schedules", "why_tests_cant": "all feed timings", "anchors": ["cnc/hal_raspberry/rpgpio.py: DMAWatchdog", "cnc/config.py"]}
{"id": "C55", "title": "Calibration reports success only if every requested end stop triggered", "statement": "calibrate(x, y, z) returns True only if in both phases every requested axis' end stop was read as triggered three times in a row; an axis gets no more pulses after its end stop triggered; axes not requested get none.", "quantifier": "all end-stop readings over time", "why_tests_cant": "all input histories", "anchors": ["cnc/hal_raspberry/hal.py: calibrate, __calibrate_private"]}
{"id": "C56", "title": "GPIO mode changes touch only their own pin", "statement": "Initialising a pin changes only the three function-select bits of that pin and gives it the requested mode; set, clear and read affect exactly the given pin.", "quantifier": "all register contents and pins", "why_tests_cant": "2^32 register values", "anchors": ["cnc/hal_raspberry/rpgpio.py: GPIO.init, set, clear, read"]}
{"id": "C57", "title": "Temperature readings", "statement": "A thermistor reading is refused exactly when the voltage is not strictly between 0 and the supply voltage; otherwise the reported temperature strictly decreases with the voltage.", "quantifier": "all voltages", "why_tests_cant": "continuum of voltages", "anchors": ["cnc/sensors/thermistor.py: get_temperature"]}
{"id": "C58", "title": "However the program ends, everything is switched off", "statement": "Whenever the program ends - end of file, quit, keyboard interrupt, end of input or any exception - the spindle was last told 0 %, both heaters are off and the fan was last told to be off.", "quantifier": "all inputs, all hardware behaviours, all ways of ending", "why_tests_cant": "all exception points", "anchors": ["cnc/main.py: main", "cnc/gmachine.py: release"]}
{"id": "C59", "title": "G4 waits exactly the requested time", "statement": "G4 without P or with a negative P is rejected without any effect; otherwise it waits until all pulses are executed and then sleeps P seconds, and does nothing else.", "quantifier": "all commands, states and hardware answers", "why_tests_cant": "all P values and hardware failures", "anchors": ["cnc/gmachine.py: do_command (G4)"]}
{"id": "C60", "title": "No heater starts without a working sensor", "statement": "A command starts a heater only if the same command has first read the sensor of that heater successfully; if the sensor cannot be read the command fails and changes nothing.", "quantifier": "all commands, states and hardware answers", "why_tests_cant": "all sensor failures in all states", "anchors": ["cnc/gmachine.py: _heat"]}
{"id": "C61", "title": "M105 succeeds exactly if a sensor can be read", "statement": "M105 reads both temperature sensors; it succeeds exactly if at least one of them could be read, and changes nothing.", "quantifier": "all states and hardware answers", "why_tests_cant": "all combinations of sensor failures", "anchors": ["cnc/gmachine.py: do_command (M105)"]}
{"id": "C62", "title": "Rapid moves are as fast as the limits allow", "statement": "The velocity of a rapid move exceeds no axis limit and is the largest whole number of mm per minute with this property, or at least the largest axis limit.", "quantifier": "all movements", "why_tests_cant": "continuum of directions", "anchors": ["cnc/gmachine.py: do_command (G0)"]}
{"id": "C63", "title": "The machine's record of its heaters is true", "statement": "Whenever the machine has no heater on record and is not busy with a heater call, every thread ever created for this heater has been stopped and its last power was 0; two heater threads never drive the same heater at once.", "quantifier": "all thread schedules and sensor behaviours", "why_tests_cant": "a fault between thread start and end of the constructor", "anchors": ["cnc/gmachine.py: _heat", "cnc/heater.py: Heater.__init__, stop"]}
{"id": "C64", "title": "Two threads never use the sensor chip at once", "statement": "Between configuring a conversion of the ADC chip and reading its result no other thread talks to the chip, so every temperature belongs to the channel it was requested for.", "quantifier": "all thread schedules and sensor behaviours", "why_tests_cant": "needs two heater threads and the main thread measuring at the same moment", "anchors": ["cnc/sensors/ads111x.py: measure", "cnc/heater.py: Heater.run"]}
{"id": "C65", "title": "deinit switches everything off", "statement": "After hal.deinit the steppers are disabled, the outputs of spindle, fan and heaters are low, no pin is driven by the PWM and the watchdog is stopped, for every state of the outputs before.", "quantifier": "all states of PWM and GPIO", "why_tests_cant": "all combinations of outputs that may be on; the failure depends on how Python iterates over a dictionary that shrinks", "anchors": ["cnc/hal_raspberry/hal.py: deinit", "cnc/hal_raspberry/rpgpio.py: DMAPWM.remove_all"]}
{"id": "C66", "title": "A movement that cannot be prepared is not begun", "statement": "If the generator raises or the DMA buffer gets full while a movement is prepared, no part of this movement is executed; if the calls fit into the buffer and the generator does not raise, preparing a movement does not fail.", "quantifier": "all generator outputs, buffer contents and schedules of the DMA engine", "why_tests_cant": "needs a long movement and a failure in its middle", "anchors": ["cnc/hal_raspberry/hal.py: move"]}
{"id": "C67", "title": "init leaves all pins in a safe state", "statement": "After hal.init step and direction pins are outputs, end stops are inputs with pull-up, the outputs of spindle, fan, heaters and stepper enable are low, and pins that are not configured keep function and level, for every state before.", "quantifier": "all register contents and all configurations with distinct pins", "why_tests_cant": "all register contents", "anchors": ["cnc/hal_raspberry/hal.py: init"]}
{"id": "C68", "title": "When calibrate returns, the motors stand still", "statement": "When hal.calibrate returns, the DMA engine does not drive any motor.", "quantifier": "all end-stop readings over time", "why_tests_cant": "needs the time limit to expire while the engine is in the middle of a program", "anchors": ["cnc/hal_raspberry/hal.py: calibrate, __calibrate_private"]}
{"id": "C69", "title": "Every straight move to a point on the table is executed", "statement": "After any sequence of commands with moderate words, a G0 or G1 line whose words are numbers, whose feed is not below the minimum and whose end lies on the table (and moves the extruder less than 4 m) succeeds whenever the hardware does not fail; the generator handed to the hardware emits its whole sequence without an exception. Configuration: limits of whole mm per second up to 1000 mm/s, steps per mm up to 1000 with an exact ten-decimals step, automatic velocity adjustment, as in config.py.", "quantifier": "all histories, all move lines and all hardware behaviours, in binary64", "why_tests_cant": "a division by zero, a rounding above a limit or a rounding off the table would need one particular target among 10^15", "anchors": ["cnc/gmachine.py: do_command, _move_linear, __check_delta, __check_velocity", "cnc/pulses.py: PulseGeneratorLinear"]}
{"id": "C70", "title": "The virtual device accepts every move that the machine makes", "statement": "On the virtual device (hal_virtual.move), none of the assertions fails for the pulses of a move that the machine hands over: the messages begin with directions that suit the displacement, the pulses of each motor are in distinct microseconds, those of one message in the same microsecond, the number of steps divided by steps per mm and rounded to ten decimals equals the displacement, and no pulse comes after total_time_s. Hence straight moves to points on the table are executed on it. For step rates up to 400 kHz.", "quantifier": "all straight moves that the machine can make and all histories, in binary64; refuted for arcs", "why_tests_cant": "the assertions compare floats for equality and distinct microseconds; they can fail for one length among millions", "anchors": ["cnc/hal_virtual.py: move", "cnc/gmachine.py: _move_linear", "cnc/pulses.py: PulseGeneratorLinear"]}
{"id": "C71", "title": "What the virtual device accepts is right", "statement": "If hal_virtual.move accepts the whole output of any generator, then each motor has ended within 2e-10 mm of the displacement of the generator, the times of the pulses of each motor strictly increase, no time is after total_time_s, and the pulses of one message are due in the same microsecond.", "quantifier": "all generators, straight or not, and all outputs, in binary64", "why_tests_cant": "soundness of a checker for all outputs, including nan and infinite times", "anchors": ["cnc/hal_virtual.py: move"]}
{"id": "C72", "title": "The motor drivers make the steps the machine has counted", "statement": "When hal.move has returned, the edges of the step and direction pins which the DMA engine has made and will make let the driver of every motor take exactly the net steps of the items of the generator (one step per rising edge of the step pin, down if the direction pin is high), whatever the buffer held before. For a straight move these are round(|displacement| * pulses per mm) steps in the direction of the displacement, reversed for an inverted motor. Over a history of commands the reported position of an axis is the nearest double to the sum of the steps of its driver divided by the pulses per mm.", "quantifier": "all generators of either class over doubles, all pin assignments with distinct pins below 32, all states of the buffer and the engine before the call, all interleavings of thread and engine in which the engine does not overtake the program, all histories of commands", "why_tests_cant": "The claim joins five modules (gmachine, pulses, hal, dma, motor driver); a test would need the hardware and would see one schedule of thread and engine.", "anchors": ["cnc/hal_raspberry/hal.py: move", "cnc/pulses.py: __next__", "cnc/gmachine.py: __move_linear"]}
{"id": "C73", "title": "Arcs follow the circle", "statement": "While an arc is executed, the pulses follow the circle: the arc turns from the direction of its start by an angle d, 0 < d <= 2*pi, in the direction asked for, to the direction of its end. Every pulse belongs to a part phi of this turn and later pulses belong to larger parts. After the pulse each axis of the plane is within 3/2 steps of the point of the circle (radius rounded to steps) at phi, and the third axis and the extruder have made the part phi/d of their movement up to one step.", "quantifier": "all configurations, arcs on the grid in a plane with equal steps, both directions, third axis and extruder, every pulse of the output", "why_tests_cant": "a wrong sign of the square root or a mirrored angle only shows in some of the quarters, for some of the starts; end points alone do not show it", "anchors": ["cnc/pulses.py: PulseGeneratorCircular.__init__", "cnc/pulses.py: __circular_helper", "cnc/pulses.py: __circular_find_time", "cnc/pulses.py: __circular_a", "cnc/pulses.py: __circular_b", "cnc/pulses.py: __next__"]}
{"id": "C74", "title": "Arcs keep to the velocity asked for", "statement": "Behind the pulses of an arc is a motion along its circle: there is a differentiable phi with phi(0) = 0 such that at the time x of every pulse the axes are where the part phi(x) of the turn is, those that step exactly, the others up to 3/2 steps (one step for the third axis and the extruder). The whole way over arc, third axis and extruder is passed with at most the velocity asked for and, with the automatic adjustment, no axis is above its limit. The velocity asked for is reached if it is below the limits and the way is long enough to accelerate and brake. Pulses come in the order of their times, within the announced total time.", "quantifier": "all configurations, arcs on the grid in a plane with equal steps, both directions, third axis and extruder, every pulse of the output, every moment between pulses", "why_tests_cant": "the speed is a property of the times of all pulses together; a test sees single intervals, which the rounding to steps makes irregular", "anchors": ["cnc/pulses.py: PulseGeneratorCircular.__init__", "cnc/pulses.py: _to_accelerated_time", "cnc/pulses.py: _adjust_velocity", "cnc/pulses.py: total_time_s", "cnc/pulses.py: __circular_find_time"]}
{"id": "C75", "title": "Arcs accelerate and brake within the configured acceleration", "statement": "An arc starts from standstill, the speed along the circle and the speeds of the third axis and of the extruder never change faster than STEPPER_MAX_ACCELERATION_MM_PER_S2, and the arc ends at standstill with its last pulse.", "quantifier": "all configurations, arcs on the grid in a plane with equal steps, both directions, third axis and extruder, every pulse of the output, every moment between pulses", "why_tests_cant": "depends on the relation of length, velocity and acceleration; the tests use slow arcs, for which it holds", "anchors": ["cnc/pulses.py: PulseGeneratorCircular.__init__", "cnc/pulses.py: _to_accelerated_time", "cnc/pulses.py: __circular_find_time"]}
{"id": "C76", "title": "Memory for DMA programs is given back exactly once", "statement": "The firmware understands every request about memory as the program means it; a buffer has at least the requested size and is mapped completely; however the creation of the hardware objects ends, at the end of the process every block of memory, lock, mapping and file descriptor was given back exactly once, and nothing was used before it existed or after it was given back.", "quantifier": "all sequences of objects and sizes, all answers of the operating system and the firmware", "why_tests_cant": "needs the firmware of a Raspberry Pi and failures at every single call; the tests never create these objects", "anchors": ["cnc/hal_raspberry/rpgpio_private.py: PhysicalMemory", "cnc/hal_raspberry/rpgpio_private.py: CMAPhysicalMemory", "cnc/hal_raspberry/rpgpio_private.py: DMAProto.__init__", "cnc/hal_raspberry/hal.py: module objects"]}
{"id": "C77", "title": "No DMA channel runs on memory that was given back", "statement": "When the functions registered with atexit give the memory of the DMA programs back, however the program ended, none of the three channels is active any more, so no later owner of the memory can change what the channels do and the watchdog keeps its promise.", "quantifier": "all ends of the program, all histories of the PWM and of the watchdog, all contents the memory gets afterwards", "why_tests_cant": "what happens after the process has ended is not visible to a test, and the memory is overwritten only under load", "anchors": ["cnc/hal_raspberry/hal.py: deinit", "cnc/hal_raspberry/rpgpio_private.py: free", "cnc/hal_raspberry/rpgpio.py: DMAWatchdog", "cnc/hal_raspberry/rpgpio.py: remove_pin", "cnc/main.py: main"]}
{"id": "C78", "title": "Motors are never stepped faster than the feed and the limit of their axis", "statement": "In binary64, whenever a straight move is accepted by the velocity check, two consecutive pulses of a motor are never closer than one step at the requested feed, nor than one step at the maximum velocity of the axis (up to rounding).", "quantifier": "all moves, feeds and configurations, every pair of consecutive pulses of every motor", "why_tests_cant": "the peak speed depends on direction, on whether the move reaches its velocity and on the rounding of every time", "anchors": ["cnc/pulses.py: PulseGenerator._to_accelerated_time, PulseGeneratorLinear.__init__, _adjust_velocity", "cnc/gmachine.py: __check_velocity"]}
{"id": "C79", "title": "The board is recognised", "statement": "On a Raspberry Pi the registers of the processor named by the revision code are used; on any other computer the virtual device is chosen and no physical memory is touched.", "quantifier": "all contents of /proc/cpuinfo, all revision codes", "why_tests_cant": "depends on the board at hand; the regular expressions see arbitrary text", "anchors": ["cnc/hal_raspberry/rpgpio_private.py: module level, lines 11-34", "cnc/hal.py: import of the hardware module"]}
{"id": "C80", "title": "The motors stand where the program text says", "statement": "After a program whose last line is an accepted G0 or G1 naming a coordinate, the motor driver of this axis has been given, by the signals on its pins over the whole program, the steps to this coordinate, to within half a step.", "quantifier": "all program texts, configurations and schedules of the DMA engine", "why_tests_cant": "an error of one step in any of the layers (parser, machine, generator, DMA program) adds up over programs of any length", "anchors": ["cnc/main.py: do_line", "cnc/gcode.py: GCode.parse_line", "cnc/gmachine.py: do_command", "cnc/pulses.py: PulseGenerator", "cnc/hal_raspberry/hal.py: move", "cnc/hal_raspberry/rpgpio.py: DMAGPIO"]}
{"id": "C81", "title": "The motors never leave the table while a program runs", "statement": "For every sequence of lines of text without arc commands - whatever the text says, in whatever units, modes and origins, including lines that are refused - and at every moment between two signals on the pins of any of the moves, the number of steps the motor driver of each axis has made up minus down, counted from the start of the program in the direction of growing coordinates, is between 0 and the size of the table times the pulses per millimetre.", "quantifier": "all sequences of lines of any text and length without G2/G3, all axes, all moves, all prefixes of the signals of a move, all earlier contents of the buffer", "why_tests_cant": "a test follows a few moves to their ends; this is about every intermediate moment and every text, through parser, machine, generator, hal.move and the DMA engine", "anchors": ["cnc/main.py: do_line", "cnc/gmachine.py: do_command, __check_delta", "cnc/pulses.py: PulseGenerator", "cnc/hal_raspberry/hal.py: move", "cnc/hal_raspberry/rpgpio.py: DMAGPIO"]}
{"id": "C82", "title": "The reported position is where the motors are, after arcs too", "statement": "After any history of commands, arcs included, the reported position of every axis is the number of steps its motor has made divided by the steps per mm: arcs leave no difference behind, neither once nor adding up over a program.", "quantifier": "all configurations, all histories of commands, all axes, all generators run to their ends", "why_tests_cant": "The error of one arc is a single step or none; it only shows after many arcs or at particular heights and radii, and a test would have to compare the sum of all pulses with the position for every program.", "anchors": ["cnc/gmachine.py: GMachine._move_circular", "cnc/gmachine.py: GMachine.__adjust_circle", "cnc/pulses.py: PulseGeneratorCircular.__init__", "cnc/pulses.py: PulseGeneratorCircular._interpolation_function"]}
{"id": "C83", "title": "A measurement returns the voltage of the requested channel", "statement": "Every value returned by measure(channel), in whatever order channels are asked for and whatever transfers failed before, is the voltage that the chip found at the pin of this channel in a conversion that ended during this call, within half a step of the converter and the rounding of binary64; if the transfers work and the chip ends its conversions then the call returns.", "quantifier": "all sequences of calls, all channels, all voltages over time, all durations of conversions, all failures of transfers", "why_tests_cant": "The result register keeps the previous conversion, of another channel, until the new one ends; whether a test reads too early depends on the moment at which the chip ends its conversion.", "anchors": ["cnc/sensors/ads111x.py: measure"]}
{"id": "C84", "title": "A missing sensor chip is noticed at start and a connected one is used", "statement": "Loading the program succeeds with and without the sensor chip: a chip that answers is used for the temperatures, without one every reading fails with IOError and nothing else.", "quantifier": "all boards, all results of opening the bus and setting the address, all behaviours of the transfers, both versions of Python", "why_tests_cant": "Tests run on one machine with one interpreter, with the chip or without it; the cases differ in what the operating system raises when the bus does not exist and in how the interpreter looks for modules.", "anchors": ["cnc/sensors/ads111x.py: __I2CDev.__init__", "cnc/sensors/ads111x.py: module body", "cnc/sensors/thermistor.py: import of ads111x", "cnc/sensors/thermistor.py: get_temperature", "cnc/hal.py: import of the hardware module"]}
{"id": "C85", "title": "The spindle output follows the program", "statement": "After any commands the spindle output is high for the part S / maximum of the time, up to one of 256 slots, where S is the speed of the newest accepted M3 (or the remembered speed if it had no S); it is low at the beginning, after M5 and after the end of a program (M2, M30); no value is refused by the PWM.", "quantifier": "all configurations, all histories of commands accepted or rejected, all moments of the DMA engine, all calls for other pins in between", "why_tests_cant": "The value passes through the interpreter, a conversion to percent, a conversion to slots and control blocks changed while the engine runs; tests replace the hardware layer by a stub and stop at the percentage.", "anchors": ["cnc/gmachine.py: do_command (M3, M5, M2, M30)", "cnc/gmachine.py: _spindle", "cnc/hal_raspberry/hal.py: spindle_control", "cnc/hal_raspberry/rpgpio.py: DMAPWM.add_pin"]}
{"id": "C86", "title": "Outputs are switched off when the program stops controlling them", "statement": "While the program runs its feeding thread keeps the watchdog from changing any pin, as long as sleeps of three seconds are late by less than the watchdog's period; when the program no longer controls its outputs (it has ended or hangs), pins 0 to 29 become inputs within 2050 blocks of the watchdog (about fifteen seconds).", "quantifier": "all schedules of the feeding thread, all durations of the watchdog's blocks, all other uses of the registers, all moments at which the program ends", "why_tests_cant": "The watchdog acts seconds after the process is gone, on real hardware; tests run without it, and a late thread that lets it act once in many hours is not met in a test.", "anchors": ["cnc/watchdog.py: HardwareWatchdog.run", "cnc/hal_raspberry/hal.py: watchdog_feed", "cnc/hal_raspberry/rpgpio.py: DMAWatchdog.feed", "cnc/hal_raspberry/rpgpio.py: DMAWatchdog.start"]}
{"id": "C87", "title": "The heater outputs follow the controllers", "statement": "The output of a heater is high for the part of the time given by the newest percentage its controller sent, up to one of 256 slots; it is low before anything was sent, after the heater was switched off and after a failed measurement; no percentage sent is refused by the PWM.", "quantifier": "all interleavings of the main thread and the heater threads, all readings and clocks up to 2^64, all gains between 2^-64 and 2^64, all moments of the DMA engine, all calls for other pins in between", "why_tests_cant": "The value passes from a thread through the controller, a conversion to slots and control blocks changed while the engine runs; a test of the heater replaces the output by a function and a test of the PWM calls it directly.", "anchors": ["cnc/gmachine.py: _heat", "cnc/heater.py: Heater.run", "cnc/heater.py: Heater.stop", "cnc/hal_raspberry/hal.py: extruder_heater_control", "cnc/hal_raspberry/hal.py: bed_heater_control", "cnc/hal_raspberry/rpgpio.py: DMAPWM.add_pin"]}
{"id": "C88", "title": "The fan output follows the program", "statement": "After any commands the output of the fan is on if the newest accepted command that concerns it is M106 with S other than 0 or, with the automatic fan, M104 or M109 with S other than 0; it is off otherwise.", "quantifier": "all sequences of commands, accepted or not, all configurations, all number types, all hardware that raises in nothing but measurements, anything happening to other pins in between", "why_tests_cant": "The fan is changed by four commands and by hidden state of the machine; a rejected command must leave it alone. A test sees one sequence, and virtual hardware does not raise.", "anchors": ["cnc/gmachine.py: _fan", "cnc/gmachine.py: _heat", "cnc/gmachine.py: do_command", "cnc/hal_raspberry/hal.py: fan_control", "cnc/hal_raspberry/rpgpio.py: GPIO.set"]}
{"id": "C89", "title": "Answers tell where the motors are and what the sensors read", "statement": "An OK answer to M114 is printed after the movements have ended, and its fields X, Y, Z and E are the coordinates of the machine, X, Y and Z being the steps sent to the motors divided by the steps per mm; the fields E and B of an OK answer to M105 are the temperatures read, or None for a sensor that could not be read.", "quantifier": "all lines that parse to M114 or M105, all machine states and number types, all texts of numbers without blanks; for the motors all histories without arcs on hardware whose moves do not fail", "why_tests_cant": "A host reads the answer by the letters of its fields; tests compare the position of the machine object and never the printed text.", "anchors": ["cnc/gmachine.py: do_command", "cnc/gmachine.py: position", "cnc/main.py: do_line"]}
{"id": "C90", "title": "The PID finder controls the heater and leaves it off", "statement": "While utils/pid_finder.py runs, a heater whose reading is at or above the target is off and one whose reading is below is on, unless it was switched within the last tenth of a second; the coefficients it returns are positive, I and D belong to the mean period of the last six cycles and P to the difference of readings around the target, and computing them raises nothing; however the program ends, heaters and fan are off or deinit has been called.", "quantifier": "all readings and clocks (also clocks that go back), all targets, all exceptions in measurements", "why_tests_cant": "The utility runs on hardware only and takes many minutes; it has no tests.", "anchors": ["utils/pid_finder.py: finder", "utils/pid_finder.py: main", "cnc/hal_raspberry/hal.py: init"]}
{"id": "C91", "title": "The heater model finder stays below its maximum and leaves the heaters off", "statement": "While utils/heater_model_finder.py runs with full power on a heater, the newest reading is less than one degree above the maximum, or within one degree of an earlier reading above the maximum; the cooling coefficient it returns is within all bounds on the rate of cooling between its readings, the heating coefficient within all bounds on the rise plus the losses by cooling; only falls of temperature count for the cooling coefficient; however the program ends, heaters and fan are off and deinit has been called.", "quantifier": "all readings and clocks, all maxima and all differences of temperature not below zero, all exceptions in measurements", "why_tests_cant": "The utility runs on hardware only and takes many minutes; it has no tests.", "anchors": ["utils/heater_model_finder.py: finder", "utils/heater_model_finder.py: main"]}
{"id": "C92", "title": "The quick test of the heater model finder accepts a right model", "statement": "For a heater whose temperature obeys dT/dt = h - c (T - 25) with full power and that needs tau seconds from max - delta to max, the test of utils/heater_model_finder.py with these c, h and tau ends within h - c (max - delta - 25) degrees of max, and succeeds if that is below a tenth of max; it fails with a heating coefficient that is wrong by more than a bound given by the same numbers.", "quantifier": "all temperature curves that obey the equation, all c between 0 and 1 per second, all h, maxima, differences and durations", "why_tests_cant": "The test steps in whole seconds while the heater is continuous; the error is a statement about exponential functions for all coefficients, and the utility has no tests.", "anchors": ["utils/heater_model_finder.py: finder"]}
{"id": "C93", "title": "Waiting for a heater ends once the temperature is held", "statement": "If the temperature stays at a value within one percent of the target for more than 2.5 seconds (after two updates at this value), is_fixed() is true and M109/M190 stop waiting.", "quantifier": "all targets, coefficients, histories before and times of updates", "why_tests_cant": "Tests run one simulated heater that overshoots; a heater that stays just below its target is another infinite family of histories.", "anchors": ["cnc/pid.py: Pid.update, is_fixed", "cnc/heater.py: wait"]}
