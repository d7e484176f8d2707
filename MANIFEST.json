{
 "claims": [
  {
   "property": "C01",
   "status": "proved",
   "theorems": [
    "C01_none_iff",
    "C01_accept_iff",
    "C01_otherwise_GCodeException",
    "C01_stripping_is_a_function"
   ],
   "note": ""
  },
  {
   "property": "C02",
   "status": "proved",
   "theorems": [
    "C02_case_insensitive"
   ],
   "note": ""
  },
  {
   "property": "C03",
   "status": "proved",
   "theorems": [
    "C03_blank_anywhere",
    "C03_comment_anywhere_outside",
    "C03_semicolon_at_end"
   ],
   "note": ""
  },
  {
   "property": "C04",
   "status": "proved",
   "theorems": [
    "C04_round_trip",
    "C04_order_irrelevant",
    "C04_command_word"
   ],
   "note": ""
  },
  {
   "property": "C05",
   "status": "proved",
   "theorems": [
    "C05_value",
    "C05_no_value",
    "C05_missing",
    "C05_value_is_unique"
   ],
   "note": "binary64; |value| <= 2^1000"
  },
  {
   "property": "C06",
   "status": "proved",
   "theorems": [
    "C06_closed_box"
   ],
   "note": "finite coordinates, binary64"
  },
  {
   "property": "C07",
   "status": "proved",
   "theorems": [
    "C07_ten_decimals",
    "C07_coordinates",
    "C07_idempotent"
   ],
   "note": "binary64"
  },
  {
   "property": "C11",
   "status": "proved",
   "theorems": [
    "C11_rejected_no_effect"
   ],
   "note": ""
  },
  {
   "property": "C12",
   "status": "proved",
   "theorems": [
    "C12_frame",
    "C12_mode_commands"
   ],
   "note": ""
  },
  {
   "property": "C13",
   "status": "proved",
   "theorems": [
    "C13_feed_modal",
    "C13_failure_keeps_feed",
    "C13_too_low_fails",
    "C13_feed_floor"
   ],
   "note": ""
  },
  {
   "property": "C19",
   "status": "partial",
   "theorems": [
    "C19_program_end_partial",
    "C19_feed_refuted"
   ],
   "note": "everything but the feed rate is reset; the feed rate is not (refuted)"
  },
  {
   "property": "C21",
   "status": "proved",
   "theorems": [
    "C21_no_move_too_fast"
   ],
   "note": ""
  },
  {
   "property": "C24",
   "status": "proved",
   "theorems": [
    "C24_spindle_range",
    "C24_bad_speed_rejected",
    "C24_spindle_commands",
    "C24_after_motion",
    "C24_release"
   ],
   "note": ""
  },
  {
   "property": "C25",
   "status": "proved",
   "theorems": [
    "C25_targets_in_range",
    "C25_bad_target_rejected",
    "C25_zero_is_off",
    "C25_state_follows_heaters"
   ],
   "note": ""
  },
  {
   "property": "C26",
   "status": "proved",
   "theorems": [
    "C26_state_is_last_command",
    "C26_fan_commands",
    "C12_frame"
   ],
   "note": ""
  },
  {
   "property": "C27",
   "status": "proved",
   "theorems": [
    "C27_unknown_command",
    "C27_known_commands",
    "C27_empty_line",
    "C27_implicit_G1"
   ],
   "note": ""
  },
  {
   "property": "C08",
   "status": "partial",
   "theorems": [
    "C08_position_on_table_partial",
    "C08_position_on_table_refuted"
   ],
   "note": "holds for histories whose arcs have radius words up to 600; false for a radius word of 1e35 (given acos 1 = 0)"
  },
  {
   "property": "C14",
   "status": "partial",
   "theorems": [
    "C14_absolute_move_partial",
    "C14_absolute_move_refuted"
   ],
   "note": "coordinate words up to 1000, radius words up to 600; false for an offset of 1e30"
  },
  {
   "property": "C15",
   "status": "partial",
   "theorems": [
    "C15_relative_sum_partial",
    "C15_whole_steps_exact",
    "C15_relative_sum_refuted"
   ],
   "note": "error of at most half a step per move, none for distances that are whole steps; the bound for the whole sequence is false"
  },
  {
   "property": "C09",
   "status": "partial",
   "theorems": [
    "C09_moves_on_table_partial"
   ],
   "note": "histories with arc radius words up to 600 mm; every straight move of every command, after every item, on any hardware"
  },
  {
   "property": "C16",
   "status": "proved",
   "theorems": [
    "C16_position_is_steps_sent",
    "C16_position_is_pulses_emitted"
   ],
   "note": "hardware whose motor calls do not raise"
  },
  {
   "property": "C17",
   "status": "partial",
   "theorems": [
    "C17_g92_same_words_no_motion_partial",
    "C17_g92_work_coordinates_partial",
    "C17_g92_origin",
    "C17_g53_cancels",
    "C17_g92_same_words_no_motion_refuted"
   ],
   "note": "coordinate words up to 1000, radius words up to 600, E below 32768; false for coordinates of 1e30"
  },
  {
   "property": "C18",
   "status": "proved",
   "theorems": [
    "C18_unit_mode",
    "C18_words_scaled",
    "C18_words_scaled_close",
    "C18_feed_not_scaled"
   ],
   "note": "binary64; words up to 2^900"
  },
  {
   "property": "C20",
   "status": "partial",
   "theorems": [
    "C20_homing_partial",
    "C20_calibration_failure"
   ],
   "note": "histories whose arcs have radius words up to 600"
  },
  {
   "property": "C28",
   "status": "partial",
   "theorems": [
    "C28_every_line_answered_partial",
    "C28_line_answered_partial",
    "C28_session_answered_partial",
    "C28_file_ends_partial",
    "C28_every_line_answered_refuted",
    "C28_arc_refuted",
    "C28_sensor_failure_refuted"
   ],
   "note": "what can escape is one of four exceptions or was raised by the hardware; nothing escapes from lines of numbers that are no arcs while the hardware raises nothing, over whole sessions without extruder words; the line X1.2.3 and an arc whose end is exactly on its circle do end the program"
  },
  {
   "property": "C29",
   "status": "partial",
   "theorems": [
    "C29_file",
    "C29_interactive",
    "C29_answers_in_order",
    "C29_released_partial",
    "C29_released_refuted"
   ],
   "note": "order of execution fully proved; switching off at the end proved when the calls that switch outputs do not raise; false for an interrupt inside the constructor of Heater"
  },
  {
   "property": "C58",
   "status": "partial",
   "theorems": [
    "C58_ends_released_partial",
    "C58_ends_released_refuted"
   ],
   "note": "false for every exception other than KeyboardInterrupt, for instance end of input at the prompt"
  },
  {
   "property": "C22",
   "status": "partial",
   "theorems": [
    "C22_adjusted_exact",
    "C22_adjusted_float_partial",
    "C22_adjusted_refuted"
   ],
   "note": "exact arithmetic: every configuration; binary64: every configuration whose limits are whole mm/s up to 1000 mm/s (as in config.py), moves of at least one step and at most 4096 mm per axis; false for other limits (1000 mm/min)"
  },
  {
   "property": "C30",
   "status": "partial",
   "theorems": [
    "C30_pulses_exact",
    "C30_travel_exact",
    "C30_pulses_float",
    "C30_travel_float",
    "C30_completes_float",
    "C30_pulses_float_refuted"
   ],
   "note": "exact arithmetic: full statement; binary64: moves of at least one step and at most 4096 mm at 1 mm/min or more run to their end with the right pulses; slower moves may end with ZeroDivisionError when an axis velocity is rounded to 0"
  },
  {
   "property": "C31",
   "status": "partial",
   "theorems": [
    "C31_times_exact",
    "C31_times_float_partial",
    "C31_times_float_refuted"
   ],
   "note": "exact arithmetic: full statement; binary64: full statement except that the times of two different motors may decrease by a few units in the last place, with a witness that they do"
  },
  {
   "property": "C32",
   "status": "partial",
   "theorems": [
    "C32_straight_exact",
    "C32_straight_float_partial"
   ],
   "note": "exact arithmetic: full statement; binary64: within 1.07 pulses instead of 1"
  },
  {
   "property": "C33",
   "status": "proved",
   "theorems": [
    "C33_limits_exact"
   ],
   "note": ""
  },
  {
   "property": "C34",
   "status": "partial",
   "theorems": [
    "C34_brakes_partial",
    "C34_brakes_refuted",
    "C34_no_braking_refuted"
   ],
   "note": "true for moves of one axis; false for every move of several axes, with the speed left at the end"
  },
  {
   "property": "C59",
   "status": "proved",
   "theorems": [
    "C59_dwell"
   ],
   "note": ""
  },
  {
   "property": "C60",
   "status": "proved",
   "theorems": [
    "C60_start_after_test",
    "C60_dead_sensor"
   ],
   "note": ""
  },
  {
   "property": "C61",
   "status": "proved",
   "theorems": [
    "C61_temperature_query"
   ],
   "note": "for sensors that fail with IOError/OSError, the exceptions the code catches"
  },
  {
   "property": "C62",
   "status": "proved",
   "theorems": [
    "C62_rapid_exact",
    "C62_rapid_float"
   ],
   "note": "exact arithmetic; in binary64 to within 0.00001 mm per minute, limits being whole mm per second"
  },
  {
   "property": "C10",
   "status": "partial",
   "theorems": [
    "C10_circle_exact_partial",
    "C10_inside_exact_partial",
    "C10_circle_float_partial",
    "C10_inside_float_partial",
    "C10_refuted",
    "C10_circle_refuted"
   ],
   "note": "full circles, and arcs whose circle is on the table, in exact arithmetic and in binary64 (radius surviving the conversions between steps and mm), with equal steps in the plane; false for other arcs: the last crossing into the quarter of the end is not checked, an accepted half circle goes 5 mm over the edge; false for full circles whose radius does not survive: one of 1.16 mm ends one step outside"
  },
  {
   "property": "C23",
   "status": "partial",
   "theorems": [
    "C23_planar_exact_partial",
    "C23_long_exact_partial",
    "C23_rise_exact_partial",
    "C23_refuted"
   ],
   "note": "exact arithmetic, for arcs in their plane and for arcs that reach their velocity; false for short helical arcs"
  },
  {
   "property": "C35",
   "status": "partial",
   "theorems": [
    "C35_exact_partial",
    "C35_whole_turn_exact",
    "C35_float_partial",
    "C35_third_float",
    "C35_power_of_two_partial",
    "C35_requests",
    "C35_circle_refuted",
    "C35_quarter_refuted",
    "C35_helix_refuted"
   ],
   "note": "planes with equal steps per mm. Exact arithmetic: all circles, all arcs between different quarters and all arcs that do not go back in their quarter; the others are whole turns. Binary64: the same arcs if start and radius survive the conversion to mm and back (always with a power of two as steps per mm); the third axis makes one step too many for some heights; false for some circles, for some heights of helices and for arcs against the clock inside one quarter. Missing: planes with different steps per mm, the extruder in binary64"
  },
  {
   "property": "C37",
   "status": "partial",
   "theorems": [
    "C37_exact_partial",
    "C37_accepted_exact_partial",
    "C37_exact_only",
    "C37_refuted"
   ],
   "note": "exact arithmetic, ends on an axis or diagonal of the circle and full circles; false for all other ends"
  },
  {
   "property": "C36",
   "status": "partial",
   "theorems": [
    "C36_circle_walk",
    "C36_pulses",
    "C36_arcs_float_partial",
    "C36_refuted"
   ],
   "note": "the walk on integers is proved; with binary64 the radius in pulses may come out one too small, then the last pulse of an arc can leave the circle by one step"
  },
  {
   "property": "C38",
   "status": "partial",
   "theorems": [
    "C38_exact_partial",
    "C38_arcs_complete_partial",
    "C38_power_of_two_room",
    "C38_refuted_xy",
    "C38_refuted_yz"
   ],
   "note": "binary64, planes with equal steps, arcs with room; false with the shipped configuration: circles in the XY and YZ planes that raise half way"
  },
  {
   "property": "C39",
   "status": "partial",
   "theorems": [
    "C39_output_exact",
    "C39_output_partial",
    "C39_power_partial",
    "C39_output_refuted"
   ],
   "note": "exact arithmetic: all coefficients and sequences; binary64: all numbers up to 2^64 in magnitude, any thread schedule; false beyond (nan)"
  },
  {
   "property": "C40",
   "status": "partial",
   "theorems": [
    "C40_windup_exact",
    "C40_windup_partial"
   ],
   "note": "exact arithmetic: all coefficients and sequences; binary64: all numbers up to 2^64, I at least 2^-64"
  },
  {
   "property": "C41",
   "status": "proved",
   "theorems": [
    "C41_fixed_iff_held",
    "C41_stays"
   ],
   "note": ""
  },
  {
   "property": "C42",
   "status": "proved",
   "theorems": [
    "C42_stopped_stays_off"
   ],
   "note": ""
  },
  {
   "property": "C43",
   "status": "partial",
   "theorems": [
    "C43_only_zero_after_failure",
    "C43_switched_off_partial",
    "C43_refuted"
   ],
   "note": "true for IOError/OSError; false for other exceptions (struct.error), with a heater left on forever"
  },
  {
   "property": "C44",
   "status": "partial",
   "theorems": [
    "C44_failure_is_final",
    "C44_refuted",
    "C44_stop_returns_partial"
   ],
   "note": "false after every failed measurement of the heater thread; stop() can return if there was none"
  },
  {
   "property": "C45",
   "status": "partial",
   "theorems": [
    "C45_error_is_final",
    "C45_refuted",
    "C45_can_measure_partial"
   ],
   "note": "false after every I2C error; true while only voltages are refused"
  },
  {
   "property": "C63",
   "status": "partial",
   "theorems": [
    "C63_off_means_off_partial",
    "C63_one_driver_partial",
    "C63_refuted"
   ],
   "note": "false if the measurement at the end of Heater.__init__ raises; true otherwise"
  },
  {
   "property": "C57",
   "status": "partial",
   "theorems": [
    "C57_readings",
    "C57_refusal_float",
    "C57_voltages_partial",
    "C57_refuted"
   ],
   "note": "proved for every voltage the converter can deliver (temperatures in real arithmetic, the refusal also in binary64); false for arbitrary real voltages below about 77 microvolt"
  },
  {
   "property": "C64",
   "status": "proved",
   "theorems": [
    "C64_one_user"
   ],
   "note": ""
  },
  {
   "property": "C46",
   "status": "proved",
   "theorems": [
    "C46_duty",
    "C46_levels",
    "C46_first_block",
    "C46_slots",
    "C46_accepted"
   ],
   "note": "binary64 duty cycles; block transfers are atomic"
  },
  {
   "property": "C47",
   "status": "partial",
   "theorems": [
    "C47_refuted",
    "C46_duty"
   ],
   "note": "false: witness schedule of two threads leaves a removed heater pin on for ever; true for calls that do not overlap (C46)"
  },
  {
   "property": "C48",
   "status": "proved",
   "theorems": [
    "C48_low",
    "C48_needs_atomic_blocks"
   ],
   "note": "block transfers of the engine are atomic; the second theorem shows that this hardware assumption is needed"
  },
  {
   "property": "C49",
   "status": "partial",
   "theorems": [
    "C49_plays_partial",
    "C49_refuted"
   ],
   "note": "true for masks of 32 pins and delays below 2^26 microseconds; longer delays are accepted and played with another length"
  },
  {
   "property": "C50",
   "status": "proved",
   "theorems": [
    "C50_inside",
    "C50_full"
   ],
   "note": ""
  },
  {
   "property": "C54",
   "status": "proved",
   "theorems": [
    "C54_bites",
    "C54_bites_first",
    "C54_quiet",
    "C54_late"
   ],
   "note": "time is counted in completed control blocks of the watchdog; pulling a pin is modelled as selecting the input function"
  },
  {
   "property": "C56",
   "status": "proved",
   "theorems": [
    "C56_init",
    "C56_set_clear",
    "C56_read"
   ],
   "note": ""
  },
  {
   "property": "C51",
   "status": "partial",
   "theorems": [
    "C51_calls",
    "C51_exact_partial",
    "C51_late_partial",
    "C51_played_partial",
    "C51_straight_partial",
    "C51_refuted"
   ],
   "note": "exact characterisation of what the drivers get, through the DMA program; true if pulses do not overlap, otherwise delays add up, because prev is computed from the nominal start (witness: 0, 1, 100 microseconds)"
  },
  {
   "property": "C52",
   "status": "proved",
   "theorems": [
    "C52_untouched",
    "C52_plays_on",
    "C52_next"
   ],
   "note": "all schedules of thread and engine, until the new movement is started (see C53 for later)"
  },
  {
   "property": "C53",
   "status": "partial",
   "theorems": [
    "C53_fresh_partial",
    "C53_no_instant_partial",
    "C53_refuted",
    "C53_end_refuted"
   ],
   "note": "false if the thread is too slow (the check of line 291 is made only once); true if the engine stays behind, or without instant run"
  },
  {
   "property": "C55",
   "status": "proved",
   "theorems": [
    "C55_true",
    "C55_stops",
    "C55_only"
   ],
   "note": "in the first phase the switch has to be released, in the second one to be closed"
  },
  {
   "property": "C65",
   "status": "partial",
   "theorems": [
    "C65_off_partial",
    "C65_raises",
    "C65_refuted"
   ],
   "note": "Python 3: remove_all raises RuntimeError if any pin is driven by the PWM; true if there is none"
  },
  {
   "property": "C66",
   "status": "partial",
   "theorems": [
    "C66_not_begun_partial",
    "C66_fits_partial",
    "C66_refuted"
   ],
   "note": "false with instant run (default); true without; a movement that fits never fails"
  },
  {
   "property": "C67",
   "status": "proved",
   "theorems": [
    "C67_init"
   ],
   "note": ""
  },
  {
   "property": "C68",
   "status": "partial",
   "theorems": [
    "C68_success_partial",
    "C68_refuted"
   ],
   "note": "true if calibrate returns True; if the time is over the last program (up to one second of pulses) goes on"
  },
  {
   "property": "C69",
   "status": "proved",
   "theorems": [
    "C69_straight_executed"
   ],
   "note": "binary64, all histories of moderate commands; together with C14 and C15 (where the move ends), C22 (limits) and C30, C32 (steps and their line)"
  },
  {
   "property": "C70",
   "status": "partial",
   "theorems": [
    "C70_virtual_accepts",
    "C70_virtual_executes",
    "C70_virtual_arc_refuted"
   ],
   "note": "straight moves, binary64, proved for the generator and for the machine with any history of moderate commands; steps per mm such that a step is an odd fraction (up to 1/40) of a multiple of 1e-10 mm. False for arcs: witness"
  },
  {
   "property": "C71",
   "status": "proved",
   "theorems": [
    "C71_virtual_sound"
   ],
   "note": "binary64; steps per mm up to 1000 and at most 65 m of travel"
  },
  {
   "property": "C72",
   "status": "partial",
   "theorems": [
    "C72_drivers",
    "C72_line",
    "C72_straight",
    "C72_history",
    "C72_position_partial"
   ],
   "note": "binary64; pauses below 67 seconds between pulses (proved for straight moves at 1 mm per minute or more, C72_straight), and the engine does not overtake a program it streams (C53). C72_position_partial: commands without arcs on hardware whose moves do not raise; for arcs C72_history gives the steps of the generator"
  },
  {
   "property": "C73",
   "status": "partial",
   "theorems": [
    "C73_exact_partial"
   ],
   "note": "exact arithmetic, equal steps in the plane, circles and arcs that do not go back in their quarter; missing: binary64, different steps, and the arcs of C35_whole_turn_exact, which are executed as whole turns"
  },
  {
   "property": "C74",
   "status": "partial",
   "theorems": [
    "C74_exact_partial"
   ],
   "note": "exact arithmetic, equal steps in the plane, circles and arcs that do not go back in their quarter; missing: binary64 and different steps"
  },
  {
   "property": "C75",
   "status": "partial",
   "theorems": [
    "C75_exact_partial",
    "C75_refuted"
   ],
   "note": "exact arithmetic, as C74. Proved for arcs with (v/60)^2 <= acceleration * way (the standstill at the end for arcs in the plane); refuted for short arcs: the branch for arcs too short to reach their velocity changes the acceleration time but the times of the steps still come from the velocity asked for, so the arc accelerates faster and ends at full speed. Not about the acceleration towards the centre"
  },
  {
   "property": "C76",
   "status": "partial",
   "theorems": [
    "C76_messages",
    "C76_block",
    "C76_given_back_partial",
    "C76_failed_partial",
    "C76_refuted",
    "C76_map_refuted"
   ],
   "note": "all objects created: everything is given back exactly once, for all answers of the system that give nothing twice, if giving back does not raise; if the creation of an object fails, everything but at most one block and two descriptors; refuted: a block that can not be locked or mapped is never released (there is no __del__)"
  },
  {
   "property": "C77",
   "status": "partial",
   "theorems": [
    "C77_stopped_partial",
    "C77_refuted",
    "C77_deinit_refuted"
   ],
   "note": "true when deinit was called and no pin was left with the PWM; false when the program ends with another exception than KeyboardInterrupt: the watchdog runs on released memory and a later owner can disable it"
  },
  {
   "property": "C78",
   "status": "partial",
   "theorems": [
    "C78_feed",
    "C78_limit_partial",
    "C78_unadjusted_refuted"
   ],
   "note": "binary64, moves of at least one step and at most 4096 mm: the feed always, the limit of the axis if velocities are adjusted; bounds up to 2 in a million and one in 25 million for every pulse of the move. Refuted without the adjustment: in moves too short to reach their velocity the check looks at velocities below the real peak"
  },
  {
   "property": "C79",
   "status": "partial",
   "theorems": [
    "C79_base_partial",
    "C79_base_refuted",
    "C79_virtual_partial",
    "C79_virtual_refuted"
   ],
   "note": "exact characterisation for all files and revision codes; false for the Zero, for codes with flags and for the BCM2711; a file with Hardware and without Revision ends the program with AttributeError; boards of other makers with a small revision number are taken for a Raspberry Pi"
  },
  {
   "property": "C80",
   "status": "partial",
   "theorems": [
    "C80_motors_where_told_partial",
    "C80_with_arcs_partial"
   ],
   "note": "binary64; lines in absolute millimetres from the corner of the table, on hardware that raises nothing; with arcs when all of them are faithful in the sense of C82 (false otherwise: C82_drift_refuted)"
  },
  {
   "property": "C81",
   "status": "partial",
   "theorems": [
    "C81_motors_on_table_partial",
    "C81_circles_partial",
    "C81_circles_power_of_two_partial",
    "C81_circles_refuted"
   ],
   "note": "binary64; any text without G2/G3 on hardware whose moves do not raise; also with full circles in planes with equal steps per mm, whose radius survives the conversions between steps and mm (else false: k circles of 0.29 mm take X 4 k steps to the right); arcs can leave the table (C10_refuted); steps of homing are not counted"
  },
  {
   "property": "C82",
   "status": "partial",
   "theorems": [
    "C82_position_with_arcs_partial",
    "C82_power_of_two_partial",
    "C82_drift_refuted",
    "C81_circles_refuted"
   ],
   "note": "binary64; histories whose arcs lie in planes with equal steps per mm, do not go back inside one quarter and survive the conversions between steps and mm (always with powers of two as steps per mm); false in general: circles rising by 0.07 mm add one step of Z each without end, flat circles of 0.29 mm four steps of X each. Missing: planes with different steps per mm, the extruder"
  },
  {
   "property": "C83",
   "status": "proved",
   "theorems": [
    "C83_voltages",
    "C83_ends"
   ],
   "note": "the chip as a transition system after its data sheet, conversions ending at any moment; failures of transfers and short reads at any moment; calls one after the other (exclusion of two threads: C64; the lock stays taken after a failure: C45)"
  },
  {
   "property": "C84",
   "status": "partial",
   "theorems": [
    "C84_start_partial",
    "C84_used_partial",
    "C84_no_bus_refuted",
    "C84_python3_refuted"
   ],
   "note": "proved for a bus that can be opened, transfers that work or raise OSError, and an interpreter that finds the module; false without /dev/i2c-1 (OSError ends the program on a board that is otherwise recognised) and on Python 3 (import ads111x is not found beside the importing file, a connected chip is never used)"
  },
  {
   "property": "C85",
   "status": "partial",
   "theorems": [
    "C85_spindle_partial",
    "C85_accepted",
    "C85_program_end_refuted"
   ],
   "note": "binary64; proved if programs end with the spindle at rest, for calls of the PWM that do not overlap (two threads at once: C47) and hardware that does not raise in join and spindle_control; false for M2 and M30: they reset the remembered speed but leave the spindle running"
  },
  {
   "property": "C86",
   "status": "partial",
   "theorems": [
    "C86_running",
    "C86_ended",
    "C86_blocked_refuted"
   ],
   "note": "proved for a running thread and for a program that has ended, with the duration of a block as a parameter; false for a program that hangs: the feeding thread looks at nothing, so a heater blocked with its output on (C45) is never switched off"
  },
  {
   "property": "C87",
   "status": "partial",
   "theorems": [
    "C87_accepted",
    "C87_power_partial",
    "C87_off_partial",
    "C87_failed_partial"
   ],
   "note": "binary64; proved for calls of the PWM that do not overlap (two threads at once: C47), for heaters whose constructor did not raise (otherwise false: C63) and, after a failed measurement, once the thread has sent a value (false for exceptions other than IOError: C43, and for threads blocked by another thread: C45)"
  },
  {
   "property": "C88",
   "status": "partial",
   "theorems": [
    "C88_fan_partial",
    "C88_refuted"
   ],
   "note": "all number types; proved for hardware that raises in nothing but measurements; if the start of the extruder heater raises, M104 is rejected with no heater and the fan stays on (refuted)"
  },
  {
   "property": "C89",
   "status": "proved",
   "theorems": [
    "C89_position_query",
    "C89_temperature_query",
    "C89_motors"
   ],
   "note": "the first two for all number types, the last in binary64 with C16; the text of a float is a parameter that contains no blank; the coordinates are those of the machine, not those of the program after G92 or G20 (Example)"
  },
  {
   "property": "C90",
   "status": "partial",
   "theorems": [
    "C90_thermostat",
    "C90_coefficients",
    "C90_meaning",
    "C90_end_partial",
    "C90_interrupt_partial",
    "C90_end_refuted",
    "C90_unfed_refuted"
   ],
   "note": "thermostat for all number types, coefficients and end in exact arithmetic. False at the end for exceptions other than IOError and KeyboardInterrupt: full power without deinit. False on the board: hal.init starts the watchdog and the utility never feeds it, so the pins are inputs after 2050 blocks"
  },
  {
   "property": "C91",
   "status": "partial",
   "theorems": [
    "C91_limit",
    "C91_meaning",
    "C91_off",
    "C91_deinit",
    "C91_end_partial",
    "C91_end_refuted",
    "C91_cooling_refuted"
   ],
   "note": "exact arithmetic for the limit, the coefficients and the end. False at the end: with a sensor that never fails one outlying reading gives ZeroDivisionError in line 93, before the heater is switched off, and the program ends with full power and without deinit (binary64 witness). False for the cooling coefficient: a rise after a reading equal to the maximum is counted as cooling (C91_cooling_refuted). After a keyboard interrupt only deinit is called, after other exceptions nothing (C91_deinit). The watchdog is not fed here either, see C90_unfed_refuted"
  },
  {
   "property": "C92",
   "status": "proved",
   "theorems": [
    "C92_right_model",
    "C92_wrong_heating"
   ],
   "note": "exact arithmetic; the duration of heating is an argument of the model of the test"
  },
  {
   "property": "C93",
   "status": "partial",
   "theorems": [
    "C93_above_partial",
    "C93_below_refuted"
   ],
   "note": "exact arithmetic. True for temperatures held above the target, constant or not falling too fast. False below: for all settings, after a heating up that fills the integral, a temperature held just below the target with full power is never accepted and M109 waits for ever"
  }
 ]
}