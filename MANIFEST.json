{
 "claims": [
  {
   "property": "C01",
   "status": "proved",
   "theorems": [
    "C01_roundtrip_one",
    "C01_roundtrip_text"
   ],
   "note": "Both signednesses of char."
  },
  {
   "property": "C02",
   "status": "proved",
   "theorems": [
    "C02_bounded",
    "C02_malformed_is_fffd_or_nothing",
    "C02_resync"
   ],
   "note": ""
  },
  {
   "property": "C03",
   "status": "partial",
   "theorems": [
    "C03_only_shortest_refuted",
    "C03_accepted_is_structural_partial"
   ],
   "note": "False of the code as stated: overlong forms, surrogates and values above U+10FFFF are accepted (witnesses in the refutation). The partial theorem is what does hold."
  },
  {
   "property": "C04",
   "status": "proved",
   "theorems": [
    "C04_encodes_exactly",
    "C04_prefix_free",
    "C04_alloc"
   ],
   "note": ""
  },
  {
   "property": "C06",
   "status": "proved",
   "theorems": [
    "C06_width"
   ],
   "note": "Relative to the interval tables transcribed from wcwidth.c."
  },
  {
   "property": "C05",
   "status": "partial",
   "theorems": [
    "C05_make_get",
    "C05_make_any",
    "C05_append_get_refuted",
    "C05_readback_shifted_partial",
    "C05_intern_injective_partial",
    "C05_ids_stable"
   ],
   "note": "False of the code as stated: a freshly appended symbol does not read back as its own text because its id maps to the next index slot. Proved: exact (shifted) read-back, interning is injective and stable, plain symbols read back."
  },
  {
   "property": "C07",
   "status": "partial",
   "theorems": [
    "C07_safe_partial",
    "C07_step_safe_partial",
    "C07_memory_safety_refuted"
   ],
   "note": "False as stated: two calls go out of bounds (double-width write in insert mode on a one-column screen; tab_left with the cursor beyond the tab ruler), witnesses from the initial screen. Proved: a run is undefined exactly if it meets one of these two. Selection calls: C24."
  },
  {
   "property": "C08",
   "status": "proved",
   "theorems": [
    "C08_bounds",
    "C08_beyond_only_by_write"
   ],
   "note": "The column may be size_x or size_x+1 after a write that reaches the right edge, as the property allows."
  },
  {
   "property": "C09",
   "status": "proved",
   "theorems": [
    "C09_limit",
    "C09_step",
    "C09_fifo",
    "C09_most_recent"
   ],
   "note": ""
  },
  {
   "property": "C10",
   "status": "partial",
   "theorems": [
    "C10_view_live_or_present",
    "C10_sb_up",
    "C10_sb_down",
    "C10_up_down",
    "C10_sb_reset",
    "C10_numeric_position_refuted"
   ],
   "note": "The view part is proved; the numeric position is wrong after sb_reset (witness)."
  },
  {
   "property": "C11",
   "status": "proved",
   "theorems": [
    "C11_resize",
    "C11_same_size",
    "C11_zero_size"
   ],
   "note": "Dimensions up to 2^30 each way."
  },
  {
   "property": "C12",
   "status": "partial",
   "theorems": [
    "C12_exposed_partial",
    "C12_default_attributes_refuted"
   ],
   "note": "Exposed cells are blank; on the main screen they carry the attributes saved when the alternate screen was last entered (zeros before), not the default attributes."
  },
  {
   "property": "C13",
   "status": "proved",
   "theorems": [
    "C13_scrolls_exactly",
    "C13_outside_untouched",
    "C13_cursor",
    "C13_margins"
   ],
   "note": ""
  },
  {
   "property": "C14",
   "status": "proved",
   "theorems": [
    "C14_insert_lines",
    "C14_delete_lines",
    "C14_outside_region"
   ],
   "note": ""
  },
  {
   "property": "C15",
   "status": "proved",
   "theorems": [
    "C15_insert_chars",
    "C15_delete_chars"
   ],
   "note": ""
  },
  {
   "property": "C16",
   "status": "partial",
   "theorems": [
    "C16_erase_exact",
    "C16_erase_chars_partial",
    "C16_erase_chars_refuted"
   ],
   "note": "All erase calls exact; erase_chars only for cursor column + count <= 2^32, beyond which the end column wraps (witness)."
  },
  {
   "property": "C17",
   "status": "proved",
   "theorems": [
    "C17_main_untouched",
    "C17_leave",
    "C17_round_trip"
   ],
   "note": ""
  },
  {
   "property": "C18",
   "status": "proved",
   "theorems": [
    "C18_write",
    "C18_zero_width"
   ],
   "note": "Outside the insert-mode hazard of C07."
  },
  {
   "property": "C19",
   "status": "partial",
   "theorems": [
    "C19_tab_right",
    "C19_tab_left_partial",
    "C19_set_reset",
    "C19_clear",
    "C19_tab_left_refuted"
   ],
   "note": "tab_left is proved for a cursor column up to size_x; at size_x+1 it reads outside the ruler (witness)."
  },
  {
   "property": "C22",
   "status": "partial",
   "theorems": [
    "C22_motion_partial",
    "C22_origin_refuted"
   ],
   "note": "All motions exact; move_to in origin mode only for a row that does not wrap 2^32 (witness otherwise)."
  },
  {
   "property": "C46",
   "status": "proved",
   "theorems": [
    "C46_ring_is_fifo"
   ],
   "note": "Including failing allocations; total data up to 2^63 bytes (above, SHL_ALIGN_POWER2 shifts by 64)."
  },
  {
   "property": "C47",
   "status": "proved",
   "theorems": [
    "C47_array_is_list",
    "C47_zresize",
    "C47_zresize_zeroes_refuted"
   ],
   "note": "push/pop/access with byte counts below 2^64. The refutation is about the comment of shl_array_zresize, outside the property."
  },
  {
   "property": "C49",
   "status": "proved",
   "theorems": [
    "C49_delivery",
    "C49_result"
   ],
   "note": "writev results are an arbitrary schedule."
  },
  {
   "property": "C23",
   "status": "proved",
   "theorems": [
    "C23_hard_reset",
    "C23_history_forgotten",
    "C23_ris"
   ],
   "note": "Every component of the terminal and of the shown screen is determined by size, palette and default attributes. Contents of the hidden alternate screen and the position saved by mode 1048/1049 survive; the property does not name them."
  },
  {
   "property": "C27",
   "status": "partial",
   "theorems": [
    "C27_input_partial",
    "C27_wide_refuted",
    "C27_tab_refuted",
    "C27_sgr_refuted"
   ],
   "note": "False as stated: three inputs go out of bounds (witnesses; the colour introducer as sixteenth SGR parameter does so in every state). Proved: in every reachable state input is undefined exactly when it meets one of these three."
  },
  {
   "property": "C28",
   "status": "proved",
   "theorems": [
    "C28_chunks",
    "C28_any_split"
   ],
   "note": "State, replies and callbacks are all components of the result."
  },
  {
   "property": "C29",
   "status": "partial",
   "theorems": [
    "C29_cancel_partial",
    "C29_substitute_partial",
    "C29_escape_restarts_partial",
    "C29_truncated_refuted"
   ],
   "note": "Proved whenever the byte is delivered to the parser (always in 7/8-bit mode; in UTF-8 mode when the decoder is between characters). After an incomplete UTF-8 character the byte is consumed by the decoder (witness)."
  },
  {
   "property": "C30",
   "status": "proved",
   "theorems": [
    "C30_parameters",
    "C30_value_exact",
    "C30_value_large",
    "C30_always_in_range"
   ],
   "note": ""
  },
  {
   "property": "C31",
   "status": "proved",
   "theorems": [
    "C31_ignored_strings"
   ],
   "note": ""
  },
  {
   "property": "C32",
   "status": "proved",
   "theorems": [
    "C32_osc"
   ],
   "note": "For strings whose characters can be encoded in the input mode; control characters below 32 are dropped."
  },
  {
   "property": "C33",
   "status": "partial",
   "theorems": [
    "C33_replies",
    "C33_answers",
    "C33_cursor_report_partial",
    "C33_column_refuted"
   ],
   "note": "All parts proved except that the reported column may exceed the width by two in pending wrap position (witness)."
  },
  {
   "property": "C34",
   "status": "partial",
   "theorems": [
    "C34_sgr_partial",
    "C34_unmentioned",
    "C34_colours_in_range",
    "C34_overrun_refuted",
    "C34_missing_refuted"
   ],
   "note": "Proved for all parameter lists except those whose sixteenth is a colour introducer (out of bounds, witness); missing parameters among others are skipped instead of meaning 0 (witness)."
  },
  {
   "property": "C35",
   "status": "partial",
   "theorems": [
    "C35_save_restore_partial",
    "C35_origin_refuted",
    "C35_sets_refuted",
    "C35_pending_wrap_refuted"
   ],
   "note": "Proved with origin mode off at the restore, for position, attributes, GL/GR selection, origin and wrap mode, over arbitrary input in between. Three witnesses for what is not restored."
  },
  {
   "property": "C36",
   "status": "proved",
   "theorems": [
    "C36_mode_is_local",
    "C36_unknown_mode",
    "C36_mouse_modes",
    "C36_screen_modes",
    "C36_twice",
    "C36_last_wins",
    "C36_several"
   ],
   "note": ""
  },
  {
   "property": "C37",
   "status": "proved",
   "theorems": [
    "C37_soft_reset"
   ],
   "note": ""
  },
  {
   "property": "C38",
   "status": "partial",
   "theorems": [
    "C38_key_partial",
    "C38_echo_partial",
    "C38_equal_refuted",
    "C38_keypad_refuted",
    "C38_seven_bit_refuted",
    "C38_alt_echo_refuted"
   ],
   "note": "Every key, modifier and mode against an independent table, except three keypad keys, characters above 255 in 7-bit mode and Alt with local echo (witnesses)."
  },
  {
   "property": "C39",
   "status": "partial",
   "theorems": [
    "C39_x10",
    "C39_sgr_partial",
    "C39_pixel_partial",
    "C39_not_asked",
    "C39_code_readable",
    "C39_buttons_distinct",
    "C39_motion_refuted",
    "C39_cut_refuted"
   ],
   "note": "Coordinates below 10^7 in decimal modes (longer reports are cut, witness); motion reports carry neither button nor modifiers (witness); local echo off."
  },
  {
   "property": "C40",
   "status": "proved",
   "theorems": [
    "C40_text_through_sets",
    "C40_locked",
    "C40_single_shift",
    "C40_default_is_ascii",
    "C40_shift",
    "C40_designate"
   ],
   "note": ""
  },
  {
   "property": "C41",
   "status": "proved",
   "theorems": [
    "C41_reads_palette",
    "C41_entry_selected",
    "C41_codes_in_force"
   ],
   "note": ""
  },
  {
   "property": "C42",
   "status": "partial",
   "theorems": [
    "C42_latin1_partial",
    "C42_controls_partial",
    "C42_csi_partial",
    "C42_signed_refuted",
    "C42_set_refuted"
   ],
   "note": "False where char is signed (witness) and with the set that entering the mode installs (witness); proved for unsigned char with Latin-1 in GR."
  },
  {
   "property": "C43",
   "status": "partial",
   "theorems": [
    "C43_column_partial",
    "C43_row_partial",
    "C43_origin_refuted"
   ],
   "note": "Proved with origin mode off; false in origin mode (witness)."
  },
  {
   "property": "C44",
   "status": "proved",
   "theorems": [
    "C44_position",
    "C44_cup"
   ],
   "note": ""
  },
  {
   "property": "C45",
   "status": "proved",
   "theorems": [
    "C45_plain_text"
   ],
   "note": "Whenever the writes themselves are defined (C18); otherwise both sides are undefined."
  },
  {
   "property": "C20",
   "status": "partial",
   "theorems": [
    "C20_redraw_partial",
    "C20_resize_refuted",
    "C20_def_attr_refuted"
   ],
   "note": "Proved for sessions in which the client redraws everything after a change of size and default attributes do not change while lines shorter than the screen may be shown, through counter overflow; both conditions are needed (witnesses)."
  },
  {
   "property": "C21",
   "status": "partial",
   "theorems": [
    "C21_cover",
    "C21_selection_partial",
    "C21_lost_end_refuted",
    "C21_narrow_refuted"
   ],
   "note": "Coverage, order, cells, cursor and unchanged content in all states; selected cells when both ends are within the width and a lost end occurs only with the view at the bottom; otherwise false (witnesses)."
  },
  {
   "property": "C24",
   "status": "partial",
   "theorems": [
    "C24_fresh_partial",
    "C24_later_partial",
    "C24_none_partial",
    "C24_wide_refuted",
    "C24_scrolled_refuted",
    "C24_down_refuted",
    "C24_narrow_refuted"
   ],
   "note": "Proved for every selection just made and for later ones whose ends are both on the screen, both in the scrollback or top without mixing, if characters take at most 3 bytes or one row is selected; false otherwise (witnesses)."
  },
  {
   "property": "C25",
   "status": "partial",
   "theorems": [
    "C25_forward_partial",
    "C25_backward_partial",
    "C25_later_partial",
    "C25_solid_partial",
    "C25_order_refuted",
    "C25_first_row_refuted",
    "C25_newline_refuted",
    "C25_blank_refuted"
   ],
   "note": "The text of the cells for every selection just made and later, except where the code mistakes the order of the ends, the first row has no text at the start, or 4-byte characters over several rows (witnesses); blanks between characters are zero bytes (witness)."
  },
  {
   "property": "C26",
   "status": "partial",
   "theorems": [
    "C26_scroll_up_partial",
    "C26_newline_partial",
    "C26_scroll_down_partial",
    "C26_set_max_sb",
    "C26_clear_sb",
    "C26_history_partial",
    "C26_alt_refuted",
    "C26_above_refuted",
    "C26_below_refuted",
    "C26_scroll_down_refuted",
    "C26_insert_refuted"
   ],
   "note": "Proved for scrolling on the main screen with a region starting at the top, for any sequence of scrolling, newlines, and changes of the scrollback; false on the alternate screen, for ends outside the region, when scrolled off the bottom, and for line insertion (witnesses)."
  },
  {
   "property": "C48",
   "status": "partial",
   "theorems": [
    "C48_bag_partial",
    "C48_refuted"
   ],
   "note": "Every sequence of calls, hash function and outcome of allocation, including termination, for objects whose addresses share their highest bit and up to 3*2^28 insertions; false without the first condition (witness: the object 2^k below the first one is stored as a deletion mark)."
  },
  {
   "property": "C50",
   "status": "proved",
   "theorems": [
    "C50_window",
    "C50_fold"
   ],
   "note": "Any sequence of characters, line feeds, newlines, backspaces and carriage returns from any reachable main screen with wrapping and a full region."
  },
  {
   "property": "C51",
   "status": "proved",
   "theorems": [
    "C51_call",
    "C51_run"
   ],
   "note": "Every call and every sequence of calls; examples show the classes of cursor and text are not larger than needed."
  },
  {
   "property": "C52",
   "status": "proved",
   "theorems": [
    "C52_edit",
    "C52_margins"
   ],
   "note": "All eleven sequences with every parameter string."
  },
  {
   "property": "C53",
   "status": "partial",
   "theorems": [
    "C53_controls",
    "C53_tab",
    "C53_tabs_forward",
    "C53_tabs_back_partial",
    "C53_set_stop",
    "C53_clear_stop"
   ],
   "note": "Complete except tabulating back from a cursor past the right edge, where the call is undefined (C27_tab_refuted)."
  },
  {
   "property": "C54",
   "status": "proved",
   "theorems": [
    "C54_document"
   ],
   "note": "Characters, BS, LF, VT, FF, CR, IND, NEL and SGR in any order; SGR strings that make the parser read past its argument array are excluded as the code is undefined there (C27_sgr_refuted)."
  },
  {
   "property": "C55",
   "status": "proved",
   "theorems": [
    "C55_call",
    "C55_looking",
    "C55_run",
    "C55_terminal_call",
    "C55_return",
    "C55_session"
   ],
   "note": "Two-execution statements for every screen call and every call of the terminal API, and for runs and sessions with calls left out."
  },
  {
   "property": "C56",
   "status": "proved",
   "theorems": [
    "C56_safe",
    "C56_page",
    "C56_history",
    "C56_resize_fails",
    "C56_run",
    "C56_no_failure"
   ],
   "note": "Allocations of the screen calls after creation; a failing tsm_screen_new is in C62. Ruler entries left uninitialised by a failed resize are modelled as absent."
  },
  {
   "property": "C57",
   "status": "partial",
   "theorems": [
    "C57_refines_partial",
    "C57_either",
    "C57_undefined",
    "C57_append_survives_refuted"
   ],
   "note": "Missing is only the last sentence, which is false: if hash table or array cannot grow, free is passed a pointer that malloc did not return; C57_undefined says exactly when. Keys must share their highest address bit, as the hash table loses keys otherwise (C48)."
  },
  {
   "property": "C58",
   "status": "proved",
   "theorems": [
    "C58_step",
    "C58_run",
    "C58_calls",
    "C58_life",
    "C58_view",
    "C58_view_life",
    "C58_draw"
   ],
   "note": "Pointers, links, allocations and frees of line objects (Own.v); cells and the two allocations within a line are not in this model. C58_calls, C58_life couple it with Screen.v in sizes, buffer shown, length and limit of the scrollback, C58_view, C58_view_life in which line the view and the ends of an active selection point to, C58_draw in the lines drawn, for malloc that does not fail; C58_step and C58_run are for any malloc."
  },
  {
   "property": "C59",
   "status": "proved",
   "theorems": [
    "C59_stored"
   ],
   "note": "Width and colours of written cells as given to the call."
  },
  {
   "property": "C60",
   "status": "proved",
   "theorems": [
    "C60_ids"
   ],
   "note": "Characters of the type's range, 32 bits. The screen's symbol table has no entries as no call adds any. Colours and the protect flag are not part of the id."
  },
  {
   "property": "C61",
   "status": "proved",
   "theorems": [
    "C61_all",
    "C61_text"
   ],
   "note": "Characters of four bytes are left out as copying them overruns the buffer (C24_wide_refuted), double-width ones as the cells they cover are copied as zero bytes (C25_blank_refuted). The text must fit in the range of int at four bytes per cell."
  },
  {
   "property": "C62",
   "status": "proved",
   "theorems": [
    "C62_sound",
    "C62_created"
   ],
   "note": "Counters are taken to be held by fewer than 2^62 references; a NULL screen is left out. No library call adds symbols to the table of a screen, so its hash table is empty here (Symmem.v has it filled)."
  },
  {
   "property": "C63",
   "status": "partial",
   "theorems": [
    "C63_order",
    "C63_closed",
    "C63_open",
    "C63_result",
    "C63_idle_partial",
    "C63_read_refuted",
    "C63_sent_refuted",
    "C63_mended",
    "C63_drained"
   ],
   "note": "The first sentence is proved (C63_order), so is the last (C63_closed, C63_open). The second is false of the code: shl_pty_bridge_dispatch_pty adds a descriptor that is in the epoll set already instead of modifying it, and shl_pty_dispatch drops the result of pty_write (C63_read_refuted, C63_sent_refuted). C63_idle_partial says when it holds of the code; C63_mended and C63_drained prove it of a bridge with these two corrected. The kernel promises events only as the manual of epoll does."
  },
  {
   "property": "C64",
   "status": "proved",
   "theorems": [
    "C64_call",
    "C64_session",
    "C64_untouched",
    "C64_stored",
    "C64_copied",
    "C64_bytes"
   ],
   "note": "Control characters are U+0001 to U+001F and U+007F to U+009F; blank cells are copied as zero bytes (C25_blank_refuted). C64_bytes asks that characters written were in the range of their type, 32 bits. The view may move with the lines it shows (C58_view); the text of a selection may change."
  },
  {
   "property": "C65",
   "status": "partial",
   "theorems": [
    "C65_open",
    "C65_defined",
    "C65_order",
    "C65_end",
    "C65_query",
    "C65_pid",
    "C65_pid_kept",
    "C65_orphan_partial",
    "C65_orphan_refuted",
    "C65_waited_refuted",
    "C65_signals_refuted"
   ],
   "note": "Three parts are false of the code. If none of the caller's descriptors 0, 1, 2 is open the pipe's end is number 2 and is overwritten: the parent fails while the child runs on (C65_orphan_refuted; C65_orphan_partial says it does not happen otherwise). After a failure past fork the child is not waited for and its pid is not told (C65_waited_refuted). The loop over the signals ends before SIGSYS, so SIGSYS and real-time signals stay as they were (C65_signals_refuted; C65_open has what holds of which signals). The rest is proved."
  },
  {
   "property": "C66",
   "status": "partial",
   "theorems": [
    "C66_defined",
    "C66_points",
    "C66_added",
    "C66_remove",
    "C66_kept",
    "C66_kept_dispatch",
    "C66_drop_refuted",
    "C66_late_refuted",
    "C66_removed_refuted",
    "C66_callback_refuted"
   ],
   "note": "All but the last sentence is proved; that is false of the code: a dispatch whose reading is stopped adds the pty again (C66_removed_refuted). Necessity is by C66_drop_refuted, C66_late_refuted and C66_callback_refuted. A dispatch is modelled with one round of callbacks."
  },
  {
   "property": "C67",
   "status": "partial",
   "theorems": [
    "C67_buffer",
    "C67_fill",
    "C67_blend",
    "C67_highlight",
    "C67_thick",
    "C67_skip",
    "C67_debug",
    "C67_line",
    "C67_measure_partial",
    "C67_frame_partial",
    "C67_size_refuted",
    "C67_measure_refuted",
    "C67_wide_refuted",
    "C67_half_refuted",
    "C67_faces_refuted",
    "C67_font_refuted"
   ],
   "note": "C67_frame_partial has the frames for characters of width 1, one font whose faces have cells of one size, windows of less than 2^29 pixels, debug off. The rest is false of the code: wide characters moved apart are painted over cells of width 1 (C67_wide_refuted), the second half of a wide character shows what was there before (C67_half_refuted), a bold face of other size paints over other cells (C67_faces_refuted), after a change of font old glyphs stay (C67_font_refuted), windows of 2^29 pixels or more get too small a buffer (C67_size_refuted), the cells of fonts wider than 43 pixels are too narrow (C67_measure_refuted). What pango and cairo paint into a glyph is a parameter."
  },
  {
   "property": "C68",
   "status": "partial",
   "theorems": [
    "C68_new",
    "C68_pending_partial",
    "C68_drag_partial",
    "C68_click_partial",
    "C68_button_partial",
    "C68_motion_partial",
    "C68_scroll",
    "C68_type_partial",
    "C68_title_partial",
    "C68_title",
    "C68_untitled",
    "C68_told",
    "C68_size",
    "C68_frame",
    "C68_hover",
    "C68_sb_size_refuted",
    "C68_jump_refuted",
    "C68_wrap_refuted",
    "C68_outside_refuted",
    "C68_last_refuted"
   ],
   "note": "Parts are false of the code: setting the size of the scrollback queues no frame (C68_sb_size_refuted), a drag with one move selects nothing more than its start (C68_jump_refuted), clicks while the 32-bit clock wraps do not clear (C68_wrap_refuted), a drag out of the window to the left or top converts a negative double to unsigned (C68_outside_refuted; C68_button_partial and C68_motion_partial say exactly where), output not read when the child's end is reported is dropped (C68_last_refuted). C68_type_partial is for local echo off and the keys of C38_key_partial; C68_title_partial for terminals reached without frames in between, C68_title and C68_untitled for any session; titles longer than 125 bytes are cut by the terminal (C32)."
  },
  {
   "property": "C69",
   "status": "proved",
   "theorems": [
    "C69_looking",
    "C69_stream",
    "C69_pieces",
    "C69_undefined"
   ],
   "note": "Sessions start from a new widget; C69_looking for positions of the mouse not left of or above the window (C68_outside_refuted) and sizes up to 2^30."
  },
  {
   "property": "C70",
   "status": "partial",
   "theorems": [
    "C70_align_partial",
    "C70_align_undefined",
    "C70_align_refuted",
    "C70_align32_refuted",
    "C70_ring",
    "C70_mult",
    "C70_clamp",
    "C70_extremes"
   ],
   "note": "The multiplications, shl_max, shl_min and shl_clamp are proved in full (long of 32 or 64 bits). SHL_ALIGN_POWER2 is right for sizes 2 to 2^63 on machines of 64 bits and undefined for all others there (C70_align_undefined), and undefined for all sizes 1 to 2^31 where size_t has 32 bits (C70_align32_refuted). The variants with explicit casts are not modelled."
  }
 ]
}