{"id": "C01", "title": "UTF-8 encode/decode round trip", "statement": "For every code point that tsm_ucs4_to_utf8 agrees to encode, feeding the produced bytes one by one to the UTF-8 decoder, starting from any state in which no multi-byte sequence is pending, reports exactly one accepted code point, at the last byte, equal to the original one, and leaves the decoder ready for the next sequence; hence any text encoded this way decodes back to itself.", "quantifier": "all code points, all texts, all idle decoder states, both signednesses of char", "why_tests_cant": "1.1 million code points times all texts and predecessor states cannot be enumerated by unit tests", "anchors": ["src/tsm/tsm-unicode.c:tsm_ucs4_to_utf8", "src/tsm/tsm-unicode.c:tsm_utf8_mach_feed", "src/tsm/tsm-unicode.c:tsm_utf8_mach_get"]}
{"id": "C02", "title": "UTF-8 decoder is total, bounded and self-synchronising", "statement": "On any byte string whatsoever the decoder yields at most one code point per byte, every reported code point is below 0x200000, malformed input yields only U+FFFD or nothing, and after any garbage prefix at most the first code point of following well-formed text is lost: everything after it is decoded exactly.", "quantifier": "all byte strings and all decoder states", "why_tests_cant": "needs every garbage prefix", "anchors": ["src/tsm/tsm-unicode.c:tsm_utf8_mach_feed", "src/tsm/tsm-unicode.c:tsm_utf8_mach_get"]}
{"id": "C03", "title": "UTF-8 decoder rejects ill-formed sequences", "statement": "The decoder never reports a code point for a byte sequence that is not the shortest well-formed UTF-8 encoding of that code point (no overlong forms, no surrogates, nothing above U+10FFFF).", "quantifier": "all byte strings", "why_tests_cant": "the set of ill-formed strings is infinite; security relevant ones are exactly those nobody thought of", "anchors": ["src/tsm/tsm-unicode.c:tsm_utf8_mach_feed"]}
{"id": "C04", "title": "UTF-8 encoder exactness", "statement": "tsm_ucs4_to_utf8 writes between 1 and 4 bytes exactly for the code points that are scalar values and not noncharacters, writes nothing for all others, the output is the standard shortest encoding, and different code points get different outputs, none a prefix of another.", "quantifier": "all 32-bit values", "why_tests_cant": "2^32 inputs", "anchors": ["src/tsm/tsm-unicode.c:tsm_ucs4_to_utf8"]}
{"id": "C05", "title": "Symbols keep their text", "statement": "A symbol made from a code point reads back as that code point; appending a code point to a symbol yields a symbol that reads back as the old text followed by the new code point; equal texts give equal symbols, different texts different symbols; previously created symbols keep their meaning.", "quantifier": "all histories of symbol creations", "why_tests_cant": "depends on whole history of the intern table", "anchors": ["src/tsm/tsm-unicode.c:tsm_symbol_make", "src/tsm/tsm-unicode.c:tsm_symbol_append", "src/tsm/tsm-unicode.c:tsm_symbol_get"]}
{"id": "C06", "title": "Column width of a character", "statement": "The column width of any code point is 0, 1 or 2; it is 0 exactly for non-printable, combining and NUL code points according to the tables, 2 exactly for code points inside a wide interval, otherwise 1 (binary search finds exactly the table members).", "quantifier": "all 32-bit code points", "why_tests_cant": "binary search over 400 intervals: every boundary", "anchors": ["external/wcwidth/wcwidth.c:wcwidth", "external/wcwidth/wcwidth.c:intable", "src/tsm/tsm-unicode.c:tsm_ucs4_get_width", "src/tsm/tsm-unicode.c:tsm_symbol_get_width"]}
{"id": "C07", "title": "Screen API memory safety", "statement": "Starting from a new screen, no sequence of screen calls (with sizes the allocator can satisfy) ever reads or writes outside the line arrays, cell arrays, tab ruler or scrollback, dereferences a freed line, or over-long moves memory.", "quantifier": "all finite sequences of screen API calls with all arguments", "why_tests_cant": "unbounded call histories", "anchors": ["src/tsm/tsm-screen.c", "src/tsm/libtsm-int.h:struct tsm_screen"]}
{"id": "C08", "title": "Cursor always in bounds", "statement": "After any sequence of screen calls the cursor row is smaller than the height and the cursor column is at most width+1 (exceeding width-1 only while a wrap is pending); the scroll region is non-empty and inside the screen.", "quantifier": "all finite call sequences", "why_tests_cant": "histories", "anchors": ["src/tsm/tsm-screen.c:move_cursor", "src/tsm/tsm-screen.c:tsm_screen_resize", "src/tsm/tsm-screen.c:tsm_screen_set_margins"]}
{"id": "C09", "title": "Scrollback is a bounded FIFO of lines scrolled off", "statement": "The scrollback never holds more lines than its limit; its content is always exactly the most recent lines scrolled off the main screen, oldest first and unaltered, truncated to the limit in force.", "quantifier": "all finite call sequences", "why_tests_cant": "history property", "anchors": ["src/tsm/tsm-screen.c:link_to_scrollback", "src/tsm/tsm-screen.c:tsm_screen_set_max_sb", "src/tsm/tsm-screen.c:tsm_screen_clear_sb"]}
{"id": "C10", "title": "Scrollback view position", "statement": "The view position is either 'live' or one of the lines currently in the scrollback, never a freed one; sb_up/sb_down move it by exactly the requested number of lines clamped to the ends; sb_up(n) followed by sb_down(n) returns to the same view when not clamped; the reported numeric position equals the number of scrollback lines above the view.", "quantifier": "all finite call sequences", "why_tests_cant": "histories with eviction", "anchors": ["src/tsm/tsm-screen.c:tsm_screen_sb_up", "src/tsm/tsm-screen.c:tsm_screen_sb_down", "src/tsm/tsm-screen.c:tsm_screen_sb_reset", "src/tsm/tsm-screen.c:tsm_screen_sb_get_line_pos", "src/tsm/tsm-screen.c:link_to_scrollback"]}
{"id": "C11", "title": "Resize keeps text", "statement": "Resizing to a non-zero size succeeds, sets exactly that size, keeps on the visible buffer the bottom-most rows (rows scrolled off go to scrollback on the main screen) with the cells inside the new width unchanged, resets the scroll region to the full screen and the tab stops to every 8 columns; a zero size is rejected and a same-size resize changes nothing.", "quantifier": "all states and all sizes", "why_tests_cant": "two-dimensional size changes times states", "anchors": ["src/tsm/tsm-screen.c:tsm_screen_resize"]}
{"id": "C12", "title": "Newly exposed cells are blank", "statement": "Cells that become visible on the active buffer by enlarging the screen are empty, one column wide and carry the default attributes of that buffer.", "quantifier": "all reachable states and all sizes", "why_tests_cant": "stale content depends on resize history", "anchors": ["src/tsm/tsm-screen.c:tsm_screen_resize"]}
{"id": "C13", "title": "Scroll region isolation", "statement": "Scrolling, line feeds, reverse line feeds, line insertion and deletion never change a row outside the scroll region, whatever its count argument, and shift rows inside it by exactly the (clamped) count filling with blanks.", "quantifier": "all states, all counts", "why_tests_cant": "all regions and counts incl. recursion above 128 lines", "anchors": ["src/tsm/tsm-screen.c:screen_scroll_up", "src/tsm/tsm-screen.c:screen_scroll_down", "src/tsm/tsm-screen.c:tsm_screen_insert_lines", "src/tsm/tsm-screen.c:tsm_screen_delete_lines", "src/tsm/tsm-screen.c:tsm_screen_move_down", "src/tsm/tsm-screen.c:tsm_screen_move_up"]}
{"id": "C14", "title": "Insert/delete lines exactness", "statement": "insert_lines(n)/delete_lines(n) inside the scroll region insert/delete min(n, rows to bottom margin) blank lines at the cursor row, put the cursor in column 0, and outside the region do nothing at all.", "quantifier": "all states and counts", "why_tests_cant": "the statement ranges over all states/inputs/histories; a test samples finitely many of them", "anchors": ["src/tsm/tsm-screen.c:tsm_screen_insert_lines", "src/tsm/tsm-screen.c:tsm_screen_delete_lines"]}
{"id": "C15", "title": "Insert/delete characters exactness", "statement": "insert_chars(n)/delete_chars(n) change only the cursor row from the cursor column on, shifting cells by min(n, cells to the right edge) and filling with blanks.", "quantifier": "all states and counts", "why_tests_cant": "the statement ranges over all states/inputs/histories; a test samples finitely many of them", "anchors": ["src/tsm/tsm-screen.c:tsm_screen_insert_chars", "src/tsm/tsm-screen.c:tsm_screen_delete_chars"]}
{"id": "C16", "title": "Erase exactness and protection", "statement": "Each erase call blanks exactly the cells of its documented region (clipped to the screen) and no other; in protected mode exactly the cells marked protected in the region survive.", "quantifier": "all states, all counts", "why_tests_cant": "erase_chars with huge counts etc.", "anchors": ["src/tsm/tsm-screen.c:screen_erase_region", "src/tsm/tsm-screen.c:tsm_screen_erase_chars", "src/tsm/tsm-screen.c:tsm_screen_erase_screen"]}
{"id": "C17", "title": "Alternate screen isolation", "statement": "While the alternate screen is active no call other than resize, reset, scrollback configuration or switching back modifies the main screen's cells or the scrollback; after switching back the main screen is exactly as it was.", "quantifier": "all call sequences while alternate screen is active", "why_tests_cant": "histories", "anchors": ["src/tsm/tsm-screen.c:tsm_screen_set_flags", "src/tsm/tsm-screen.c:tsm_screen_reset_flags", "src/tsm/tsm-screen.c:screen_scroll_up"]}
{"id": "C18", "title": "Write exactness", "statement": "Writing a symbol of width w>0 stores it with its attributes at the (possibly wrapped) cursor cell, marks the following w-1 cells as continuation, changes no other cell except by the insert-mode shift and the scroll needed at the bottom, and advances the cursor by w; a zero-width symbol changes nothing.", "quantifier": "all states, symbols and attributes", "why_tests_cant": "autowrap x insert x margins x width interplay", "anchors": ["src/tsm/tsm-screen.c:tsm_screen_write", "src/tsm/tsm-screen.c:screen_write"]}
{"id": "C19", "title": "Tab stops", "statement": "tab_right(n) moves to the n-th tab stop right of the cursor or the last column; tab_left(n) to the n-th tab stop left of the cursor or column 0; set/reset change only the stop at the cursor column.", "quantifier": "all rulers, positions and counts", "why_tests_cant": "the statement ranges over all states/inputs/histories; a test samples finitely many of them", "anchors": ["src/tsm/tsm-screen.c:tsm_screen_tab_right", "src/tsm/tsm-screen.c:tsm_screen_tab_left", "src/tsm/tsm-screen.c:tsm_screen_set_tabstop"]}
{"id": "C20", "title": "Incremental redraw is sound", "statement": "A client that skips every cell whose reported age is non-zero and not newer than the value returned by its previous draw always ends up with the same picture as a client that redraws everything, through age-counter overflow too.", "quantifier": "all call sequences interleaved with draws", "why_tests_cant": "needs every operation to age every affected cell", "anchors": ["src/tsm/tsm-render.c:tsm_screen_draw", "src/tsm/libtsm-int.h:screen_inc_age", "src/tsm/tsm-screen.c"]}
{"id": "C21", "title": "Draw covers the screen", "statement": "tsm_screen_draw invokes the callback exactly once for each of width*height positions in row-major order, with the symbol, width and attributes of the line shown at that row given the scrollback view, the cursor cell (if visible) and selected cells inverted, and does not change the screen content.", "quantifier": "all states", "why_tests_cant": "the statement ranges over all states/inputs/histories; a test samples finitely many of them", "anchors": ["src/tsm/tsm-render.c:tsm_screen_draw"]}
{"id": "C22", "title": "Cursor motion exactness", "statement": "move_to/up/down/left/right/home/end put the cursor at exactly the clamped target, respecting scroll region and origin mode, and without the scroll flag change no cell content.", "quantifier": "all states and 32-bit counts", "why_tests_cant": "wrap-around of unsigned arithmetic", "anchors": ["src/tsm/tsm-screen.c:tsm_screen_move_to", "src/tsm/tsm-screen.c:tsm_screen_move_up", "src/tsm/tsm-screen.c:tsm_screen_move_down", "src/tsm/tsm-screen.c:tsm_screen_move_left", "src/tsm/tsm-screen.c:tsm_screen_move_right"]}
{"id": "C23", "title": "Hard reset forgets history", "statement": "After tsm_vte_hard_reset, or ESC c, the terminal modes, charsets, attributes, parser state, scroll region, cursor and visible (main) content do not depend on anything that happened before apart from size, palette and configuration; the scrollback is empty.", "quantifier": "all histories", "why_tests_cant": "all previous histories", "anchors": ["src/tsm/tsm-vte.c:tsm_vte_hard_reset", "src/tsm/tsm-vte.c:tsm_vte_reset"]}
{"id": "C24", "title": "Selection copy is memory safe", "statement": "tsm_screen_selection_copy never accesses memory outside the copy buffer or the line arrays, for every selection made with on-screen coordinates and whatever happened to the screen afterwards.", "quantifier": "all histories and selections", "why_tests_cant": "depends on text bytes, scroll history, selection", "anchors": ["src/tsm/tsm-selection.c:tsm_screen_selection_copy", "src/tsm/tsm-selection.c:copy_lines", "src/tsm/tsm-selection.c:calc_line_copy_buffer"]}
{"id": "C25", "title": "Selection copy content and symmetry", "statement": "Copying a selection returns the text of the cells from the earlier to the later end point in reading order, rows joined by newlines with trailing blanks dropped, independent of which end point was set first.", "quantifier": "all screens and end points", "why_tests_cant": "the statement ranges over all states/inputs/histories; a test samples finitely many of them", "anchors": ["src/tsm/tsm-selection.c:tsm_screen_selection_copy", "src/tsm/tsm-selection.c:norm_selection", "src/tsm/tsm-selection.c:copy_line"]}
{"id": "C26", "title": "Selection follows the text", "statement": "When text scrolls, selection end points stay attached to the same text line, also after it moved into the scrollback, or to 'top' once the line has been evicted.", "quantifier": "all scroll histories", "why_tests_cant": "the statement ranges over all states/inputs/histories; a test samples finitely many of them", "anchors": ["src/tsm/tsm-screen.c:screen_scroll_up", "src/tsm/tsm-screen.c:screen_scroll_down", "src/tsm/tsm-screen.c:link_to_scrollback"]}
{"id": "C27", "title": "Terminal input memory safety", "statement": "No byte string sent to tsm_vte_input, in any reachable terminal state, makes the emulator access memory out of bounds (parser argument array, OSC buffer, screen buffers, palettes, charsets).", "quantifier": "all byte strings, all reachable states", "why_tests_cant": "attacker-controlled infinite input space", "anchors": ["src/tsm/tsm-vte.c:tsm_vte_input", "src/tsm/tsm-vte.c:parse_data", "src/tsm/tsm-vte.c:csi_attribute", "src/tsm/tsm-vte.c:do_csi", "src/tsm/tsm-vte.c:do_execute", "src/tsm/tsm-vte.c:do_esc"]}
{"id": "C28", "title": "Chunking does not matter", "statement": "Splitting an input byte stream into arbitrary chunks passed to successive tsm_vte_input calls gives the same final state, the same replies and the same callbacks as passing it at once.", "quantifier": "all streams and all splits", "why_tests_cant": "all 2^(n-1) splits of every stream", "anchors": ["src/tsm/tsm-vte.c:tsm_vte_input"]}
{"id": "C29", "title": "Parser recovery", "statement": "From every parser state, CAN and SUB return to plain text processing, ESC starts a new escape sequence, and a new valid control sequence after ESC is interpreted independently of the aborted one.", "quantifier": "all parser states and garbage prefixes", "why_tests_cant": "the statement ranges over all states/inputs/histories; a test samples finitely many of them", "anchors": ["src/tsm/tsm-vte.c:parse_data", "src/tsm/tsm-vte.c:do_trans"]}
{"id": "C30", "title": "Control sequence parameters", "statement": "Parsing a CSI parameter string collects at most 16 parameters, missing ones as 'default', each value being the decimal value of its digits when small and never exceeding 655359, so no integer overflow occurs, however long the digit string is.", "quantifier": "all parameter strings", "why_tests_cant": "the statement ranges over all states/inputs/histories; a test samples finitely many of them", "anchors": ["src/tsm/tsm-vte.c:do_param", "src/tsm/tsm-vte.c:do_clear", "src/tsm/tsm-vte.c:do_collect"]}
{"id": "C31", "title": "Ignored strings have no effect", "statement": "Device control, SOS, PM and APC strings up to their terminator change nothing on the screen, produce no reply, and afterwards text is processed normally.", "quantifier": "all string contents", "why_tests_cant": "the statement ranges over all states/inputs/histories; a test samples finitely many of them", "anchors": ["src/tsm/tsm-vte.c:parse_data"]}
{"id": "C32", "title": "OSC delivery", "statement": "The OSC callback receives, for every OSC string, its UTF-8 text of at most 127 bytes, NUL terminated inside the buffer; a string that fits is delivered exactly once and exactly as sent when terminated by BEL or ST.", "quantifier": "all OSC strings", "why_tests_cant": "the statement ranges over all states/inputs/histories; a test samples finitely many of them", "anchors": ["src/tsm/tsm-vte.c:do_osc_start", "src/tsm/tsm-vte.c:do_osc_collect", "src/tsm/tsm-vte.c:do_osc_end"]}
{"id": "C33", "title": "Replies", "statement": "Every byte the terminal sends back on its own (device attributes, status and cursor reports) is 7-bit, is produced only by the documented requests, and the cursor report states the current row and column, 1-based, within the screen.", "quantifier": "all inputs and states", "why_tests_cant": "the statement ranges over all states/inputs/histories; a test samples finitely many of them", "anchors": ["src/tsm/tsm-vte.c:csi_dsr", "src/tsm/tsm-vte.c:csi_dev_attr", "src/tsm/tsm-vte.c:vte_write"]}
{"id": "C34", "title": "SGR semantics", "statement": "The graphic attributes after a 'm' control sequence are those obtained by applying its parameters left to right according to the ECMA-48/xterm table; attributes not mentioned stay unchanged; no parameter list of any content can put a colour index out of range.", "quantifier": "all parameter lists and previous attributes", "why_tests_cant": "the statement ranges over all states/inputs/histories; a test samples finitely many of them", "anchors": ["src/tsm/tsm-vte.c:csi_attribute", "src/tsm/tsm-vte.c:to_rgb"]}
{"id": "C35", "title": "Save/restore cursor", "statement": "Saving the cursor and later restoring it returns cursor position, attributes, character sets, origin and wrap modes to their values at the save, if the screen was not resized in between.", "quantifier": "all intermediate inputs", "why_tests_cant": "the statement ranges over all states/inputs/histories; a test samples finitely many of them", "anchors": ["src/tsm/tsm-vte.c:save_state", "src/tsm/tsm-vte.c:restore_state"]}
{"id": "C36", "title": "Mode changes are local", "statement": "Setting or resetting a terminal mode by control sequence changes only that mode's flag (and the screen flag it is documented to drive); setting twice equals setting once; set followed by reset yields the reset state; unknown modes are ignored.", "quantifier": "all modes numbers, all states", "why_tests_cant": "the statement ranges over all states/inputs/histories; a test samples finitely many of them", "anchors": ["src/tsm/tsm-vte.c:csi_mode", "src/tsm/tsm-vte.c:set_reset_flag"]}
{"id": "C37", "title": "Soft reset", "statement": "tsm_vte_reset puts flags, charsets, attributes, parser and mouse modes to the documented power-on defaults whatever the previous state.", "quantifier": "all states", "why_tests_cant": "the statement ranges over all states/inputs/histories; a test samples finitely many of them", "anchors": ["src/tsm/tsm-vte.c:tsm_vte_reset"]}
{"id": "C38", "title": "Keyboard input encoding", "statement": "For every key, modifier and mode, the bytes sent are those documented: printable Unicode as exactly its UTF-8 encoding in UTF-8 mode, prefixed by ESC when Alt is held; control combinations as the corresponding C0 byte; cursor keys according to cursor-key mode; nothing else is sent and unsupported keys are reported as unhandled.", "quantifier": "all keysyms, modifiers, unicode values and modes", "why_tests_cant": "the statement ranges over all states/inputs/histories; a test samples finitely many of them", "anchors": ["src/tsm/tsm-vte.c:tsm_vte_handle_keyboard"]}
{"id": "C39", "title": "Mouse reports", "statement": "Mouse events are reported exactly when the active tracking mode asks for them, with 1-based coordinates: X10 in one byte each saturated at 255; SGR in decimal such that a client parsing the report recovers button, modifiers, position and press/release exactly.", "quantifier": "all coordinates, buttons, modifiers and modes", "why_tests_cant": "the statement ranges over all states/inputs/histories; a test samples finitely many of them", "anchors": ["src/tsm/tsm-vte.c:tsm_vte_handle_mouse", "src/tsm/tsm-vte.c:handle_mouse_x10", "src/tsm/tsm-vte.c:handle_mouse_sgr"]}
{"id": "C40", "title": "Character set mapping", "statement": "Printable ASCII bytes are shown through the character set currently locked into GL (ASCII itself by default), a single shift affects exactly the next graphic character, and locking shifts persist.", "quantifier": "all shift/designation histories", "why_tests_cant": "the statement ranges over all states/inputs/histories; a test samples finitely many of them", "anchors": ["src/tsm/tsm-vte.c:vte_map", "src/tsm/tsm-vte.c:do_execute", "src/tsm/tsm-vte.c:do_esc"]}
{"id": "C41", "title": "Colours stay inside the palette", "statement": "Whatever colour codes and custom palette are in force, resolving an attribute's colours only reads existing palette entries, and the attribute's RGB values are those of the palette entry selected (bold brightening only for codes 0..7).", "quantifier": "all attributes", "why_tests_cant": "the statement ranges over all states/inputs/histories; a test samples finitely many of them", "anchors": ["src/tsm/tsm-vte.c:to_rgb", "src/tsm/tsm-vte.c:copy_fcolor", "src/tsm/tsm-vte.c:copy_bcolor", "src/tsm/tsm-vte.c:tsm_vte_set_palette"]}
{"id": "C42", "title": "8-bit mode shows Latin-1", "statement": "In 8-bit mode a byte 0xA0..0xFF displays the Latin-1 character of that code and bytes 0x80..0x9F act as C1 controls.", "quantifier": "all bytes and states", "why_tests_cant": "the statement ranges over all states/inputs/histories; a test samples finitely many of them", "anchors": ["src/tsm/tsm-vte.c:tsm_vte_input", "src/tsm/tsm-vte.c:parse_data"]}
{"id": "C43", "title": "Column and row addressing keep the other coordinate", "statement": "CHA/HPA-like column addressing keeps the cursor row and VPA/VPR row addressing keeps the column, also in origin mode.", "quantifier": "all states and parameters", "why_tests_cant": "the statement ranges over all states/inputs/histories; a test samples finitely many of them", "anchors": ["src/tsm/tsm-vte.c:do_csi", "src/tsm/tsm-screen.c:tsm_screen_move_to"]}
{"id": "C44", "title": "Cursor positioning sequences", "statement": "CUP/HVP with any parameters put the cursor at (row,col) 1-based with missing/zero meaning 1, clamped to the screen (or to the scroll region in origin mode); CUU/CUD/CUF/CUB/CNL/CPL move by the count with missing/zero meaning 1, clamped.", "quantifier": "all parameters and states", "why_tests_cant": "the statement ranges over all states/inputs/histories; a test samples finitely many of them", "anchors": ["src/tsm/tsm-vte.c:do_csi"]}
{"id": "C45", "title": "Plain text", "statement": "A string of printable characters sent in the ground state appears on the screen exactly as the same sequence of symbol writes with the current attributes, and nothing else changes in the terminal state.", "quantifier": "all texts and states", "why_tests_cant": "the statement ranges over all states/inputs/histories; a test samples finitely many of them", "anchors": ["src/tsm/tsm-vte.c:parse_data", "src/tsm/tsm-vte.c:write_console"]}
{"id": "C46", "title": "Ring buffer is a FIFO queue", "statement": "Any sequence of push, pull, peek, copy and flush on the ring buffer returns the pushed bytes in order, each exactly once, across growth and wrap-around.", "quantifier": "all operation sequences", "why_tests_cant": "the statement ranges over all states/inputs/histories; a test samples finitely many of them", "anchors": ["src/shared/shl-ring.c"]}
{"id": "C47", "title": "Dynamic array", "statement": "Any sequence of push/pop/access on the dynamic array behaves like a list; allocated storage always covers the used length.", "quantifier": "all operation sequences", "why_tests_cant": "the statement ranges over all states/inputs/histories; a test samples finitely many of them", "anchors": ["src/shared/shl-array.h"]}
{"id": "C48", "title": "Hash table is a finite multimap", "statement": "Any sequence of insertions, removals and lookups on the hash table behaves like a multiset of keys: lookup finds an equal key if and only if one was inserted and not removed, across collisions, deletion markers and resizing; probing always terminates.", "quantifier": "all operation sequences and all hash functions", "why_tests_cant": "adversarial collisions", "anchors": ["src/shared/shl-htable.c"]}
{"id": "C49", "title": "PTY write ordering", "statement": "Bytes queued for the PTY are delivered to the child in order, without loss or duplication, whatever partial writes or would-block results the kernel returns; a write either queues everything or nothing. The flush reports 0 if nothing is left or the kernel has no room, -EAGAIN if something is left and trying again may help, else the error.", "quantifier": "all schedules of kernel results", "why_tests_cant": "all schedules", "anchors": ["src/shared/shl-pty.c:shl_pty_write", "src/shared/shl-pty.c:pty_write"]}
{"id": "C50", "title": "Screen and scrollback are a window on an endless page", "statement": "Typing text, line feeds, newlines, backspaces and carriage returns on the main screen (wrapping on, full scroll region) behaves like typing on a page without a lower end: the screen shows the part of the page at the carriage, the scrollback holds the part directly above it, as many rows as its limit allows. Text of single width characters folds at the right edge: character number i stands i places after the cursor, counted along the rows.", "quantifier": "all screens, all texts of any length", "why_tests_cant": "unbounded text; interaction of pending wrap, scrolling and trimming", "anchors": ["src/tsm/tsm-screen.c:tsm_screen_write", "src/tsm/tsm-screen.c:tsm_screen_newline", "src/tsm/tsm-screen.c:screen_scroll_up", "src/tsm/tsm-screen.c:link_to_scrollback"]}
{"id": "C51", "title": "Frame of the screen calls", "statement": "A screen call changes only what it is for: the size changes only by resize, mode flags only by set/reset flags and reset, margins only by set margins, resize and reset, the default attributes, tab stops, scrollback limit, existence of a selection, cursor, cells and scrollback only by the calls of the respective class.", "quantifier": "all reachable screens, calls, and sequences of calls", "why_tests_cant": "absence of side effects over all states", "anchors": ["src/tsm/tsm-screen.c"]}
{"id": "C52", "title": "Editing control sequences", "statement": "The sequences that erase, insert, delete and scroll (ED, EL and their selective variants, ECH, IL, DL, ICH, DCH, SU, SD) with any parameter string change exactly the stated cells, cursor and scrollback rows and nothing else in terminal or screen; counts missing or zero mean one and are clamped to what there is; the sequence for margins sets exactly the region asked for, or the whole screen if it is not a proper region.", "quantifier": "all terminals, all parameter strings", "why_tests_cant": "all byte strings as parameters, all screens", "anchors": ["src/tsm/tsm-vte.c:do_csi", "src/tsm/tsm-screen.c:tsm_screen_erase_cursor_to_end", "src/tsm/tsm-screen.c:tsm_screen_insert_lines", "src/tsm/tsm-screen.c:tsm_screen_delete_chars", "src/tsm/tsm-screen.c:tsm_screen_set_margins"]}
{"id": "C53", "title": "Controls and tab stops", "statement": "Backspace, line feed, carriage return, index, next line, reverse index, as C0, C1 or escape sequence in each encoding, have exactly the stated effect and no other; tabulation goes to the stop asked for, counted forward or backward; setting and clearing stops affects exactly the stops named.", "quantifier": "all terminals in each encoding", "why_tests_cant": "all states and encodings", "anchors": ["src/tsm/tsm-vte.c:do_execute", "src/tsm/tsm-vte.c:do_esc", "src/tsm/tsm-screen.c:tsm_screen_tab_right", "src/tsm/tsm-screen.c:tsm_screen_tab_left", "src/tsm/tsm-screen.c:tsm_screen_set_tabstop"]}
{"id": "C54", "title": "Documents appear as typed", "statement": "A document of characters, line controls and changes of rendition, delivered as bytes in the encoding of the terminal, leaves the screen as a window on an endless page on which the document is typed with the renditions in force, the scrollback holding the rows directly above; later paper takes the background of the last rendition.", "quantifier": "all terminals in default character sets, documents of any length", "why_tests_cant": "unbounded documents; interaction of decoder, parser, rendition, wrapping, scrolling and trimming", "anchors": ["src/tsm/tsm-vte.c:tsm_vte_input", "src/tsm/tsm-vte.c:parse_data", "src/tsm/tsm-vte.c:do_csi", "src/tsm/tsm-vte.c:csi_attribute", "src/tsm/tsm-screen.c:tsm_screen_write", "src/tsm/tsm-screen.c:screen_scroll_up"]}
{"id": "C55", "title": "Looking does not interfere", "statement": "Scrolling into the scrollback, selecting, and trimming the scrollback have no influence on anything the program can cause or observe: with such calls left out, a run of screen calls or a session of the terminal has the same page (size, flags, margins, tabs, cursor, text of both buffers), the same parser and modes, the same replies, events and return values; without the calls that only look the same scrollback too (in the columns the screen kept throughout).", "quantifier": "all reachable pairs of states with the same page, all calls, runs and sessions of any length", "why_tests_cant": "a relation between two executions of any length; tests compare few pairs", "anchors": ["src/tsm/tsm-screen.c:tsm_screen_sb_up", "src/tsm/tsm-screen.c:tsm_screen_sb_down", "src/tsm/tsm-screen.c:tsm_screen_clear_sb", "src/tsm/tsm-screen.c:screen_scroll_up", "src/tsm/tsm-screen.c:link_to_scrollback", "src/tsm/tsm-selection.c:tsm_screen_selection_start", "src/tsm/tsm-vte.c:tsm_vte_input"]}
{"id": "C56", "title": "Running out of memory", "statement": "Whichever allocations of the screen calls fail, every call stays defined as far as it is with memory; a call that does not report -ENOMEM has the effect on the page (size, flags, margins, tabs, cursor, text of both buffers) it has with memory, and puts into the scrollback, in order and unaltered, some of the rows it scrolls off without touching others; only resizing reports -ENOMEM and then page, cells with their ages, scrollback, view, selection and age counters are as before. A run leaves the page that the calls leave which did not report -ENOMEM.", "quantifier": "all states reachable with failures in any pattern, all calls, all patterns of failing allocations, runs of any length", "why_tests_cant": "failure patterns are exponentially many and partial growth survives in hidden fields; tests do not inject failures at all", "anchors": ["src/tsm/tsm-screen.c:line_new", "src/tsm/tsm-screen.c:line_resize", "src/tsm/tsm-screen.c:screen_scroll_up", "src/tsm/tsm-screen.c:tsm_screen_resize", "src/tsm/tsm-screen.c:tsm_screen_write", "src/tsm/tsm-screen.c:tsm_screen_newline", "src/tsm/tsm-screen.c:tsm_screen_move_down"]}
{"id": "C57", "title": "The symbol table in memory", "statement": "The symbol table as laid out in memory (hash table and array of pointers to allocated blocks, ids hidden before the keys) behaves as a table of strings: whichever blocks malloc hands out and whichever of these requests it refuses, every append returns the symbol a table of strings returns (the symbol itself if refused), every symbol reads back the same string, no read leaves a block, and dropping the table frees every block exactly once. No append is undefined if the hash table or the array cannot grow.", "quantifier": "all sequences of appends up to the capacity of the hash table, all addresses with the same highest bit, all patterns of refusals", "why_tests_cant": "addresses and failure patterns are chosen by the allocator; refinement over unbounded histories", "anchors": ["src/tsm/tsm-unicode.c:tsm_symbol_append", "src/tsm/tsm-unicode.c:tsm_symbol_get", "src/tsm/tsm-unicode.c:tsm_symbol_table_unref", "src/tsm/tsm-unicode.c:hash_ucs4", "src/tsm/tsm-unicode.c:cmp_ucs4", "src/tsm/tsm-unicode.c:free_ucs4", "src/shared/shl-htable.c", "src/shared/shl-array.h"]}
{"id": "C58", "title": "Every line is owned exactly once", "statement": "At every moment each line object in memory is in exactly one place: one row of the main buffer, one row of the alternate buffer, or one place of the scrollback list, which is a well-formed doubly linked list of sb_count objects, at most sb_max. The view and the ends of an active selection point to a line of the scrollback or nowhere. No call follows a dangling pointer or frees a line twice, whichever allocations fail; scrolled-off rows enter the list oldest first and only the oldest leave it; dropping the screen frees every line and nothing else. The pointers stay in step with the lists the other claims are about.", "quantifier": "all sequences of operations on lines with rows in range, all addresses and failures of malloc; all histories of screen calls", "why_tests_cant": "ownership is a property of the heap at every moment; use after free shows only for some allocators and histories", "anchors": ["src/tsm/tsm-screen.clink_to_scrollback", "src/tsm/tsm-screen.cscreen_scroll_up", "src/tsm/tsm-screen.cscreen_scroll_down", "src/tsm/tsm-screen.ctsm_screen_insert_lines", "src/tsm/tsm-screen.ctsm_screen_delete_lines", "src/tsm/tsm-screen.ctsm_screen_resize", "src/tsm/tsm-screen.ctsm_screen_set_max_sb", "src/tsm/tsm-screen.ctsm_screen_clear_sb", "src/tsm/tsm-screen.ctsm_screen_sb_up", "src/tsm/tsm-screen.ctsm_screen_unref", "src/tsm/tsm-selection.c:selection_set"]}
{"id": "C59", "title": "Nothing but what was written", "statement": "Every cell there is, shown or not (both buffers with the parts right of and below the page, and the scrollback), holds a character some call wrote, with the attributes of that call and the width of that character (or 0 where a wide one covers it), or is blank in default attributes.", "quantifier": "all sequences of screen calls, all cells of the resulting state", "why_tests_cant": "cells get moved, copied, reused and recycled by every call; a stray one shows only after some histories", "anchors": ["src/tsm/tsm-screen.c:tsm_screen_write", "src/tsm/tsm-screen.c:screen_cell_init", "src/tsm/tsm-screen.c:tsm_screen_resize", "src/tsm/tsm-screen.c:screen_scroll_up", "src/tsm/tsm-screen.c:tsm_screen_insert_chars", "src/tsm/tsm-screen.c:tsm_screen_set_def_attr"]}
{"id": "C60", "title": "Ids tell glyphs apart", "statement": "Two cells drawn at any two times on any two screens are given the same id to cache their glyphs by just if they have the same characters and the same style (bold, italic, underline, inverse, blink).", "quantifier": "all pairs of drawing sessions", "why_tests_cant": "injectivity over all characters and attributes", "anchors": ["src/tsm/tsm-render.c:tsm_screen_draw"]}
{"id": "C61", "title": "Copying gives what was sent", "statement": "Lines of text (single-width characters of up to three bytes, with changes of rendition anywhere) sent to a terminal whose page is clear come out of the clipboard as they were sent: scrolling to the top, pressing at the first cell, scrolling to the bottom and dragging to the last cell copies the UTF-8 of the lines, folded at the width of the screen and separated by newlines, as many of the last rows as screen and scrollback hold. In any state the same gesture selects every row of the scrollback and the screen, whatever was looked at and selected before.", "quantifier": "all documents of any length and line length, all sizes of screen and scrollback, all reachable states", "why_tests_cant": "an end-to-end round trip through decoder, parser, screen, scrollback, view and selection over unbounded texts", "anchors": ["src/tsm/tsm-vte.c:tsm_vte_input", "src/tsm/tsm-screen.c:tsm_screen_write", "src/tsm/tsm-screen.c:tsm_screen_sb_up", "src/tsm/tsm-screen.c:tsm_screen_sb_reset", "src/tsm/tsm-selection.c:tsm_screen_selection_start", "src/tsm/tsm-selection.c:tsm_screen_selection_target", "src/tsm/tsm-selection.c:tsm_screen_selection_copy"]}
{"id": "C62", "title": "Everything lives exactly as long as it is referred to", "statement": "Whatever a client does with the references it holds to screens and terminals (making, referencing and dropping them, resizing, scrolling, changing the scrollback and the palettes, in any order and with any number of objects) and whichever allocations fail, no pointer is followed or freed that does not lead to a block alive. At every moment all that the client holds is alive, no pointer in a block dangles, and every block alive can be reached from what the client holds; a terminal keeps its screen alive. When the last reference is given back nothing is left. Making a screen or a terminal fails only if memory ran out and then leaves the memory as it was.", "quantifier": "all histories of calls of any length, any number of screens and terminals, all ways in which allocations may fail and addresses may be chosen", "why_tests_cant": "each of the more than a hundred allocations of making a screen is a point of failure, and references can be given back in any order", "anchors": ["src/tsm/tsm-screen.c:tsm_screen_new", "src/tsm/tsm-screen.c:tsm_screen_ref", "src/tsm/tsm-screen.c:tsm_screen_unref", "src/tsm/tsm-screen.c:tsm_screen_resize", "src/tsm/tsm-vte.c:tsm_vte_new", "src/tsm/tsm-vte.c:tsm_vte_unref", "src/tsm/tsm-vte.c:tsm_vte_set_palette", "src/tsm/tsm-vte.c:tsm_vte_set_custom_palette", "src/tsm/tsm-unicode.c:tsm_symbol_table_new", "src/tsm/tsm-unicode.c:tsm_symbol_table_unref"]}
{"id": "C63", "title": "What the child says is heard", "statement": "Whatever the children behind any number of ptys, the kernel and the application do: fn_input of each pty is given the bytes its child wrote, each once and in order, one to 16383 at a time with a zero behind them, and the kernel gets the bytes of the successful writes, each once and in order; nothing outside the buffer is written. When a watched pty has no event pending, so that a program waiting for the bridge sleeps, no byte of the child is unread, and after a dispatch no byte waits that the kernel would take. From the closing of a pty on, its fn_input is not called, none of its bytes are sent and its writes fail with -ENODEV; before that none fails so. A dispatch tells whether all was read: 0 if so, -EIO if so and the child is gone, else -EAGAIN.", "quantifier": "all histories of calls and of what children and kernel do (sizes of reads and writes, interruptions, spurious events, hangups), any number of ptys", "why_tests_cant": "a lost wake-up needs an unlucky interleaving of kernel, child and signals; tests see the lucky ones", "anchors": ["src/shared/shl-pty.c:pty_read", "src/shared/shl-pty.c:pty_write", "src/shared/shl-pty.c:shl_pty_dispatch", "src/shared/shl-pty.c:shl_pty_bridge_dispatch_pty", "src/shared/shl-pty.c:shl_pty_bridge_dispatch", "src/shared/shl-pty.c:shl_pty_bridge_add", "src/shared/shl-pty.c:shl_pty_bridge_remove"]}
{"id": "C64", "title": "What a program cannot do to the screen", "statement": "Nothing a program sends, and no key, mouse event, reset or palette, acts on the screen other than by legal calls among those that neither size it, set the scrollback limit, scroll the view nor select; in a session these four are the user's, all of them, in order. So size, scrollback limit and whether there is a selection change only by the user's calls. No cell of the screen or of the scrollback ever holds a control character, and the text of a selection is the encoding of characters none of which is a control character except line feeds: pasting it sends no escape sequence.", "quantifier": "all reachable terminals, all inputs and calls, sessions of any length, all selections", "why_tests_cant": "says what no input whatever can do; tests send some inputs", "anchors": ["src/tsm/tsm-vte.c:tsm_vte_input", "src/tsm/tsm-vte.c:parse_data", "src/tsm/tsm-vte.c:do_execute", "src/tsm/tsm-vte.c:do_csi", "src/tsm/tsm-vte.c:do_esc", "src/tsm/tsm-vte.c:tsm_vte_hard_reset", "src/tsm/tsm-screen.c:tsm_screen_write", "src/tsm/tsm-selection.c:tsm_screen_selection_copy"]}
{"id": "C65", "title": "Starting a child on a new terminal", "statement": "shl_pty_open always returns in the parent, whatever fails in either process. If it fails, the caller has the descriptors and ptys it had, and no child goes on to execute a program, and none is left to be waited for. If it succeeds, there is one more pty with one reference and one more descriptor, the pty's, and the child is ready: the new terminal, of the size asked for, is its standard input, output and error across exec and its controlling terminal, it leads its own session, has no other descriptor than the caller's, no signal blocked and all at their defaults. In any history of calls no freed pty is used; a pty lives as long as it is referenced; each open pty has a descriptor of its own that is told by shl_pty_get_fd, and no other master is open; when all references are dropped none is left. shl_pty_get_child is what opening returned.", "quantifier": "all descriptor tables, signal settings, sizes, all ways calls fail or the child is killed at any point, histories of any length", "why_tests_cant": "needs every system call of two processes to fail at will, with any set of descriptors open", "anchors": ["src/shared/shl-pty.c:shl_pty_open", "src/shared/shl-pty.c:pty_init_child", "src/shared/shl-pty.c:pty_setup_child", "src/shared/shl-pty.c:pty_send", "src/shared/shl-pty.c:pty_recv", "src/shared/shl-pty.c:shl_pty_ref", "src/shared/shl-pty.c:shl_pty_unref", "src/shared/shl-pty.c:shl_pty_close"]}
{"id": "C66", "title": "The bridge's pointers", "statement": "The event bridge holds no references. A caller who removes a pty from it before closing it or dropping its last reference, or who knows that no child which has not executed a program yet has the pty's descriptor, never makes the bridge use a freed pty: all pointers in the kernel's set are to ptys that are referenced, open, and were added or dispatched since they were last removed; callbacks may make any of these calls as long as they leave a reference to their own pty. For such a caller adding starts the watching of that pty (if the kernel has memory) and of no other, removing ends it and no other's, and no other call ends it but closing the pty or dropping the last reference to it, inside callbacks or not. This care is necessary: otherwise the bridge does use freed ptys, also when the pty is removed after it was closed. A pty removed in its own callback stays removed.", "quantifier": "all histories of opening, referencing, closing, adding, removing and dispatching ptys, with any callbacks, and of children executing programs or ending", "why_tests_cant": "needs a child to be slow to execute its program while the parent drops another pty", "anchors": ["src/shared/shl-pty.c:shl_pty_bridge_add", "src/shared/shl-pty.c:shl_pty_bridge_remove", "src/shared/shl-pty.c:shl_pty_bridge_dispatch", "src/shared/shl-pty.c:shl_pty_bridge_dispatch_pty", "src/shared/shl-pty.c:shl_pty_unref"]}
{"id": "C67", "title": "What the widget shows", "statement": "After any calls of the screen, frames and changes of the window's size, a further frame leaves in the shadow buffer, for every cell the screen draws and as far as it is inside the buffer, the glyph of its characters in its face, foreground and background, inverted or not, with its underline, although unchanged cells are skipped: each colour channel is the weighted mean of foreground and background rounded to the nearest; nothing outside a cell is painted with it. The buffer's size is that of the window; no byte outside it is read or written; the program goes on unless memory is missing or the window is larger than 32767. Filling, blending and highlighting paint the given rectangle as far as it is inside and nothing else. The underline of any font is inside its cells; the cells of a font whose characters are all n wide are n wide. Changing the font, wide characters and faces of other sizes change nothing in this.", "quantifier": "all sessions of the widget, all fonts, glyphs, colours, sizes and positions", "why_tests_cant": "needs every pixel of every frame compared, for all fonts and histories", "anchors": ["src/gtktsm/gtktsm-terminal.c:renderer_realloc", "src/gtktsm/gtktsm-terminal.c:renderer_fill", "src/gtktsm/gtktsm-terminal.c:renderer_blend", "src/gtktsm/gtktsm-terminal.c:renderer_highlight", "src/gtktsm/gtktsm-terminal.c:renderer_draw_cell", "src/gtktsm/gtktsm-terminal.c:renderer_draw", "src/gtktsm/gtktsm-terminal.c:measure_pango", "src/gtktsm/gtktsm-terminal.c:gtktsm_face_render"]}
{"id": "C68", "title": "Keys, mouse, frames and titles of the widget", "statement": "Whenever an event changed what the screen shows, a frame is queued; so what is seen is never stale. Pressing the first button, dragging the mouse farther than three pixels and releasing selects from the cell under the press to the last cell the mouse was over; a click of less than a tenth of a second clears the selection; neither sends anything to the child, and no position of the mouse is undefined behaviour. Shift alone with cursor up or down, page up or page down scrolls and sends nothing. Any other key sends the child what the terminal makes of it, ESC first with Alt, brings the view back to the end and queues a frame, or, if the terminal makes nothing of it, does nothing. A title set by OSC 2 is told as it was sent. All that the child wrote before its end is given to the terminal.", "quantifier": "all events in any order, all key symbols and modifiers, all positions and times", "why_tests_cant": "needs synthetic events of a window system at all positions and times, and a child that ends at any moment", "anchors": ["src/gtktsm/gtktsm-terminal.c:terminal_key_fn", "src/gtktsm/gtktsm-terminal.c:terminal_button_fn", "src/gtktsm/gtktsm-terminal.c:terminal_motion_fn", "src/gtktsm/gtktsm-terminal.c:terminal_osc_fn", "src/gtktsm/gtktsm-terminal.c:terminal_write_fn", "src/gtktsm/gtktsm-terminal.c:terminal_read_fn", "src/gtktsm/gtktsm-terminal.c:terminal_child_fn", "src/gtktsm/gtktsm-terminal.c:terminal_set_property"]}
{"id": "C69", "title": "Looking around and how output is cut up make no difference", "statement": "In a session of the widget, leaving out any of the events by which the user only looks (buttons and movements of the mouse, scrolling by keys, frames, new sizes of the scrollback) changes nothing for the child: both sessions go on alike, and the terminal apart from scrollback, view and selection, all bytes sent to the child, all bytes not yet read and all titles told are the same. However the output of the child is cut up by its writes and the widget's reads, the terminal is given a beginning of all that was written, in order and nothing twice, ends as if it had been given it in one piece, and the child and the title get just what the terminal answers; two ways of cutting up the same output with all read in the end give the same terminal, the same bytes sent, the same titles. Nothing in a session is undefined behaviour but what the terminal makes of its input, read or echoed (C27).", "quantifier": "all sessions of any length, all choices of events left out, all ways to cut up all output", "why_tests_cant": "compares pairs of sessions of any length at all interleavings with the window system", "anchors": ["src/gtktsm/gtktsm-terminal.c:terminal_read_fn", "src/gtktsm/gtktsm-terminal.c:terminal_write_fn", "src/gtktsm/gtktsm-terminal.c:terminal_key_fn", "src/gtktsm/gtktsm-terminal.c:terminal_button_fn", "src/gtktsm/gtktsm-terminal.c:terminal_draw_fn", "src/tsm/tsm-vte.c:tsm_vte_input"]}
{"id": "C70", "title": "The arithmetic helpers compute what they say", "statement": "For every size, SHL_ALIGN_POWER2 gives the least power of two not below it, 0 for 0 and 0 if there is none in the range of size_t, and is never undefined, whatever the width of size_t. Every checked multiplication gives the product and 0 if the product fits the type, else -ERANGE and leaves the value as it was, whatever the widths of long and of the fast integer types. shl_max, shl_min and shl_clamp give the larger, the smaller, the nearest value in the range.", "quantifier": "all values of all operand types, all widths C allows for long and the fast types", "why_tests_cant": "2^128 pairs of operands; depends on widths of types that one machine does not have", "anchors": ["src/shared/shl-macro.h:SHL_ALIGN_POWER2", "src/shared/shl-macro.h:SHL__REAL_MULT", "src/shared/shl-macro.h:SHL__UPCAST_MULT", "src/shared/shl-macro.h:shl_clamp", "src/shared/shl-ring.c:ring_resize"]}
