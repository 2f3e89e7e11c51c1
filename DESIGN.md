# Formal model of libtsm in Rocq/Coq 8.16.1

Source: `/repo` (Aetf/libtsm at the pinned commit). The code is read as text; it
is never built or run. All theorems are about the Gallina model below; the tie to
the code is the function-by-function transcription, each definition citing file
and lines.

## Conventions

* C integers are `Z`; every unsigned operation that can wrap is written with an
  explicit wrap (`u32`, `u64`), every signed conversion with `i32`/`i8`.
* Undefined behaviour is a distinct outcome: `res A := Ok (a : A) | Ub`. Every
  array access, `memmove`/`memcpy`, and pointer dereference in the modelled code
  checks the bounds (or the liveness of the pointee) in the model and yields `Ub`
  when the C access would be out of bounds or dangling.
* Lines are values. Each line owns its cells; in C a line object is referenced
  from exactly one slot of the main array, alternate array or scrollback list.
  Pointers *to* scrollback lines (`sb_pos`, `sel_start.line`, `sel_end.line`) are
  modelled by a unique line identity, and following such a pointer to a line no
  longer in the scrollback is `Ub`.
* Loops over ranges are structural recursion on the trip count.
* Memory allocation succeeds (the `-ENOMEM` paths are in `Alloc.v`, `Own.v` and `Symmem.v` only) unless a
  definition says otherwise. Logging is not modelled. `NULL` object arguments are
  not modelled (the code returns immediately).
* Platform: x86-64 Linux: `int` 32 bits, `size_t`/`uint_fast32_t` 64 bits. The
  signedness of `char` is a parameter where it matters.

## Layers (files in `rocq/theories`)

| file | contents |
|---|---|
| `Base.v`, `BaseProofs.v` | result monad, wrap functions, Z-indexed lists, memmove, range loops |
| `Utf8.v`, `Utf8Spec.v`, `Utf8Proofs.v` | `tsm-unicode.c` encoder and decoder; independent UTF-8; proofs |
| `Wcwidth.v`, `WcwidthProofs.v` | `wcwidth.c` tables and binary search, width helpers |
| `Symbol.v`, `SymbolProofs.v` | symbol table |
| `Symmem.v`, `SymmemSpec.v`, `SymmemProofs.v`, `SymmemExact.v`, `SymmemThms.v` | symbol table in memory, on the hash table of `Htable.v` and the array of `Array.v`, with blocks and failing allocations |
| `Own.v`, `OwnSpec.v`, `OwnProofs.v`, `OwnRows.v`, `OwnThms.v`, `OwnCalls.v`, `OwnCallThms.v`, `OwnDemo.v` | line objects as pointers: who points where, links of the scrollback, allocation and freeing; which of this each screen call does |
| `OwnViewSpec.v`, `OwnView.v`, `OwnViewCalls.v`, `OwnViewUp.v`, `OwnViewRest.v`, `OwnViewAll.v`, `OwnViewThms.v` | view and selection pointers point to the lines `Screen.v` says, after every call and when drawing |
| `SeenSpec.v`, `SeenProofs.v`, `SeenThms.v` | where the contents of cells come from; ids of drawn cells |
| `ReplyText.v` | texts of fixed replies |
| `Life.v`, `LifeSpec.v`, `LifeProofs.v`, `LifeScr.v`, `LifeCalls.v`, `LifeThms.v`, `LifeInv.v`, `LifeSound.v`, `LifeDemo.v` | lifetimes: every block of memory of screens, terminals and symbol tables, reference counters, creation and destruction with failing allocations |
| `Bridge.v`, `BridgeSpec.v`, `BridgeProofs.v`, `BridgeThms.v`, `BridgeDemo.v` | `shl-pty.c`: reading, dispatching and the event bridge, with the part of the kernel they rely on |
| `DriveSpec.v`, `DriveProofs.v`, `DriveThms.v` | the calls every function of the terminal makes on the screen, control characters in cells and in copied text |
| `Spawn.v`, `SpawnSpec.v`, `SpawnProofs.v`, `SpawnThms.v`, `SpawnDemo.v` | `shl-pty.c`: opening a pty with a child process, references, the descriptors of both processes |
| `Watch.v`, `WatchSpec.v`, `WatchProofs.v`, `WatchDemo.v` | `shl-pty.c`: the pointers in the epoll set of a bridge, with ptys being freed and children holding descriptors |
| `Pixel.v`, `PixelSpec.v`, `PixelFrameSpec.v`, `PixelProofs.v`, `PixelCell.v`, `PixelFrame.v`, `PixelDemo.v` | `gtktsm-terminal.c`: the cell renderer, its buffer, glyph tables, measuring a font, the widget's drawing events |
| `Gadget.v`, `GadgetSpec.v`, `GadgetProofs.v`, `GadgetDemo.v` | `gtktsm-terminal.c`: the widget's handlers of keys, mouse, the child's output and its end, queueing of frames |
| `PixelDebugSpec.v`, `PixelDebug.v` | cells skipped by the renderer and its debug mode |
| `VteGrow.v`, `GadgetTwinSpec.v`, `GadgetTwin.v`, `GadgetMore.v` | two sessions of the widget side by side; reading in pieces; titles, size and frames within sessions |
| `BridgeClose.v`, `BridgeResult.v` | what is seen of a pty before and after it is closed; what a dispatch returns |
| `FlushSpec.v`, `FlushProofs.v` | what pty_write returns |
| `SymbolMake.v` | symbols made of one number |
| `WatchKept.v` | which ptys a bridge watches, and until when |
| `Macro.v`, `MacroSpec.v`, `MacroProofs.v` | the arithmetic helpers of `shl-macro.h` |
| `CopySpec.v`, `CopyHidden.v`, `CopyProofs.v`, `CopyText.v` | copying all the text: gesture, folding of lines, what the rows hold after a document |
| `Ring.v`, `Array.v`, `Pty.v`-part in `SharedSpec.v`, `*Proofs.v` | `src/shared`: ring buffer, array, delivery loop of the pty writer |
| `Screen.v`, `ScreenResize.v` | model of `tsm-screen.c`: operations as state transformers, `op`, `step`, `run` |
| `ScreenSpec.v` | what can be seen of a screen, used in the statements |
| `ScreenInv.v`, `ScreenSafe.v`, `ScreenSb.v`, `ScreenScroll.v`, `ScreenOps.v`, `ScreenCtl.v`, `ScreenMove.v`, `ScreenLaws.v`, `ScreenAlt.v`, `ScreenHist.v`, `ScreenRz.v`, `ScreenThms.v` | invariant, exact effect of every call, laws |
| `Vte.v`, `VteData.v`, `VteKeys.v` | model of `tsm-vte.c` (parser, actions, palettes, character sets, keyboard, mouse), `vop`, `vstep`, `vrun` |
| `VteSpec.v`, `VteView.v`, `VteDevSpec.v` | independent vocabulary: rendition table, decimal parameters, modes, sets, keys, mouse reports |
| `VteInv.v`, `VteSafe.v`, `VteFrame.v`, `VteParse.v`, `VteCsi.v`, `VteFx.v`, `VteText.v`, `VteStr.v`, `VteEsc.v`, `VteReply.v`, `VteReset.v`, `VteSave.v`, `VteDev.v`, `VteThms.v`, `VteThms2.v`, `VteThms3.v` | proofs |
| `Render.v` | `tsm_screen_draw` (`tsm-render.c`), callback results ignored |
| `RenderSpec.v` | independent vocabulary: the line shown in a row, reported age, selected cells, clients with and without skipping |
| `RenderProofs.v`, `RenderAge.v`, `RenderThms.v` | proofs |
| `Selection.v` | `tsm_screen_selection_copy` (`tsm-selection.c`); writes past the computed buffer size and reads outside the line arrays are `Ub` |
| `SelectionSpec.v` | independent vocabulary: rows of text, places, the text between two places, staying attached |
| `SelectionProofs.v`, `SelectionFollow.v`, `SelectionThms.v` | proofs |
| `Htable.v` | `shl-htable.c`: the whole table with its words (address bits, hash bits, deletion marks), doubling, rehashing in place, common bits; comparison and rehash callbacks are parameters; loops without an empty slot, shifts past 30 bits and failed assertions are `Ub` |
| `HtableSpec.v` | the table as a bag; proper use of the callbacks |
| `HtableProofs.v` | proofs |
| `Paper.v`, `PaperProofs.v` | a page without end and a typewriter; the screen with its scrollback as a window on it |
| `FrameSpec.v`, `ScreenFrame.v` | which calls may change what; proofs |
| `EditSpec.v`, `VteEdit.v` | effects of editing sequences, controls and tab stops; proofs |
| `TwinSpec.v`, `TwinVteSpec.v`, `TwinProofs.v`, `TwinStep.v`, `TwinVte.v`, `TwinThms.v` | two screens or terminals with the same page: relations, preservation by every call, runs with calls left out |
| `Alloc.v`, `AllocSpec.v`, `AllocProofs.v`, `AllocCalls.v`, `AllocResize.v`, `AllocThms.v` | screen calls with allocations that may fail, by a list of verdicts; same page as without failures, what a failed resize leaves |
| `Document.v`, `DocProofs.v` | documents (text, line controls, renditions), their bytes and how they are typed; proofs |
| `VteDemo.v` | terminals used in examples |
| `Props*.v` | only property theorems, examples, `Print Assumptions` |

## Per property plan

| id | modelled | proof |
|---|---|---|
| C01, C02, C04 | encoder, decoder state machine | arithmetic on byte decomposition; induction over text |
| C03 | decoder | refuted by witness; partial: what is accepted |
| C05 | symbol table with intern list | refuted by witness (index off by one); partial for plain symbols and for identity of ids |
| C06 | tables and binary search | sortedness by computation, correctness of bisection by induction |
| C07, C08 | all screen calls | invariant by induction over calls; exact characterisation of the calls that can go out of bounds; witnesses for those |
| C09, C10 | scrollback | refinement to bounded history; refuted numeric position |
| C11, C12 | resize | pointwise cell specification; attribute part refuted |
| C13-C16, C18, C19, C22 | screen calls | pointwise functional specifications |
| C17 | alternate buffer | frame lemma per call, induction |
| C20, C21 | ages, draw | per-call ageing lemma, induction over calls and draws |
| C23, C37 | reset | explicit resulting state |
| C24-C26 | selection | false of the code (witnesses: 4-byte characters, ends scrolled out, scrolling down, narrower screens; order of the ends; margins, alternate screen); proved for the remaining cases |
| C27-C32, C40, C45 | parser and actions | invariant over bytes; induction |
| C33, C34, C36, C41-C44 | actions | per-action specifications |
| C35 | save/restore | refuted in origin mode; partial otherwise |
| C38, C39 | keyboard, mouse | case analysis against tables |
| C50 | text, line feeds, newlines, scrollback | simulation: invariant between window, scrollback and page, induction over what is typed |
| C51 | all screen calls | case analysis per call, induction over runs |
| C52, C53 | editing sequences, controls, tabs | composition of the parser laws with the pointwise laws of the screen and the frame C51 |
| C54 | text with renditions | induction over the document, composition of C34, C45, C53 with C50 |
| C55 | two executions | relational invariant (same page, same scrollback text), preserved per call of the screen and per function of the terminal; induction over runs |
| C56 | failing allocations | the calls that allocate are modelled a second time with a verdict per `malloc`/`realloc`; each is related to the first model by the relation of C55, then induction over runs |
| C57 | the symbol table over blocks, hash table and array | refinement of `Symbol.v` by a relation between the two tables; sizes of hash table and array followed to say exactly when an append is undefined |
| C58 | objects, pointers and links of the lines | invariant: the objects alive are a permutation of both buffers and the scrollback, which is a doubly linked list; each operation is shown to keep it; then simulation of `Screen.v` |
| C59 | all screen calls | for any predicate that blanks in default attributes and written characters meet, every call keeps it of all cells; then instantiated |
| C60 | draw | C59 for the range of characters, then arithmetic of the id |
| C61 | terminal, scrollback, selection | C54 and C50 give the page, an invariant the blank cells right of it, C25 the text copied |
| C62 | all blocks of memory, reference counters | invariant: a list of owners per block (the client or one pointer in a block) of the length its counter says; every call keeps it; reachability by rank (terminal, screen, rest) |
| C63 | ptys, epoll set, kernel queues | invariant per pty: what was fed and what is queued make up what was said, and no event pending means nothing left to do; measure of waiting bytes for draining; witnesses for the two lost wake-ups |
| C64 | terminal, screen, selection | every function of the terminal, in one pass over `Vte.v`, is shown to change the screen by a run of legal calls among those allowed; then the frames of C51; cells by C59 and the widths of the control characters |
| C65 | opening a pty, descriptor tables | the child's part by cases on the first call that fails, then the parent's; invariant of histories: the counter of a pty is the number of references held, masters and open ptys correspond one to one; witnesses for what is false |
| C66 | epoll set of the bridge | invariant: each entry's pointer is to a pty that is alive and open with the descriptor and file of the entry; frames of the calls of C65; witnesses for what is false |
| C67 | cell renderer, widget | pixelwise specification of painting, division by 255 by arithmetic; a frame repaints each cell within its own rectangle; with C20 (what is skipped was painted so before) an invariant over sessions; witnesses for what is false |
| C68 | the widget's event handlers | per-event frame (queued or screen untouched), induction over events; the selection as calls of the screen up to ages; bits of the modifiers; composition with C32 and C38; witnesses for what is false |
| C69 | two sessions of the widget | simulation: both sessions tied to one quiet session, events left out keep the tie (screen calls that keep the page), all others go in step (the relation of C61); reading by induction over the reads |
| C70 | arithmetic helpers | cases and arithmetic over Z, with the widths of the types as parameters; shown equal to the function the ring is modelled with |
| C46-C49 | shared helpers | refinement to lists / multisets; C48 false for addresses with different highest bits (witness) |

## Modelled and not modelled, per source file

| file | modelled | not modelled |
|---|---|---|
| `src/tsm/tsm-unicode.c` | UTF-8 encoder and decoder, symbol creation, appending, lookup, interning, as strings (`Symbol.v`) and in memory with failing allocations (`Symmem.v`); creation, references and destruction (`Life.v`) | |
| `src/shared/shl-htable.c` | all of it (see `Htable.v`) | the string variant's hash of particular strings (the hash function is a parameter) |
| `external/wcwidth/wcwidth.c` | all of it | |
| `src/tsm/tsm-screen.c` | every exported call except options; creation, references, destruction with failing allocations (`Life.v`: blocks and pointers, with the scrollback as a list and the moves of pointers within the buffers left to `Own.v`); allocation failure in the calls that scroll or resize (`Alloc.v`) and the pointers to lines, their allocation and freeing (`Own.v`) | `NULL` arguments, logging |
| `src/tsm/tsm-render.c` | all of `tsm_screen_draw` | error results of the callback |
| `src/tsm/tsm-selection.c` | all of it | allocation failure |
| `src/tsm/tsm-vte.c` | input, parser, all control sequences, keyboard, mouse, palettes, save/restore, resets; creation, references, destruction (`Life.v`) | logging, the OSC callback's own behaviour |
| `src/tsm/tsm-vte-charsets.c` | the four tables | |
| `src/shared/shl-ring.c`, `shl-array.h` | all of it | allocation failure where not stated |
| `src/shared/shl-pty.c` | the write queue and its delivery (`Ring.v`), reading, dispatching, the event bridge (`Bridge.v`, over a model of `read`, `writev` and `epoll`: an event is promised only when a queue becomes non-empty, room appears or the child goes, more may come; hanging up is for good; `epoll_ctl` does not run out of memory; `fn_input` may write but not close) | sending signals, changing the window size; opening, references and the lifetime of ptys are in `Spawn.v` and `Watch.v` (exit handlers are not run; the child runs before the parent reads; other processes do not touch the pipe; a dispatch calls back once) |
| `src/shared/shl-macro.h` | SHL_ALIGN_POWER2, shl_max, shl_min, shl_clamp, the checked multiplications | variants with explicit casts, attributes, casts of pointers, shl_container_of, zeroing |
| `src/shared/shl-llog.h` | | everything |
| `src/gtktsm/gtktsm-terminal.c` | the cell renderer (filling, blending, highlighting, choosing faces, looking up and creating glyphs, drawing cells), its buffer, measuring, and what events for drawing, resizing and the font do with it (`Pixel.v`); what pango and cairo paint for a glyph is a parameter that is the same each time it is asked for; the table of glyphs is a list | pango, cairo and GTK themselves, copying the buffer to the window, logging, properties other than font and scrollback size; the handlers of keys, mouse, output and the child's end are in `Gadget.v`, apart from the renderer (positions of the mouse in units of 1/1024 pixel; the sources of the main loop run in any order) |
| `src/gtktsm` otherwise | | everything |

## Trusted base

* the Coq 8.16.1 kernel and its virtual machine (`vm_compute`);
* the axioms listed by `Print Assumptions` under each property theorem;
* the faithfulness of the transcription, as documented in the comments.

## Wrong programs

`seeded/LOG.jsonl` lists edits of the model and what they broke. "detected" means that
the unchanged files compile and with the edit a proof no longer does; the first that
fails is named. Most edits are made by a program, so this does not by itself show the
claim false of the edited model: some edits give an equivalent program for which only
the script of the proof stops. Where that was noticed the result is "equivalent"; edits
not detected have a reason.
