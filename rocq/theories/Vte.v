(* Model of /repo/src/tsm/tsm-vte.c: parser, actions, resets and input.
   Keyboard and mouse are in VteKeys.v. Simplifications:
   - the effect on the screen is a sequence of screen calls, each one the
     function step of Screen.v;
   - what the terminal passes to write_cb, osc_cb and mouse_cb is recorded, in
     order, in the field v_out; these callbacks do not call back into the
     terminal;
   - parse_cnt is not modelled: everything below runs inside tsm_vte_input, where
     it is not 0, so that vte_write does not echo (tsm-vte.c:700). Writes from
     outside tsm_vte_input are in VteKeys.v;
   - the pointers gl, gr, glt, grt only ever point to the members g0..g3;
   - logging, reference counts and NULL arguments are left out; allocations
     succeed. *)
From Verif Require Import Base Utf8 Symbol Screen VteData.

(* tsm-vte.c:62-79 enum parser_state (STATE_NONE is the absence of a target). *)
Inductive pstate :=
| SGround | SEsc | SEscInt | SCsiEntry | SCsiParam | SCsiInt | SCsiIgnore
| SDcsEntry | SDcsParam | SDcsInt | SDcsPass | SDcsIgnore | SOsc | SStIgnore.

(* tsm-vte.c:82-99 enum parser_action. *)
Inductive action :=
| ANone | AIgnore | APrint | AExecute | AClear | ACollect | AParam | AEsc | ACsi
| ADcsStart | ADcsCollect | ADcsEnd | AOscStart | AOscCollect | AOscEnd.

(* libtsm-int.h:176-181: the four character sets. *)
Inductive charset := CsLower | CsUpper | CsDecSupp | CsDecSpec.
Definition cs_table (c : charset) : list Z :=
  match c with
  | CsLower => cs_unicode_lower
  | CsUpper => cs_unicode_upper
  | CsDecSupp => cs_dec_supplemental
  | CsDecSpec => cs_dec_special
  end.
(* tsm-vte.c:186-189 what gl, gr, glt, grt point to. *)
Inductive gsel := G0 | G1 | G2 | G3.

(* tsm-vte.c:377-402: palette names up to strcmp; PnOther is any other name. *)
Inductive palname :=
| PnNull | PnCustom | PnSolarized | PnSolarizedBlack | PnSolarizedWhite | PnSoftBlack
| PnBase16Dark | PnBase16Light | PnVga | PnLegacy | PnOther.

(* tsm-vte.c:140-148 struct vte_saved_state. *)
Record saved := mkSv {
  sv_x : Z; sv_y : Z; sv_attr : attr; sv_gl : gsel; sv_gr : gsel; sv_wrap : bool; sv_origin : bool
}.

(* Calls of the client's callbacks (libtsm.h: tsm_vte_write_cb, tsm_vte_osc_cb,
   tsm_vte_mouse_cb) with their data arguments; the bytes are unsigned. *)
Inductive event := EWrite (bs : list Z) | EOsc (bs : list Z) | EMouse (ev : Z) (pixels : bool).

(* tsm-vte.c:150-198 struct tsm_vte. *)
Record vte := mkV {
  v_con : screen  (* con *);
  v_bsd : bool  (* backspace_sends_delete *);
  v_mach : umach  (* mach *);
  v_state : pstate  (* state *);
  v_argc : Z  (* csi_argc *);
  v_argv : list Z  (* csi_argv *);
  v_cfl : Z  (* csi_flags *);
  v_oscb : bool  (* osc_cb != NULL *);
  v_osclen : Z  (* osc_len *);
  v_osc : list Z  (* osc_arg *);
  v_mcb : bool  (* mouse_cb != NULL *);
  v_mmode : Z  (* mouse_mode *);
  v_mev : Z  (* mouse_event *);
  v_mcol : Z  (* mouse_last_col *);
  v_mrow : Z  (* mouse_last_row *);
  v_pname : palname  (* palette_name *);
  v_custom : option palette  (* custom_palette_storage *);
  v_pal : palette  (* palette *);
  v_def : attr  (* def_attr *);
  v_cattr : attr  (* cattr *);
  v_flags : Z  (* flags *);
  v_gl : gsel  (* gl *);
  v_gr : gsel  (* gr *);
  v_glt : option gsel  (* glt *);
  v_grt : option gsel  (* grt *);
  v_g0 : charset  (* g0 *);
  v_g1 : charset  (* g1 *);
  v_g2 : charset  (* g2 *);
  v_g3 : charset  (* g3 *);
  v_saved : saved  (* saved_state *);
  v_altx : Z  (* alt_cursor_x *);
  v_alty : Z  (* alt_cursor_y *);
  v_out : list event  (* calls of write_cb, osc_cb and mouse_cb so far *)
}.

(* tsm-vte.c:150-198, assignment to con. *)
Definition w_con (v : vte) (x : screen) : vte :=
  mkV x (v_bsd v) (v_mach v) (v_state v) (v_argc v) (v_argv v) (v_cfl v) (v_oscb v) (v_osclen v) (v_osc v) (v_mcb v) (v_mmode v) (v_mev v) (v_mcol v) (v_mrow v) (v_pname v) (v_custom v) (v_pal v) (v_def v) (v_cattr v) (v_flags v) (v_gl v) (v_gr v) (v_glt v) (v_grt v) (v_g0 v) (v_g1 v) (v_g2 v) (v_g3 v) (v_saved v) (v_altx v) (v_alty v) (v_out v).
(* tsm-vte.c:150-198, assignment to backspace_sends_delete. *)
Definition w_bsd (v : vte) (x : bool) : vte :=
  mkV (v_con v) x (v_mach v) (v_state v) (v_argc v) (v_argv v) (v_cfl v) (v_oscb v) (v_osclen v) (v_osc v) (v_mcb v) (v_mmode v) (v_mev v) (v_mcol v) (v_mrow v) (v_pname v) (v_custom v) (v_pal v) (v_def v) (v_cattr v) (v_flags v) (v_gl v) (v_gr v) (v_glt v) (v_grt v) (v_g0 v) (v_g1 v) (v_g2 v) (v_g3 v) (v_saved v) (v_altx v) (v_alty v) (v_out v).
(* tsm-vte.c:150-198, assignment to mach. *)
Definition w_mach (v : vte) (x : umach) : vte :=
  mkV (v_con v) (v_bsd v) x (v_state v) (v_argc v) (v_argv v) (v_cfl v) (v_oscb v) (v_osclen v) (v_osc v) (v_mcb v) (v_mmode v) (v_mev v) (v_mcol v) (v_mrow v) (v_pname v) (v_custom v) (v_pal v) (v_def v) (v_cattr v) (v_flags v) (v_gl v) (v_gr v) (v_glt v) (v_grt v) (v_g0 v) (v_g1 v) (v_g2 v) (v_g3 v) (v_saved v) (v_altx v) (v_alty v) (v_out v).
(* tsm-vte.c:150-198, assignment to state. *)
Definition w_state (v : vte) (x : pstate) : vte :=
  mkV (v_con v) (v_bsd v) (v_mach v) x (v_argc v) (v_argv v) (v_cfl v) (v_oscb v) (v_osclen v) (v_osc v) (v_mcb v) (v_mmode v) (v_mev v) (v_mcol v) (v_mrow v) (v_pname v) (v_custom v) (v_pal v) (v_def v) (v_cattr v) (v_flags v) (v_gl v) (v_gr v) (v_glt v) (v_grt v) (v_g0 v) (v_g1 v) (v_g2 v) (v_g3 v) (v_saved v) (v_altx v) (v_alty v) (v_out v).
(* tsm-vte.c:150-198, assignment to csi_argc. *)
Definition w_argc (v : vte) (x : Z) : vte :=
  mkV (v_con v) (v_bsd v) (v_mach v) (v_state v) x (v_argv v) (v_cfl v) (v_oscb v) (v_osclen v) (v_osc v) (v_mcb v) (v_mmode v) (v_mev v) (v_mcol v) (v_mrow v) (v_pname v) (v_custom v) (v_pal v) (v_def v) (v_cattr v) (v_flags v) (v_gl v) (v_gr v) (v_glt v) (v_grt v) (v_g0 v) (v_g1 v) (v_g2 v) (v_g3 v) (v_saved v) (v_altx v) (v_alty v) (v_out v).
(* tsm-vte.c:150-198, assignment to csi_argv. *)
Definition w_argv (v : vte) (x : list Z) : vte :=
  mkV (v_con v) (v_bsd v) (v_mach v) (v_state v) (v_argc v) x (v_cfl v) (v_oscb v) (v_osclen v) (v_osc v) (v_mcb v) (v_mmode v) (v_mev v) (v_mcol v) (v_mrow v) (v_pname v) (v_custom v) (v_pal v) (v_def v) (v_cattr v) (v_flags v) (v_gl v) (v_gr v) (v_glt v) (v_grt v) (v_g0 v) (v_g1 v) (v_g2 v) (v_g3 v) (v_saved v) (v_altx v) (v_alty v) (v_out v).
(* tsm-vte.c:150-198, assignment to csi_flags. *)
Definition w_cfl (v : vte) (x : Z) : vte :=
  mkV (v_con v) (v_bsd v) (v_mach v) (v_state v) (v_argc v) (v_argv v) x (v_oscb v) (v_osclen v) (v_osc v) (v_mcb v) (v_mmode v) (v_mev v) (v_mcol v) (v_mrow v) (v_pname v) (v_custom v) (v_pal v) (v_def v) (v_cattr v) (v_flags v) (v_gl v) (v_gr v) (v_glt v) (v_grt v) (v_g0 v) (v_g1 v) (v_g2 v) (v_g3 v) (v_saved v) (v_altx v) (v_alty v) (v_out v).
(* tsm-vte.c:150-198, assignment to osc_cb != NULL. *)
Definition w_oscb (v : vte) (x : bool) : vte :=
  mkV (v_con v) (v_bsd v) (v_mach v) (v_state v) (v_argc v) (v_argv v) (v_cfl v) x (v_osclen v) (v_osc v) (v_mcb v) (v_mmode v) (v_mev v) (v_mcol v) (v_mrow v) (v_pname v) (v_custom v) (v_pal v) (v_def v) (v_cattr v) (v_flags v) (v_gl v) (v_gr v) (v_glt v) (v_grt v) (v_g0 v) (v_g1 v) (v_g2 v) (v_g3 v) (v_saved v) (v_altx v) (v_alty v) (v_out v).
(* tsm-vte.c:150-198, assignment to osc_len. *)
Definition w_osclen (v : vte) (x : Z) : vte :=
  mkV (v_con v) (v_bsd v) (v_mach v) (v_state v) (v_argc v) (v_argv v) (v_cfl v) (v_oscb v) x (v_osc v) (v_mcb v) (v_mmode v) (v_mev v) (v_mcol v) (v_mrow v) (v_pname v) (v_custom v) (v_pal v) (v_def v) (v_cattr v) (v_flags v) (v_gl v) (v_gr v) (v_glt v) (v_grt v) (v_g0 v) (v_g1 v) (v_g2 v) (v_g3 v) (v_saved v) (v_altx v) (v_alty v) (v_out v).
(* tsm-vte.c:150-198, assignment to osc_arg. *)
Definition w_osc (v : vte) (x : list Z) : vte :=
  mkV (v_con v) (v_bsd v) (v_mach v) (v_state v) (v_argc v) (v_argv v) (v_cfl v) (v_oscb v) (v_osclen v) x (v_mcb v) (v_mmode v) (v_mev v) (v_mcol v) (v_mrow v) (v_pname v) (v_custom v) (v_pal v) (v_def v) (v_cattr v) (v_flags v) (v_gl v) (v_gr v) (v_glt v) (v_grt v) (v_g0 v) (v_g1 v) (v_g2 v) (v_g3 v) (v_saved v) (v_altx v) (v_alty v) (v_out v).
(* tsm-vte.c:150-198, assignment to mouse_cb != NULL. *)
Definition w_mcb (v : vte) (x : bool) : vte :=
  mkV (v_con v) (v_bsd v) (v_mach v) (v_state v) (v_argc v) (v_argv v) (v_cfl v) (v_oscb v) (v_osclen v) (v_osc v) x (v_mmode v) (v_mev v) (v_mcol v) (v_mrow v) (v_pname v) (v_custom v) (v_pal v) (v_def v) (v_cattr v) (v_flags v) (v_gl v) (v_gr v) (v_glt v) (v_grt v) (v_g0 v) (v_g1 v) (v_g2 v) (v_g3 v) (v_saved v) (v_altx v) (v_alty v) (v_out v).
(* tsm-vte.c:150-198, assignment to mouse_mode. *)
Definition w_mmode (v : vte) (x : Z) : vte :=
  mkV (v_con v) (v_bsd v) (v_mach v) (v_state v) (v_argc v) (v_argv v) (v_cfl v) (v_oscb v) (v_osclen v) (v_osc v) (v_mcb v) x (v_mev v) (v_mcol v) (v_mrow v) (v_pname v) (v_custom v) (v_pal v) (v_def v) (v_cattr v) (v_flags v) (v_gl v) (v_gr v) (v_glt v) (v_grt v) (v_g0 v) (v_g1 v) (v_g2 v) (v_g3 v) (v_saved v) (v_altx v) (v_alty v) (v_out v).
(* tsm-vte.c:150-198, assignment to mouse_event. *)
Definition w_mev (v : vte) (x : Z) : vte :=
  mkV (v_con v) (v_bsd v) (v_mach v) (v_state v) (v_argc v) (v_argv v) (v_cfl v) (v_oscb v) (v_osclen v) (v_osc v) (v_mcb v) (v_mmode v) x (v_mcol v) (v_mrow v) (v_pname v) (v_custom v) (v_pal v) (v_def v) (v_cattr v) (v_flags v) (v_gl v) (v_gr v) (v_glt v) (v_grt v) (v_g0 v) (v_g1 v) (v_g2 v) (v_g3 v) (v_saved v) (v_altx v) (v_alty v) (v_out v).
(* tsm-vte.c:150-198, assignment to mouse_last_col. *)
Definition w_mcol (v : vte) (x : Z) : vte :=
  mkV (v_con v) (v_bsd v) (v_mach v) (v_state v) (v_argc v) (v_argv v) (v_cfl v) (v_oscb v) (v_osclen v) (v_osc v) (v_mcb v) (v_mmode v) (v_mev v) x (v_mrow v) (v_pname v) (v_custom v) (v_pal v) (v_def v) (v_cattr v) (v_flags v) (v_gl v) (v_gr v) (v_glt v) (v_grt v) (v_g0 v) (v_g1 v) (v_g2 v) (v_g3 v) (v_saved v) (v_altx v) (v_alty v) (v_out v).
(* tsm-vte.c:150-198, assignment to mouse_last_row. *)
Definition w_mrow (v : vte) (x : Z) : vte :=
  mkV (v_con v) (v_bsd v) (v_mach v) (v_state v) (v_argc v) (v_argv v) (v_cfl v) (v_oscb v) (v_osclen v) (v_osc v) (v_mcb v) (v_mmode v) (v_mev v) (v_mcol v) x (v_pname v) (v_custom v) (v_pal v) (v_def v) (v_cattr v) (v_flags v) (v_gl v) (v_gr v) (v_glt v) (v_grt v) (v_g0 v) (v_g1 v) (v_g2 v) (v_g3 v) (v_saved v) (v_altx v) (v_alty v) (v_out v).
(* tsm-vte.c:150-198, assignment to palette_name. *)
Definition w_pname (v : vte) (x : palname) : vte :=
  mkV (v_con v) (v_bsd v) (v_mach v) (v_state v) (v_argc v) (v_argv v) (v_cfl v) (v_oscb v) (v_osclen v) (v_osc v) (v_mcb v) (v_mmode v) (v_mev v) (v_mcol v) (v_mrow v) x (v_custom v) (v_pal v) (v_def v) (v_cattr v) (v_flags v) (v_gl v) (v_gr v) (v_glt v) (v_grt v) (v_g0 v) (v_g1 v) (v_g2 v) (v_g3 v) (v_saved v) (v_altx v) (v_alty v) (v_out v).
(* tsm-vte.c:150-198, assignment to custom_palette_storage. *)
Definition w_custom (v : vte) (x : option palette) : vte :=
  mkV (v_con v) (v_bsd v) (v_mach v) (v_state v) (v_argc v) (v_argv v) (v_cfl v) (v_oscb v) (v_osclen v) (v_osc v) (v_mcb v) (v_mmode v) (v_mev v) (v_mcol v) (v_mrow v) (v_pname v) x (v_pal v) (v_def v) (v_cattr v) (v_flags v) (v_gl v) (v_gr v) (v_glt v) (v_grt v) (v_g0 v) (v_g1 v) (v_g2 v) (v_g3 v) (v_saved v) (v_altx v) (v_alty v) (v_out v).
(* tsm-vte.c:150-198, assignment to palette. *)
Definition w_pal (v : vte) (x : palette) : vte :=
  mkV (v_con v) (v_bsd v) (v_mach v) (v_state v) (v_argc v) (v_argv v) (v_cfl v) (v_oscb v) (v_osclen v) (v_osc v) (v_mcb v) (v_mmode v) (v_mev v) (v_mcol v) (v_mrow v) (v_pname v) (v_custom v) x (v_def v) (v_cattr v) (v_flags v) (v_gl v) (v_gr v) (v_glt v) (v_grt v) (v_g0 v) (v_g1 v) (v_g2 v) (v_g3 v) (v_saved v) (v_altx v) (v_alty v) (v_out v).
(* tsm-vte.c:150-198, assignment to def_attr. *)
Definition w_def (v : vte) (x : attr) : vte :=
  mkV (v_con v) (v_bsd v) (v_mach v) (v_state v) (v_argc v) (v_argv v) (v_cfl v) (v_oscb v) (v_osclen v) (v_osc v) (v_mcb v) (v_mmode v) (v_mev v) (v_mcol v) (v_mrow v) (v_pname v) (v_custom v) (v_pal v) x (v_cattr v) (v_flags v) (v_gl v) (v_gr v) (v_glt v) (v_grt v) (v_g0 v) (v_g1 v) (v_g2 v) (v_g3 v) (v_saved v) (v_altx v) (v_alty v) (v_out v).
(* tsm-vte.c:150-198, assignment to cattr. *)
Definition w_cattr (v : vte) (x : attr) : vte :=
  mkV (v_con v) (v_bsd v) (v_mach v) (v_state v) (v_argc v) (v_argv v) (v_cfl v) (v_oscb v) (v_osclen v) (v_osc v) (v_mcb v) (v_mmode v) (v_mev v) (v_mcol v) (v_mrow v) (v_pname v) (v_custom v) (v_pal v) (v_def v) x (v_flags v) (v_gl v) (v_gr v) (v_glt v) (v_grt v) (v_g0 v) (v_g1 v) (v_g2 v) (v_g3 v) (v_saved v) (v_altx v) (v_alty v) (v_out v).
(* tsm-vte.c:150-198, assignment to flags. *)
Definition w_flags (v : vte) (x : Z) : vte :=
  mkV (v_con v) (v_bsd v) (v_mach v) (v_state v) (v_argc v) (v_argv v) (v_cfl v) (v_oscb v) (v_osclen v) (v_osc v) (v_mcb v) (v_mmode v) (v_mev v) (v_mcol v) (v_mrow v) (v_pname v) (v_custom v) (v_pal v) (v_def v) (v_cattr v) x (v_gl v) (v_gr v) (v_glt v) (v_grt v) (v_g0 v) (v_g1 v) (v_g2 v) (v_g3 v) (v_saved v) (v_altx v) (v_alty v) (v_out v).
(* tsm-vte.c:150-198, assignment to gl. *)
Definition w_gl (v : vte) (x : gsel) : vte :=
  mkV (v_con v) (v_bsd v) (v_mach v) (v_state v) (v_argc v) (v_argv v) (v_cfl v) (v_oscb v) (v_osclen v) (v_osc v) (v_mcb v) (v_mmode v) (v_mev v) (v_mcol v) (v_mrow v) (v_pname v) (v_custom v) (v_pal v) (v_def v) (v_cattr v) (v_flags v) x (v_gr v) (v_glt v) (v_grt v) (v_g0 v) (v_g1 v) (v_g2 v) (v_g3 v) (v_saved v) (v_altx v) (v_alty v) (v_out v).
(* tsm-vte.c:150-198, assignment to gr. *)
Definition w_gr (v : vte) (x : gsel) : vte :=
  mkV (v_con v) (v_bsd v) (v_mach v) (v_state v) (v_argc v) (v_argv v) (v_cfl v) (v_oscb v) (v_osclen v) (v_osc v) (v_mcb v) (v_mmode v) (v_mev v) (v_mcol v) (v_mrow v) (v_pname v) (v_custom v) (v_pal v) (v_def v) (v_cattr v) (v_flags v) (v_gl v) x (v_glt v) (v_grt v) (v_g0 v) (v_g1 v) (v_g2 v) (v_g3 v) (v_saved v) (v_altx v) (v_alty v) (v_out v).
(* tsm-vte.c:150-198, assignment to glt. *)
Definition w_glt (v : vte) (x : option gsel) : vte :=
  mkV (v_con v) (v_bsd v) (v_mach v) (v_state v) (v_argc v) (v_argv v) (v_cfl v) (v_oscb v) (v_osclen v) (v_osc v) (v_mcb v) (v_mmode v) (v_mev v) (v_mcol v) (v_mrow v) (v_pname v) (v_custom v) (v_pal v) (v_def v) (v_cattr v) (v_flags v) (v_gl v) (v_gr v) x (v_grt v) (v_g0 v) (v_g1 v) (v_g2 v) (v_g3 v) (v_saved v) (v_altx v) (v_alty v) (v_out v).
(* tsm-vte.c:150-198, assignment to grt. *)
Definition w_grt (v : vte) (x : option gsel) : vte :=
  mkV (v_con v) (v_bsd v) (v_mach v) (v_state v) (v_argc v) (v_argv v) (v_cfl v) (v_oscb v) (v_osclen v) (v_osc v) (v_mcb v) (v_mmode v) (v_mev v) (v_mcol v) (v_mrow v) (v_pname v) (v_custom v) (v_pal v) (v_def v) (v_cattr v) (v_flags v) (v_gl v) (v_gr v) (v_glt v) x (v_g0 v) (v_g1 v) (v_g2 v) (v_g3 v) (v_saved v) (v_altx v) (v_alty v) (v_out v).
(* tsm-vte.c:150-198, assignment to g0. *)
Definition w_g0 (v : vte) (x : charset) : vte :=
  mkV (v_con v) (v_bsd v) (v_mach v) (v_state v) (v_argc v) (v_argv v) (v_cfl v) (v_oscb v) (v_osclen v) (v_osc v) (v_mcb v) (v_mmode v) (v_mev v) (v_mcol v) (v_mrow v) (v_pname v) (v_custom v) (v_pal v) (v_def v) (v_cattr v) (v_flags v) (v_gl v) (v_gr v) (v_glt v) (v_grt v) x (v_g1 v) (v_g2 v) (v_g3 v) (v_saved v) (v_altx v) (v_alty v) (v_out v).
(* tsm-vte.c:150-198, assignment to g1. *)
Definition w_g1 (v : vte) (x : charset) : vte :=
  mkV (v_con v) (v_bsd v) (v_mach v) (v_state v) (v_argc v) (v_argv v) (v_cfl v) (v_oscb v) (v_osclen v) (v_osc v) (v_mcb v) (v_mmode v) (v_mev v) (v_mcol v) (v_mrow v) (v_pname v) (v_custom v) (v_pal v) (v_def v) (v_cattr v) (v_flags v) (v_gl v) (v_gr v) (v_glt v) (v_grt v) (v_g0 v) x (v_g2 v) (v_g3 v) (v_saved v) (v_altx v) (v_alty v) (v_out v).
(* tsm-vte.c:150-198, assignment to g2. *)
Definition w_g2 (v : vte) (x : charset) : vte :=
  mkV (v_con v) (v_bsd v) (v_mach v) (v_state v) (v_argc v) (v_argv v) (v_cfl v) (v_oscb v) (v_osclen v) (v_osc v) (v_mcb v) (v_mmode v) (v_mev v) (v_mcol v) (v_mrow v) (v_pname v) (v_custom v) (v_pal v) (v_def v) (v_cattr v) (v_flags v) (v_gl v) (v_gr v) (v_glt v) (v_grt v) (v_g0 v) (v_g1 v) x (v_g3 v) (v_saved v) (v_altx v) (v_alty v) (v_out v).
(* tsm-vte.c:150-198, assignment to g3. *)
Definition w_g3 (v : vte) (x : charset) : vte :=
  mkV (v_con v) (v_bsd v) (v_mach v) (v_state v) (v_argc v) (v_argv v) (v_cfl v) (v_oscb v) (v_osclen v) (v_osc v) (v_mcb v) (v_mmode v) (v_mev v) (v_mcol v) (v_mrow v) (v_pname v) (v_custom v) (v_pal v) (v_def v) (v_cattr v) (v_flags v) (v_gl v) (v_gr v) (v_glt v) (v_grt v) (v_g0 v) (v_g1 v) (v_g2 v) x (v_saved v) (v_altx v) (v_alty v) (v_out v).
(* tsm-vte.c:150-198, assignment to saved_state. *)
Definition w_saved (v : vte) (x : saved) : vte :=
  mkV (v_con v) (v_bsd v) (v_mach v) (v_state v) (v_argc v) (v_argv v) (v_cfl v) (v_oscb v) (v_osclen v) (v_osc v) (v_mcb v) (v_mmode v) (v_mev v) (v_mcol v) (v_mrow v) (v_pname v) (v_custom v) (v_pal v) (v_def v) (v_cattr v) (v_flags v) (v_gl v) (v_gr v) (v_glt v) (v_grt v) (v_g0 v) (v_g1 v) (v_g2 v) (v_g3 v) x (v_altx v) (v_alty v) (v_out v).
(* tsm-vte.c:150-198, assignment to alt_cursor_x. *)
Definition w_altx (v : vte) (x : Z) : vte :=
  mkV (v_con v) (v_bsd v) (v_mach v) (v_state v) (v_argc v) (v_argv v) (v_cfl v) (v_oscb v) (v_osclen v) (v_osc v) (v_mcb v) (v_mmode v) (v_mev v) (v_mcol v) (v_mrow v) (v_pname v) (v_custom v) (v_pal v) (v_def v) (v_cattr v) (v_flags v) (v_gl v) (v_gr v) (v_glt v) (v_grt v) (v_g0 v) (v_g1 v) (v_g2 v) (v_g3 v) (v_saved v) x (v_alty v) (v_out v).
(* tsm-vte.c:150-198, assignment to alt_cursor_y. *)
Definition w_alty (v : vte) (x : Z) : vte :=
  mkV (v_con v) (v_bsd v) (v_mach v) (v_state v) (v_argc v) (v_argv v) (v_cfl v) (v_oscb v) (v_osclen v) (v_osc v) (v_mcb v) (v_mmode v) (v_mev v) (v_mcol v) (v_mrow v) (v_pname v) (v_custom v) (v_pal v) (v_def v) (v_cattr v) (v_flags v) (v_gl v) (v_gr v) (v_glt v) (v_grt v) (v_g0 v) (v_g1 v) (v_g2 v) (v_g3 v) (v_saved v) (v_altx v) x (v_out v).
(* tsm-vte.c:150-198, assignment to calls of write_cb, osc_cb and mouse_cb so far. *)
Definition w_out (v : vte) (x : list event) : vte :=
  mkV (v_con v) (v_bsd v) (v_mach v) (v_state v) (v_argc v) (v_argv v) (v_cfl v) (v_oscb v) (v_osclen v) (v_osc v) (v_mcb v) (v_mmode v) (v_mev v) (v_mcol v) (v_mrow v) (v_pname v) (v_custom v) (v_pal v) (v_def v) (v_cattr v) (v_flags v) (v_gl v) (v_gr v) (v_glt v) (v_grt v) (v_g0 v) (v_g1 v) (v_g2 v) (v_g3 v) (v_saved v) (v_altx v) (v_alty v) x.

(* tsm-vte.c:114-118. *)
Definition CSI_ARG_MAX : Z := 16.
Definition OSC_MAX_LEN : Z := 128.

(* tsm-vte.c:101-112 CSI flags, as bit numbers. *)
Definition CSI_BANG : Z := 0.
Definition CSI_CASH : Z := 1.
Definition CSI_WHAT : Z := 2.
Definition CSI_GT : Z := 3.
Definition CSI_SPACE : Z := 4.
Definition CSI_SQUOTE : Z := 5.
Definition CSI_DQUOTE : Z := 6.
Definition CSI_MULT : Z := 7.
Definition CSI_PLUS : Z := 8.
Definition CSI_POPEN : Z := 9.
Definition CSI_PCLOSE : Z := 10.

(* libtsm.h:290-307 TSM_VTE_FLAG_*, as bit numbers. *)
Definition VF_CURSOR_KEY : Z := 0.
Definition VF_KEYPAD_APP : Z := 1.
Definition VF_LNM : Z := 2.
Definition VF_8BIT : Z := 3.
Definition VF_7BIT : Z := 4.
Definition VF_USE_C1 : Z := 5.
Definition VF_KAM : Z := 6.
Definition VF_IRM : Z := 7.
Definition VF_SRM : Z := 8.
Definition VF_TEXT_CURSOR : Z := 9.
Definition VF_INVERSE : Z := 10.
Definition VF_ORIGIN : Z := 11.
Definition VF_WRAP : Z := 12.
Definition VF_REPEAT : Z := 13.
Definition VF_NRC : Z := 14.
Definition VF_BCE : Z := 15.
Definition VF_PREPEND : Z := 16.
Definition VF_TITE : Z := 17.
(* vte->flags & flag, e.g. tsm-vte.c:700. *)
Definition vfl (v : vte) (n : Z) : bool := bit (v_flags v) n.
(* tsm-vte.c:1496-1503 set_reset_flag; also the assignments |= and &= ~. *)
Definition set_reset (v : vte) (b : bool) (n : Z) : vte :=
  w_flags v (if b then Z.setbit (v_flags v) n else Z.clearbit (v_flags v) n).

(* libtsm.h:372-376. *)
Definition MOUSE_X10 : Z := 9.
Definition MOUSE_BTN : Z := 1002.
Definition MOUSE_ANY : Z := 1003.
Definition MOUSE_SGR : Z := 1006.
Definition MOUSE_PIXEL : Z := 1016.

(* libtsm.h:150-156 TSM_SCREEN_* flag words as passed by the terminal. *)
Definition SF_INSERT : Z := 1.
Definition SF_WRAP : Z := 2.
Definition SF_ORIGIN : Z := 4.
Definition SF_INVERSE : Z := 8.
Definition SF_HIDE : Z := 16.
Definition SF_ALT : Z := 64.

(* A call of a screen function on vte->con (throughout tsm-vte.c). *)
Definition scr (v : vte) (o : op) : res vte := do c <- step (v_con v) o; Ok (w_con v c).
(* A call of a client callback (e.g. tsm-vte.c:707-708). *)
Definition emit (v : vte) (e : event) : vte := w_out v (v_out v ++ [e]).

(* tsm-vte.c:377-402 get_palette. *)
Definition get_palette (n : palname) (custom : option palette) : palette :=
  match n with
  | PnNull => color_palette_legacy
  | PnCustom => match custom with Some p => p | None => color_palette_legacy end
  | PnSolarized => color_palette_solarized
  | PnSolarizedBlack => color_palette_solarized_black
  | PnSolarizedWhite => color_palette_solarized_white
  | PnSoftBlack => color_palette_soft_black
  | PnBase16Dark => color_palette_base16_dark
  | PnBase16Light => color_palette_base16_light
  | PnVga => color_palette_vga
  | PnLegacy => color_palette_legacy
  | PnOther => color_palette_legacy
  end.

(* libtsm.h:158-173, assignments to members of an attribute. *)
Definition set_fcolor (a : attr) (c r g b : Z) : attr :=
  mkA c (a_bc a) r g b (a_br a) (a_bg a) (a_bb a) (a_bold a) (a_italic a) (a_underline a) (a_inverse a) (a_protect a) (a_blink a).
Definition set_bcolor (a : attr) (c r g b : Z) : attr :=
  mkA (a_fc a) c (a_fr a) (a_fg a) (a_fb a) r g b (a_bold a) (a_italic a) (a_underline a) (a_inverse a) (a_protect a) (a_blink a).
Definition set_fc (a : attr) (c : Z) : attr := set_fcolor a c (a_fr a) (a_fg a) (a_fb a).
Definition set_bc (a : attr) (c : Z) : attr := set_bcolor a c (a_br a) (a_bg a) (a_bb a).
Definition set_style (a : attr) (bold italic underline inverse protect blink : bool) : attr :=
  mkA (a_fc a) (a_bc a) (a_fr a) (a_fg a) (a_fb a) (a_br a) (a_bg a) (a_bb a) bold italic underline inverse protect blink.
Definition set_bold (a : attr) (x : bool) : attr :=
  set_style a x (a_italic a) (a_underline a) (a_inverse a) (a_protect a) (a_blink a).
Definition set_italic (a : attr) (x : bool) : attr :=
  set_style a (a_bold a) x (a_underline a) (a_inverse a) (a_protect a) (a_blink a).
Definition set_underline (a : attr) (x : bool) : attr :=
  set_style a (a_bold a) (a_italic a) x (a_inverse a) (a_protect a) (a_blink a).
Definition set_inverse (a : attr) (x : bool) : attr :=
  set_style a (a_bold a) (a_italic a) (a_underline a) x (a_protect a) (a_blink a).
Definition set_blink (a : attr) (x : bool) : attr :=
  set_style a (a_bold a) (a_italic a) (a_underline a) (a_inverse a) (a_protect a) x.

(* tsm-vte.c:412-438 to_rgb, foreground and background part. *)
Definition to_rgb_f (p : palette) (a : attr) : res attr :=
  let code := a_fc a in
  if 0 <=? code then
    let code1 := if a_bold a && (code <? 8) then i8 (code + 8) else code in
    let code2 := if COLOR_NUM <=? code1 then COLOR_FOREGROUND else code1 in
    do c <- zget p code2;
    let '(r, g, b) := c in Ok (set_fcolor a (a_fc a) r g b)
  else Ok a.
Definition to_rgb_b (p : palette) (a : attr) : res attr :=
  let code := a_bc a in
  if 0 <=? code then
    let code2 := if COLOR_NUM <=? code then COLOR_BACKGROUND else code in
    do c <- zget p code2;
    let '(r, g, b) := c in Ok (set_bcolor a (a_bc a) r g b)
  else Ok a.
Definition to_rgb (p : palette) (a : attr) : res attr := do a1 <- to_rgb_f p a; to_rgb_b p a1.

(* tsm-vte.c:440-456 copy_fcolor, copy_bcolor. *)
Definition copy_fcolor (dest src : attr) : attr := set_fcolor dest (a_fc src) (a_fr src) (a_fg src) (a_fb src).
Definition copy_bcolor (dest src : attr) : attr := set_bcolor dest (a_bc src) (a_br src) (a_bg src) (a_bb src).

(* tsm-vte.c:706-710, the part of vte_write that is executed with local echo off
   or from within tsm_vte_input. *)
Definition vte_send (v : vte) (bs : list Z) : vte :=
  let v1 := if vfl v VF_PREPEND then emit v (EWrite [27]) else v in
  set_reset (emit v1 (EWrite bs)) false VF_PREPEND.

(* tsm-vte.c:719-723 write_console. *)
Definition write_console (v : vte) (sym : Z) : res vte :=
  do a <- to_rgb (v_pal v) (v_cattr v);
  scr (w_cattr v a) (OWrite sym a).

(* tsm-vte.c:725-742 reset_state. *)
Definition reset_state (v : vte) : vte :=
  let a := copy_bcolor (copy_fcolor (sv_attr (v_saved v)) (v_def v)) (v_def v) in
  w_saved v (mkSv 0 0 (set_style a false false false false false false) G0 G1 true false).

(* tsm-vte.c:744-753 save_state. *)
Definition save_state (v : vte) : vte :=
  w_saved v (mkSv (s_cx (v_con v)) (s_cy (v_con v)) (v_cattr v) (v_gl v) (v_gr v) (vfl v VF_WRAP) (vfl v VF_ORIGIN)).

(* tsm-vte.c:755-781 restore_state. *)
Definition restore_state (v0 : vte) : res vte :=
  let sv := v_saved v0 in
  do v1 <- scr v0 (OMoveTo (sv_x sv) (sv_y sv));
  do a <- to_rgb (v_pal v1) (sv_attr sv);
  let v2 := w_cattr v1 a in
  do v3 <- (if vfl v2 VF_BCE then scr v2 (OSetDefAttr a) else Ok v2);
  let v4 := w_gr (w_gl v3 (sv_gl sv)) (sv_gr sv) in
  do v5 <- scr (set_reset v4 (sv_wrap sv) VF_WRAP)
               (if sv_wrap sv then OSetFlags SF_WRAP else OResetFlags SF_WRAP);
  scr (set_reset v5 (sv_origin sv) VF_ORIGIN)
      (if sv_origin sv then OSetFlags SF_ORIGIN else OResetFlags SF_ORIGIN).

(* tsm-vte.c:795-800: the flags after a reset. *)
Definition RESET_FLAGS : Z :=
  Z.lor (Z.shiftl 1 VF_TEXT_CURSOR) (Z.lor (Z.shiftl 1 VF_REPEAT) (Z.lor (Z.shiftl 1 VF_SRM)
    (Z.lor (Z.shiftl 1 VF_WRAP) (Z.shiftl 1 VF_BCE)))).
(* tsm-vte.c:789-825 tsm_vte_reset. *)
Definition vte_reset (v0 : vte) : res vte :=
  let v := w_flags v0 RESET_FLAGS in
  do v1 <- scr v OReset;
  do v2 <- scr v1 (OSetFlags SF_WRAP);
  let v3 := w_state (w_mach v2 (umach_reset (v_mach v2))) SGround in
  let v4 := w_grt (w_glt (w_gr (w_gl v3 G0) G1) None) None in
  let v5 := w_g3 (w_g2 (w_g1 (w_g0 v4 CsLower) CsUpper) CsLower) CsUpper in
  let v6 := w_mrow (w_mcol (w_mev (w_mmode v5 0) 0) 0) 0 in
  do a <- to_rgb (v_pal v6) (v_def v6);
  do v7 <- scr (w_cattr v6 a) (OSetDefAttr (v_def v6));
  Ok (reset_state v7).

(* tsm-vte.c:827-837 tsm_vte_hard_reset. *)
Definition vte_hard_reset (v : vte) : res vte :=
  do v1 <- vte_reset v;
  do v2 <- scr v1 (OEraseScreen false);
  do v3 <- scr v2 OClearSb;
  scr v3 (OMoveTo 0 0).

(* tsm-vte.c:839-843 send_primary_da: ESC [ ? 6 0 ; 1 ; 6 ; 9 ; 1 5 c *)
Definition PRIMARY_DA : list Z := [27; 91; 63; 54; 48; 59; 49; 59; 54; 59; 57; 59; 49; 53; 99].
Definition send_primary_da (v : vte) : vte := vte_send v PRIMARY_DA.

(* tsm-vte.c:845-951 do_execute. *)
Definition do_execute (v : vte) (ctrl : Z) : res vte :=
  if ctrl =? 0x05 then Ok (vte_send v [6])
  else if ctrl =? 0x08 then scr v (OMoveLeft 1)
  else if ctrl =? 0x09 then scr v (OTabRight 1)
  else if (ctrl =? 0x0a) || (ctrl =? 0x0b) || (ctrl =? 0x0c) then
    if vfl v VF_LNM then scr v ONewline else scr v (OMoveDown 1 true)
  else if ctrl =? 0x0d then scr v OLineHome
  else if ctrl =? 0x0e then Ok (w_gl v G1)
  else if ctrl =? 0x0f then Ok (w_gl v G0)
  else if ctrl =? 0x1a then write_console v 0xbf
  else if ctrl =? 0x84 then scr v (OMoveDown 1 true)
  else if ctrl =? 0x85 then scr v ONewline
  else if ctrl =? 0x88 then scr v OSetTabstop
  else if ctrl =? 0x8d then scr v (OMoveUp 1 true)
  else if ctrl =? 0x8e then Ok (w_glt v (Some G2))
  else if ctrl =? 0x8f then Ok (w_glt v (Some G3))
  else if ctrl =? 0x9a then Ok (send_primary_da v)
  else Ok v.

(* tsm-vte.c:953-964 do_clear. *)
Definition do_clear (v : vte) : vte :=
  w_osc (w_osclen (w_cfl (w_argv (w_argc v 0) (repeat (-1) 16)) 0) 0) (repeat 0 128).

(* tsm-vte.c:966-1003 do_collect: the flag of an intermediate character. *)
Definition collect_bit (d : Z) : option Z :=
  if d =? 33 (* ! *) then Some CSI_BANG
  else if d =? 36 (* $ *) then Some CSI_CASH
  else if d =? 63 (* ? *) then Some CSI_WHAT
  else if d =? 62 (* > *) then Some CSI_GT
  else if d =? 32 (* space *) then Some CSI_SPACE
  else if d =? 39 (* ' *) then Some CSI_SQUOTE
  else if d =? 34 (* double quote *) then Some CSI_DQUOTE
  else if d =? 42 (* * *) then Some CSI_MULT
  else if d =? 43 (* + *) then Some CSI_PLUS
  else if d =? 40 (* ( *) then Some CSI_POPEN
  else if d =? 41 (* ) *) then Some CSI_PCLOSE
  else None.
Definition do_collect (v : vte) (d : Z) : vte :=
  match collect_bit d with
  | Some n => w_cfl v (Z.setbit (v_cfl v) n)
  | None => v
  end.

(* tsm-vte.c:1005-1030 do_param; new * 10 + data - '0' is computed in uint32_t. *)
Definition do_param (v : vte) (d : Z) : res vte :=
  if d =? 59 (* ; *) then
    Ok (if v_argc v <? CSI_ARG_MAX then w_argc v (v_argc v + 1) else v)
  else if CSI_ARG_MAX <=? v_argc v then Ok v
  else
    do cur <- zget (v_argv v) (v_argc v);
    if 0xffff <? cur then Ok v
    else if (48 <=? d) && (d <=? 57) then
      let new := if cur <=? 0 then i32 (d - 48) else i32 (u32 (cur * 10 + d - 48)) in
      do l <- zmod (v_argv v) (v_argc v) (fun _ => new);
      Ok (w_argv v l)
    else Ok v.

(* v->csi_flags & CSI_X (e.g. tsm-vte.c:1034). *)
Definition cfl (v : vte) (n : Z) : bool := bit (v_cfl v) n.

(* tsm-vte.c:1032-1046 set_charset; None is the return value false. *)
Definition set_charset (v : vte) (c : charset) : option vte :=
  if cfl v CSI_POPEN then Some (w_g0 v c)
  else if cfl v CSI_PCLOSE then Some (w_g1 v c)
  else if cfl v CSI_MULT then Some (w_g2 v c)
  else if cfl v CSI_PLUS then Some (w_g3 v c)
  else None.

(* tsm-vte.c:1050-1120: the character set designated by a final character. *)
Definition esc_charset (d : Z) : option charset :=
  if d =? 66 (* B *) then Some CsLower
  else if d =? 60 (* < *) then Some CsDecSupp
  else if d =? 48 (* 0 *) then Some CsDecSpec
  else if (d =? 65) (* A *) || (d =? 52) (* 4 *) || (d =? 67) (* C *) || (d =? 53) (* 5 *)
       || (d =? 82) (* R *) || (d =? 81) (* Q *) || (d =? 75) (* K *) || (d =? 89) (* Y *)
       || (d =? 69) (* E *) || (d =? 54) (* 6 *) || (d =? 90) (* Z *) || (d =? 72) (* H *)
       || (d =? 55) (* 7 *) || (d =? 61) (* = *) then Some CsUpper
  else None.

(* tsm-vte.c:1145-1220, the second switch of do_esc. *)
Definition do_esc_plain (v : vte) (d : Z) : res vte :=
  if d =? 68 (* D *) then scr v (OMoveDown 1 true)
  else if d =? 69 (* E *) then scr v ONewline
  else if d =? 72 (* H *) then scr v OSetTabstop
  else if d =? 77 (* M *) then scr v (OMoveUp 1 true)
  else if d =? 78 (* N *) then Ok (w_glt v (Some G2))
  else if d =? 79 (* O *) then Ok (w_glt v (Some G3))
  else if d =? 90 (* Z *) then Ok (send_primary_da v)
  else if d =? 126 (* ~ *) then Ok (w_gr v G1)
  else if d =? 110 (* n *) then Ok (w_gl v G2)
  else if d =? 125 (* } *) then Ok (w_gr v G2)
  else if d =? 111 (* o *) then Ok (w_gl v G3)
  else if d =? 124 (* | *) then Ok (w_gr v G3)
  else if d =? 61 (* = *) then Ok (set_reset v true VF_KEYPAD_APP)
  else if d =? 62 (* > *) then Ok (set_reset v false VF_KEYPAD_APP)
  else if d =? 99 (* c *) then vte_hard_reset v
  else if d =? 55 (* 7 *) then Ok (save_state v)
  else if d =? 56 (* 8 *) then restore_state v
  else Ok v.

(* tsm-vte.c:1048-1221 do_esc. *)
Definition do_esc (v : vte) (d : Z) : res vte :=
  match (match esc_charset d with Some c => set_charset v c | None => None end) with
  | Some v' => Ok v'
  | None =>
    if (d =? 70) (* F *) && cfl v CSI_SPACE then Ok (set_reset v false VF_USE_C1)
    else if (d =? 71) (* G *) && cfl v CSI_SPACE then Ok (set_reset v true VF_USE_C1)
    else if v_cfl v =? 0 then do_esc_plain v d else Ok v
  end.

(* tsm-vte.c:1225 bval. *)
Definition bval : list Z := [0x00; 0x5f; 0x87; 0xaf; 0xd7; 0xff].

(* tsm-vte.c:1383-1425: the extended colour at index i (which holds 38 or 48):
   None when the sequence is invalid, otherwise colour code, components and the
   index of the last parameter used. *)
Definition sgr_ext (argv : list Z) (argc i : Z) : res (option (Z * Z * Z * Z * Z)) :=
  do m <- zget argv (i + 1);
  if m =? 5 then
    if argc <=? i + 2 then Ok None
    else
      do n <- zget argv (i + 2);
      if n <? 0 then Ok None
      else if n <? 16 then Ok (Some (n, 0, 0, 0, i + 2))
      else if n <? 232 then
        let c := n - 16 in
        do cb <- zget bval (c mod 6);
        do cg <- zget bval (c / 6 mod 6);
        do cr <- zget bval (c / 6 / 6 mod 6);
        Ok (Some (-1, cr, cg, cb, i + 2))
      else
        let c := u8 (u32 ((n - 232) * 10 + 8)) in
        Ok (Some (-1, c, c, c, i + 2))
  else if m =? 2 then
    if argc <=? i + 4 then Ok None
    else
      do r <- zget argv (i + 2);
      if r <? 0 then Ok None
      else
        do g <- zget argv (i + 3);
        if g <? 0 then Ok None
        else
          do b <- zget argv (i + 4);
          if b <? 0 then Ok None
          else Ok (Some (-1, u8 r, u8 g, u8 b, i + 4))
  else Ok None.

(* tsm-vte.c:1235-1442: the switch on one parameter: new attributes and the
   index i at the end of the loop body. *)
Definition sgr1 (def : attr) (argv : list Z) (argc : Z) (a : attr) (i : Z) : res (attr * Z) :=
  do p <- zget argv i;
  if p =? 0 then Ok (set_style (copy_bcolor (copy_fcolor a def) def) false false false false (a_protect a) false, i)
  else if p =? 1 then Ok (set_bold a true, i)
  else if p =? 3 then Ok (set_italic a true, i)
  else if p =? 4 then Ok (set_underline a true, i)
  else if p =? 5 then Ok (set_blink a true, i)
  else if p =? 7 then Ok (set_inverse a true, i)
  else if p =? 22 then Ok (set_bold a false, i)
  else if p =? 23 then Ok (set_italic a false, i)
  else if p =? 24 then Ok (set_underline a false, i)
  else if p =? 25 then Ok (set_blink a false, i)
  else if p =? 27 then Ok (set_inverse a false, i)
  else if (30 <=? p) && (p <=? 37) then Ok (set_fc a (p - 30), i)
  else if p =? 39 then Ok (copy_fcolor a def, i)
  else if (40 <=? p) && (p <=? 47) then Ok (set_bc a (p - 40), i)
  else if p =? 49 then Ok (copy_bcolor a def, i)
  else if (90 <=? p) && (p <=? 97) then Ok (set_fc a (p - 90 + 8), i)
  else if (100 <=? p) && (p <=? 107) then Ok (set_bc a (p - 100 + 8), i)
  else if (p =? 38) || (p =? 48) then
    do x <- sgr_ext argv argc i;
    match x with
    | None => Ok (a, i)
    | Some (code, r, g, b, i') =>
      Ok (if p =? 38 then set_fcolor a (i8 code) r g b else set_bcolor a (i8 code) r g b, i')
    end
  else Ok (a, i).

(* tsm-vte.c:1234-1443: the loop over the parameters; the fuel is the number of
   parameters, each iteration increases i. *)
Fixpoint sgr_loop (fuel : nat) (def : attr) (argv : list Z) (argc : Z) (a : attr) (i : Z) : res attr :=
  if i <? argc then
    match fuel with
    | O => Ub
    | S f => do x <- sgr1 def argv argc a i; sgr_loop f def argv argc (fst x) (snd x + 1)
    end
  else Ok a.

(* tsm-vte.c:1223-1448 csi_attribute. *)
Definition csi_attribute (v0 : vte) : res vte :=
  do p0 <- zget (v_argv v0) 0;
  do v <- (if (v_argc v0 <=? 1) && (p0 =? -1) then
             do l <- zmod (v_argv v0) 0 (fun _ => 0); Ok (w_argv (w_argc v0 1) l)
           else Ok v0);
  do a <- sgr_loop (Z.to_nat (v_argc v)) (v_def v) (v_argv v) (v_argc v) (v_cattr v) 0;
  do a1 <- to_rgb (v_pal v) a;
  let v1 := w_cattr v a1 in
  if vfl v1 VF_BCE then scr v1 (OSetDefAttr a1) else Ok v1.

(* tsm-vte.c:1455-1494 csi_compat_mode. *)
Definition csi_compat_mode (v0 : vte) : res vte :=
  do v <- vte_reset v0;
  do p0 <- zget (v_argv v) 0;
  do p1 <- zget (v_argv v) 1;
  Ok (if p0 =? 61 then w_g1 (w_g0 (set_reset v true VF_7BIT) CsLower) CsDecSupp
      else if (p0 =? 62) || (p0 =? 63) || (p0 =? 64) then
        let v1 := if (p1 =? 1) || (p1 =? 2) then set_reset v true VF_USE_C1 else v in
        w_g1 (w_g0 (set_reset v1 true VF_8BIT) CsLower) CsDecSupp
      else v).

(* tsm-vte.c:1589-1593 and alike. *)
Definition scr_flag (v : vte) (set : bool) (f : Z) : res vte :=
  scr v (if set then OSetFlags f else OResetFlags f).

(* tsm-vte.c:1511-1540: one parameter without the private marker. *)
Definition csi_mode_ansi (v : vte) (set : bool) (p : Z) : res vte :=
  if p =? 2 then Ok (set_reset v set VF_KAM)
  else if p =? 4 then scr_flag (set_reset v set VF_IRM) set SF_INSERT
  else if p =? 12 then Ok (set_reset v set VF_SRM)
  else if p =? 20 then Ok (set_reset v set VF_LNM)
  else Ok v.

(* tsm-vte.c:1543-1738: one private parameter. *)
Definition csi_mode_dec (v : vte) (set : bool) (p : Z) : res vte :=
  if p =? 1 then Ok (set_reset v set VF_CURSOR_KEY)
  else if p =? 5 then scr_flag (set_reset v set VF_INVERSE) set SF_INVERSE
  else if p =? 6 then scr_flag (set_reset v set VF_ORIGIN) set SF_ORIGIN
  else if p =? 7 then scr_flag (set_reset v set VF_WRAP) set SF_WRAP
  else if p =? 8 then Ok (set_reset v set VF_REPEAT)
  else if p =? MOUSE_X10 then
    let v1 := w_mev (w_mmode v (if set then p else 0)) MOUSE_BTN in
    Ok (if v_mcb v1 then emit v1 (EMouse (v_mev v1) false) else v1)
  else if p =? 25 then scr_flag (set_reset v set VF_TEXT_CURSOR) (negb set) SF_HIDE
  else if p =? 42 then Ok (set_reset v set VF_NRC)
  else if p =? 47 then
    if vfl v VF_TITE then Ok v else scr_flag v set SF_ALT
  else if p =? 1047 then
    if vfl v VF_TITE then Ok v
    else if set then scr_flag v true SF_ALT
    else do v1 <- scr v (OEraseScreen false); scr_flag v1 false SF_ALT
  else if p =? 1048 then
    if vfl v VF_TITE then Ok v
    else if set then Ok (w_alty (w_altx v (s_cx (v_con v))) (s_cy (v_con v)))
    else scr v (OMoveTo (v_altx v) (v_alty v))
  else if p =? 1049 then
    if vfl v VF_TITE then Ok v
    else if set then
      do v1 <- scr_flag (w_alty (w_altx v (s_cx (v_con v))) (s_cy (v_con v))) true SF_ALT;
      scr v1 (OEraseScreen false)
    else do v1 <- scr_flag v false SF_ALT; scr v1 (OMoveTo (v_altx v) (v_alty v))
  else if (p =? MOUSE_BTN) || (p =? MOUSE_ANY) then
    let v1 := w_mev v (if v_mmode v =? MOUSE_X10 then MOUSE_BTN else if set then p else 0) in
    Ok (if v_mcb v1 && negb (v_mmode v1 =? 0)
        then emit v1 (EMouse (v_mev v1) (v_mmode v1 =? MOUSE_PIXEL)) else v1)
  else if p =? MOUSE_SGR then
    let v1 := w_mmode v (if set then p else 0) in
    Ok (if v_mcb v1 && (negb set || negb (v_mev v1 =? 0)) then emit v1 (EMouse (v_mev v1) false) else v1)
  else if p =? MOUSE_PIXEL then
    let v1 := w_mmode v (if set then p else 0) in
    Ok (if v_mcb v1 && (negb set || negb (v_mev v1 =? 0)) then emit v1 (EMouse (v_mev v1) set) else v1)
  else Ok v.

(* tsm-vte.c:1505-1740 csi_mode; modes 2, 3, 4, 12, 18, 19 and unknown ones have
   no effect. *)
Definition csi_mode (v : vte) (set : bool) : res vte :=
  forz 0 (v_argc v) (fun i v' =>
    do p <- zget (v_argv v') i;
    if cfl v' CSI_WHAT then csi_mode_dec v' set p else csi_mode_ansi v' set p) v.

(* tsm-vte.c:1742-1756 csi_dev_attr; ESC [ > 1 ; 1 ; 0 c *)
Definition csi_dev_attr (v : vte) : res vte :=
  do p0 <- zget (v_argv v) 0;
  Ok (if (v_argc v <=? 1) && (p0 <=? 0) then
        if v_cfl v =? 0 then send_primary_da v
        else if cfl v CSI_GT then vte_send v [27; 91; 62; 49; 59; 49; 59; 48; 99]
        else v
      else v).

(* The conversion of an unsigned number to decimal by printf("%u"), used at
   tsm-vte.c:1768 and 3188-3198: least significant digit last; at most 10 digits
   for 32 bits. *)
Fixpoint dec_digits (fuel : nat) (n : Z) (acc : list Z) : list Z :=
  match fuel with
  | O => acc
  | S f => let acc' := (48 + n mod 10) :: acc in
           if n / 10 =? 0 then acc' else dec_digits f (n / 10) acc'
  end.
Definition dec (n : Z) : list Z := dec_digits 10 n [].

(* tsm-vte.c:1758-1774 csi_dsr; the buffer of 64 bytes holds any report. *)
Definition csi_dsr (v : vte) : res vte :=
  do p0 <- zget (v_argv v) 0;
  Ok (if p0 =? 5 then vte_send v [27; 91; 48; 110]
      else if p0 =? 6 then
        let r := [27; 91] ++ dec (u32 (s_cy (v_con v) + 1)) ++ [59] ++ dec (u32 (s_cx (v_con v) + 1)) ++ [82] in
        if 64 <=? zlen r then vte_send v [27; 91; 48; 59; 48; 82] else vte_send v r
      else v).

(* tsm-vte.c:1787-1789: the first parameter with default 1. *)
Definition csi_num (v : vte) : res Z := do n <- zget (v_argv v) 0; Ok (if n <=? 0 then 1 else n).

(* tsm-vte.c:1776-2023 do_csi. *)
Definition do_csi (v0 : vte) (d : Z) : res vte :=
  let v := if v_argc v0 <? CSI_ARG_MAX then w_argc v0 (v_argc v0 + 1) else v0 in
  let protect := cfl v CSI_WHAT in
  do p0 <- zget (v_argv v) 0;
  do p1 <- zget (v_argv v) 1;
  let num := if p0 <=? 0 then 1 else p0 in
  if d =? 65 (* A *) then scr v (OMoveUp num false)
  else if d =? 66 (* B *) then scr v (OMoveDown num false)
  else if d =? 67 (* C *) then scr v (OMoveRight num)
  else if d =? 68 (* D *) then scr v (OMoveLeft num)
  else if d =? 100 (* d *) then scr v (OMoveTo (s_cx (v_con v)) (num - 1))
  else if d =? 69 (* E *) then do v1 <- scr v (OMoveDown num false); scr v1 OLineHome
  else if d =? 101 (* e *) then scr v (OMoveTo (s_cx (v_con v)) (u32 (s_cy (v_con v) + num)))
  else if d =? 70 (* F *) then do v1 <- scr v (OMoveUp num false); scr v1 OLineHome
  else if (d =? 72) (* H *) || (d =? 102) (* f *) then
    scr v (OMoveTo ((if p1 <=? 0 then 1 else p1) - 1) (num - 1))
  else if d =? 71 (* G *) then scr v (OMoveTo (num - 1) (s_cy (v_con v)))
  else if d =? 74 (* J *) then
    if p0 <=? 0 then scr v (OEraseCursorToScreen protect)
    else if p0 =? 1 then scr v (OEraseScreenToCursor protect)
    else if p0 =? 2 then scr v (OEraseScreen protect)
    else Ok v
  else if d =? 75 (* K *) then
    if p0 <=? 0 then scr v (OEraseToEnd protect)
    else if p0 =? 1 then scr v (OEraseHome protect)
    else if p0 =? 2 then scr v (OEraseLine protect)
    else Ok v
  else if d =? 88 (* X *) then scr v (OEraseChars num)
  else if d =? 109 (* m *) then csi_attribute v
  else if d =? 112 (* p *) then
    if cfl v CSI_GT then vte_reset v
    else if cfl v CSI_BANG then vte_reset v
    else if cfl v CSI_CASH then Ok v
    else csi_compat_mode v
  else if d =? 104 (* h *) then csi_mode v true
  else if d =? 108 (* l *) then csi_mode v false
  else if d =? 114 (* r *) then
    scr v (OSetMargins (if p0 <? 0 then 0 else p0) (if p1 <? 0 then 0 else p1))
  else if d =? 99 (* c *) then csi_dev_attr v
  else if d =? 76 (* L *) then scr v (OInsLines num)
  else if d =? 77 (* M *) then scr v (ODelLines num)
  else if d =? 103 (* g *) then
    if p0 <=? 0 then scr v OResetTabstop
    else if p0 =? 3 then scr v OResetAllTabstops
    else Ok v
  else if d =? 64 (* @ *) then scr v (OInsChars num)
  else if d =? 80 (* P *) then scr v (ODelChars num)
  else if d =? 90 (* Z *) then scr v (OTabLeft num)
  else if d =? 73 (* I *) then scr v (OTabRight num)
  else if d =? 110 (* n *) then csi_dsr v
  else if d =? 83 (* S *) then scr v (OScrollUp num)
  else if d =? 84 (* T *) then scr v (OScrollDown num)
  else Ok v.

(* tsm-vte.c:186-193: the character set a pointer gl, gr, ... denotes. *)
Definition gset (v : vte) (g : gsel) : charset :=
  match g with G0 => v_g0 v | G1 => v_g1 v | G2 => v_g2 v | G3 => v_g3 v end.

(* tsm-vte.c:2025-2049 vte_map: the new state and the mapped value. *)
Definition vte_map (v : vte) (val : Z) : res (vte * Z) :=
  if (33 <=? val) && (val <=? 126) then
    match v_glt v with
    | Some g => do c <- zget (cs_table (gset v g)) (val - 32); Ok (w_glt v None, c)
    | None => do c <- zget (cs_table (gset v (v_gl v))) (val - 32); Ok (v, c)
    end
  else if (161 <=? val) && (val <=? 254) then
    match v_grt v with
    | Some g => do c <- zget (cs_table (gset v g)) (val - 160); Ok (w_grt v None, c)
    | None => do c <- zget (cs_table (gset v (v_gr v))) (val - 160); Ok (v, c)
    end
  else Ok (v, val).

(* tsm-vte.c:2051-2060 do_osc_collect. *)
Definition do_osc_collect (v : vte) (val : Z) : res vte :=
  let b := ucs4_to_utf8 val in
  if OSC_MAX_LEN - 1 <? v_osclen v + zlen b then Ok v
  else
    do l <- zcopy (v_osc v) (v_osclen v) b;
    Ok (w_osclen (w_osc v l) (v_osclen v + zlen b)).

(* tsm-vte.c:2062-2069 do_osc_end. *)
Definition do_osc_end (v : vte) : res vte :=
  if v_oscb v then
    do l <- zmod (v_osc v) (v_osclen v) (fun _ => 0);
    Ok (emit (w_osc v l) (EOsc (zslice l 0 (v_osclen v))))
  else Ok v.

(* tsm-vte.c:2071-2123 do_action. *)
Definition do_action (v : vte) (data : Z) (act : action) : res vte :=
  match act with
  | APrint => do x <- vte_map v data; write_console (fst x) (symbol_make (snd x))
  | AExecute => do_execute v data
  | AClear => Ok (do_clear v)
  | ACollect => Ok (do_collect v data)
  | AParam => do_param v data
  | AEsc => do_esc v data
  | ACsi => do_csi v data
  | AOscStart => Ok (do_clear v)
  | AOscCollect => do_osc_collect v data
  | AOscEnd => do_osc_end v
  | ANone | AIgnore | ADcsStart | ADcsCollect | ADcsEnd => Ok v
  end.

(* tsm-vte.c:2125-2133 entry_action. *)
Definition entry_action (s : pstate) : action :=
  match s with
  | SCsiEntry => AClear
  | SDcsEntry => AClear
  | SDcsPass => ADcsStart
  | SEsc => AClear
  | SOsc => AOscStart
  | _ => ANone
  end.
(* tsm-vte.c:2135-2140 exit_action. *)
Definition exit_action (s : pstate) : action :=
  match s with
  | SDcsPass => ADcsEnd
  | SOsc => AOscEnd
  | _ => ANone
  end.

(* tsm-vte.c:2142-2158 do_trans; None is STATE_NONE. *)
Definition do_trans (v : vte) (data : Z) (target : option pstate) (act : action) : res vte :=
  match target with
  | Some st =>
    do v1 <- do_action v data (exit_action (v_state v));
    do v2 <- do_action v1 data act;
    do v3 <- do_action v2 data (entry_action st);
    Ok (w_state v3 st)
  | None => do_action v data act
  end.

(* case a ... b of a switch (GCC ranges, tsm-vte.c:2171 and following). *)
Definition rng (a b x : Z) : bool := (a <=? x) && (x <=? b).
(* The C0 range 0x00 ... 0x17, 0x19, 0x1c ... 0x1f (e.g. tsm-vte.c:2217-2219). *)
Definition c0 (x : Z) : bool := rng 0 0x17 x || (x =? 0x19) || rng 0x1c 0x1f x.

(* tsm-vte.c:2165-2195: events that may occur in any state. *)
Definition trans_any (raw : Z) : option (option pstate * action) :=
  if (raw =? 0x18) || (raw =? 0x1a) || rng 0x80 0x8f raw || rng 0x91 0x97 raw
     || (raw =? 0x99) || (raw =? 0x9a) || (raw =? 0x9c) then Some (Some SGround, AExecute)
  else if raw =? 0x1b then Some (Some SEsc, ANone)
  else if (raw =? 0x98) || (raw =? 0x9e) || (raw =? 0x9f) then Some (Some SStIgnore, ANone)
  else if raw =? 0x90 then Some (Some SDcsEntry, ANone)
  else if raw =? 0x9d then Some (Some SOsc, ANone)
  else if raw =? 0x9b then Some (Some SCsiEntry, ANone)
  else None.

(* tsm-vte.c:2197-2502: events that depend on the current state. *)
Definition trans_state (st : pstate) (raw : Z) : option pstate * action :=
  match st with
  | SGround => (* 2199-2214 *)
    if c0 raw || rng 0x80 0x8f raw || rng 0x91 0x9a raw || (raw =? 0x9c) then (None, AExecute)
    else (None, APrint)
  | SEsc => (* 2215-2252 *)
    if c0 raw then (None, AExecute)
    else if raw =? 0x7f then (None, AIgnore)
    else if rng 0x20 0x2f raw then (Some SEscInt, ACollect)
    else if rng 0x30 0x4f raw || rng 0x51 0x57 raw || (raw =? 0x59) || (raw =? 0x5a)
            || (raw =? 0x5c) || rng 0x60 0x7e raw then (Some SGround, AEsc)
    else if raw =? 0x5b then (Some SCsiEntry, ANone)
    else if raw =? 0x5d then (Some SOsc, ANone)
    else if raw =? 0x50 then (Some SDcsEntry, ANone)
    else if (raw =? 0x58) || (raw =? 0x5e) || (raw =? 0x5f) then (Some SStIgnore, ANone)
    else (Some SEscInt, ACollect)
  | SEscInt => (* 2253-2271 *)
    if c0 raw then (None, AExecute)
    else if rng 0x20 0x2f raw then (None, ACollect)
    else if raw =? 0x7f then (None, AIgnore)
    else if rng 0x30 0x7e raw then (Some SGround, AEsc)
    else (None, ACollect)
  | SCsiEntry => (* 2272-2300 *)
    if c0 raw then (None, AExecute)
    else if raw =? 0x7f then (None, AIgnore)
    else if rng 0x20 0x2f raw then (Some SCsiInt, ACollect)
    else if raw =? 0x3a then (Some SCsiIgnore, ANone)
    else if rng 0x30 0x39 raw || (raw =? 0x3b) then (Some SCsiParam, AParam)
    else if rng 0x3c 0x3f raw then (Some SCsiParam, ACollect)
    else if rng 0x40 0x7e raw then (Some SGround, ACsi)
    else (Some SCsiIgnore, ANone)
  | SCsiParam => (* 2301-2327 *)
    if c0 raw then (None, AExecute)
    else if rng 0x30 0x39 raw || (raw =? 0x3b) then (None, AParam)
    else if raw =? 0x7f then (None, AIgnore)
    else if (raw =? 0x3a) || rng 0x3c 0x3f raw then (Some SCsiIgnore, ANone)
    else if rng 0x20 0x2f raw then (Some SCsiInt, ACollect)
    else if rng 0x40 0x7e raw then (Some SGround, ACsi)
    else (Some SCsiIgnore, ANone)
  | SCsiInt => (* 2328-2349 *)
    if c0 raw then (None, AExecute)
    else if rng 0x20 0x2f raw then (None, ACollect)
    else if raw =? 0x7f then (None, AIgnore)
    else if rng 0x30 0x3f raw then (Some SCsiIgnore, ANone)
    else if rng 0x40 0x7e raw then (Some SGround, ACsi)
    else (Some SCsiIgnore, ANone)
  | SCsiIgnore => (* 2350-2366 *)
    if c0 raw then (None, AExecute)
    else if rng 0x20 0x3f raw || (raw =? 0x7f) then (None, AIgnore)
    else if rng 0x40 0x7e raw then (Some SGround, ANone)
    else (None, AIgnore)
  | SDcsEntry => (* 2367-2393 *)
    if c0 raw || (raw =? 0x7f) then (None, AIgnore)
    else if raw =? 0x3a then (Some SDcsIgnore, ANone)
    else if rng 0x20 0x2f raw then (Some SDcsInt, ACollect)
    else if rng 0x30 0x39 raw || (raw =? 0x3b) then (Some SDcsParam, AParam)
    else if rng 0x3c 0x3f raw then (Some SDcsParam, ACollect)
    else (Some SDcsPass, ANone)
  | SDcsParam => (* 2394-2418 *)
    if c0 raw || (raw =? 0x7f) then (None, AIgnore)
    else if rng 0x30 0x39 raw || (raw =? 0x3b) then (None, AParam)
    else if (raw =? 0x3a) || rng 0x3c 0x3f raw then (Some SDcsIgnore, ANone)
    else if rng 0x20 0x2f raw then (Some SDcsInt, ACollect)
    else (Some SDcsPass, ANone)
  | SDcsInt => (* 2419-2438 *)
    if c0 raw || (raw =? 0x7f) then (None, AIgnore)
    else if rng 0x20 0x2f raw then (None, ACollect)
    else if rng 0x30 0x3f raw then (Some SDcsIgnore, ANone)
    else (Some SDcsPass, ANone)
  | SDcsPass => (* 2439-2455 *)
    if c0 raw || rng 0x20 0x7e raw then (None, ADcsCollect)
    else if raw =? 0x7f then (None, AIgnore)
    else if raw =? 0x9c then (Some SGround, ANone)
    else (None, ADcsCollect)
  | SDcsIgnore => (* 2456-2469 *)
    if c0 raw || rng 0x20 0x7f raw then (None, AIgnore)
    else if raw =? 0x9c then (Some SGround, ANone)
    else (None, AIgnore)
  | SOsc => (* 2470-2487 *)
    if rng 0 0x06 raw || rng 0x08 0x17 raw || (raw =? 0x19) || rng 0x1c 0x1f raw then (None, AIgnore)
    else if rng 0x20 0x7f raw then (None, AOscCollect)
    else if (raw =? 0x07) || (raw =? 0x9c) then (Some SGround, ANone)
    else (None, AOscCollect)
  | SStIgnore => (* 2488-2501 *)
    if c0 raw || rng 0x20 0x7f raw then (None, AIgnore)
    else if raw =? 0x9c then (Some SGround, ANone)
    else (None, AIgnore)
  end.

(* tsm-vte.c:2160-2505 parse_data. *)
Definition trans (st : pstate) (raw : Z) : option pstate * action :=
  match trans_any raw with Some t => t | None => trans_state st raw end.
Definition parse_data (v : vte) (raw : Z) : res vte :=
  let t := trans (v_state v) raw in do_trans v raw (fst t) (snd t).

(* tsm-vte.c:2519-2533: one byte of tsm_vte_input. sg = char is signed: in 8-bit
   mode the char is converted to uint32_t with sign extension. *)
Definition input_byte (sg : bool) (v : vte) (b : Z) : res vte :=
  if vfl v VF_7BIT then parse_data v (Z.land b 0x7f)
  else if vfl v VF_8BIT then parse_data v (char_to_u32 sg b)
  else
    let m := umach_feed sg (v_mach v) b in
    let v1 := w_mach v m in
    match umach_out m with
    | Some cp => parse_data v1 cp
    | None => Ok v1
    end.

(* tsm-vte.c:2507-2536 tsm_vte_input. *)
Fixpoint vte_input (sg : bool) (v : vte) (bs : list Z) : res vte :=
  match bs with
  | [] => Ok v
  | b :: r => do v1 <- input_byte sg v b; vte_input sg v1 r
  end.

(* tsm-vte.c:473-489: the zeroed structure with the default attributes; the
   palette is the legacy one, whose last two entries are given here. *)
Definition vte0 (con : screen) : vte :=
  mkV con false umach_new SGround 0 (repeat 0 16) 0 false 0 (repeat 0 128) false 0 0 0 0
    PnNull None color_palette_legacy attr0 attr0 0 G0 G0 None None CsLower CsLower CsLower CsLower
    (mkSv 0 0 attr0 G0 G0 false false) 0 0 [].
Definition DEF_CODES : attr :=
  set_bc (set_fc attr0 COLOR_FOREGROUND) COLOR_BACKGROUND.
(* tsm-vte.c:458-506 tsm_vte_new on the screen con. *)
Definition vte_new (con : screen) : res vte :=
  let v := vte0 con in
  do a <- to_rgb (v_pal v) DEF_CODES;
  do v1 <- vte_reset (w_def v a);
  scr v1 (OEraseScreen false).

(* tsm-vte.c:554-567 vte_update_palette; the style bits of def_attr stay. *)
Definition vte_update_palette (v : vte) : res vte :=
  let v1 := w_pal v (get_palette (v_pname v) (v_custom v)) in
  do a <- to_rgb (v_pal v1) (set_bc (set_fc (v_def v1) COLOR_FOREGROUND) COLOR_BACKGROUND);
  do v2 <- scr (w_cattr (w_def v1 a) a) (OSetDefAttr a);
  scr v2 (OEraseScreen false).

(* tsm-vte.c:569-587 tsm_vte_set_palette. *)
Definition vte_set_palette (v : vte) (n : palname) : res vte := vte_update_palette (w_pname v n).
(* tsm-vte.c:589-609 tsm_vte_set_custom_palette. *)
Definition vte_set_custom (v : vte) (p : option palette) : res vte := vte_update_palette (w_custom v p).
