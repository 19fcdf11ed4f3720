(** * gui/gui_template.py (TaskEditor of that file)

    A figure with one line, two sliders, a reset button and radio buttons.  The
    state has the values the code reads and the line it draws; one step per
    callback.  Reals are exact.  matplotlib's Slider and RadioButtons are
    modelled as far as the callbacks see them: a slider rounds to valstep
    counted from valmin and then clips, calls its observers only when its value
    changes, and reset goes back to the rounded initial value.  Left out: axes,
    layout, drawing. *)
From Coq Require Import List String Reals.
From Flocq Require Import Core.Generic_fmt.
Import ListNotations.
Local Open Scope R_scope.

(** matplotlib.widgets.Slider *)
Record slider : Type := Sl { sl_min : R; sl_max : R; sl_step : option R; sl_init : R; sl_val : R }.
(** Slider._value_in_bounds: round to the step, then clip (np.round is half to even) *)
Definition in_bounds (lo hi : R) (step : option R) (x : R) : R :=
  let v := match step with Some d => lo + IZR (Znearest (fun z => negb (Z.even z)) ((x - lo) / d)) * d | None => x end in
  if Rle_dec v lo then lo else if Rle_dec hi v then hi else v.
(** Slider.__init__: valinit is rounded and clipped first *)
Definition new_slider (lo hi : R) (init : R) (step : option R) : slider :=
  let v := in_bounds lo hi step init in Sl lo hi step v v.
(** Slider.set_val; the observers are called by the caller of this function *)
Definition set_val (s : slider) (v : R) : slider := Sl (sl_min s) (sl_max s) (sl_step s) (sl_init s) v.

(** gui_template.py:34 np.arange(0.0, 1.0, 0.001) *)
Definition times : list R := map (fun i => INR i * 0.001) (seq 0 1000).
(** gui_template.py:35, 42 *)
Definition curve (amp freq : R) : list R := map (fun t => amp * sin (2 * PI * freq * t)) times.

(** gui_template.py:11-24: sfreq, samp, the y data and the colour of the line, the active radio button *)
Record template : Type := Tp { t_freq : slider; t_amp : slider; t_line : list R; t_color : string; t_radio : nat }.
(** gui_template.py:13-15 *)
Definition delta_f : R := 1.
Definition a0 : R := 5.
Definition f0 : R := 3.
(** gui_template.py:73 *)
Definition labels : list string := ["red"; "blue"; "green"]%string.

(** gui_template.py:11-24, 33-36, 56-59, 73: the line is drawn before the sliders
    exist, in matplotlib's first colour; radio button 0 is active *)
Definition start : template :=
  Tp (new_slider 0.1 30 f0 (Some delta_f)) (new_slider 0.1 10 a0 None) (curve a0 f0) "C0"%string 0.

(** gui_template.py:38-43 update_plot_lines *)
Definition update_plot_lines (s : template) : template :=
  Tp (t_freq s) (t_amp s) (curve (sl_val (t_amp s)) (sl_val (t_freq s))) (t_color s) (t_radio s).

(** set_val of one of the sliders, with the observer of lines 61-62 *)
Definition set_freq (v : R) (s : template) : template :=
  update_plot_lines (Tp (set_val (t_freq s) v) (t_amp s) (t_line s) (t_color s) (t_radio s)).
Definition set_amp (v : R) (s : template) : template :=
  update_plot_lines (Tp (t_freq s) (set_val (t_amp s) v) (t_line s) (t_color s) (t_radio s)).

(** Slider._update (the mouse at x) and Slider.reset *)
Definition drag_freq (x : R) (s : template) : template :=
  let l := t_freq s in let v := in_bounds (sl_min l) (sl_max l) (sl_step l) x in
  if Req_EM_T v (sl_val l) then s else set_freq v s.
Definition drag_amp (x : R) (s : template) : template :=
  let l := t_amp s in let v := in_bounds (sl_min l) (sl_max l) (sl_step l) x in
  if Req_EM_T v (sl_val l) then s else set_amp v s.
Definition reset_freq (s : template) : template :=
  if Req_EM_T (sl_val (t_freq s)) (sl_init (t_freq s)) then s else set_freq (sl_init (t_freq s)) s.
Definition reset_amp (s : template) : template :=
  if Req_EM_T (sl_val (t_amp s)) (sl_init (t_amp s)) then s else set_amp (sl_init (t_amp s)) s.

(** gui_template.py:45-47 reset_sliders, 49-51 colorfunc (the label of the clicked button) *)
Definition reset_sliders (s : template) : template := reset_amp (reset_freq s).
Definition colorfunc (label : string) (s : template) : template :=
  Tp (t_freq s) (t_amp s) (t_line s) label (t_radio s).
(** RadioButtons.set_active, then the observer of line 74; there are only three buttons to click *)
Definition click_radio (i : nat) (s : template) : template :=
  match nth_error labels i with
  | Some label => colorfunc label (Tp (t_freq s) (t_amp s) (t_line s) (t_color s) i)
  | None => s
  end.

Inductive event : Type := DragFreq (x : R) | DragAmp (x : R) | Reset | Radio (i : nat).
Definition step (s : template) (e : event) : template :=
  match e with
  | DragFreq x => drag_freq x s
  | DragAmp x => drag_amp x s
  | Reset => reset_sliders s
  | Radio i => click_radio i s
  end.
Definition run (es : list event) : template := fold_left step es start.
