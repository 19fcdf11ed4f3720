(** * Property C171: the widgets of gui_template.py.
    [freq_pos f]: f is 0.1 + k for some k <= 29, or 30. *)
From Coq Require Import List String Reals Lra.
From Verif Require Import GuiTemplate GuiTemplateProofs.
Import ListNotations.
Local Open Scope R_scope.

(** The sliders stay in their ranges; the frequency moves in steps of one from 0.1 and so is never the initial 3. *)
Theorem C171_ranges : forall es, freq_pos (sl_val (t_freq (run es))) /\ 0.1 <= sl_val (t_amp (run es)) <= 10.
Proof. exact template_ranges. Qed.
Print Assumptions C171_ranges.

(** A drag moves the frequency to the nearest of these values, ties to the even step, and the amplitude to the place itself, clipped. *)
Theorem C171_drag : forall es x,
  (0.1 <= x <= 30 -> Rabs (sl_val (t_freq (run (es ++ [DragFreq x]))) - x) <= 0.5) /\
  sl_val (t_amp (run (es ++ [DragAmp x]))) = Rmax 0.1 (Rmin 10 x).
Proof. exact template_drag. Qed.
Print Assumptions C171_drag.
Theorem C171_tie : forall es k, (k <= 14)%nat -> sl_val (t_freq (run (es ++ [DragFreq (0.6 + INR (2 * k))]))) = 0.1 + INR (2 * k).
Proof. exact template_tie. Qed.
Print Assumptions C171_tie.

(** Once a slider has moved the line is the curve of the slider values, and never again the line drawn at the start. *)
Theorem C171_line_follows : forall es e es',
  sl_val (t_freq (run (es ++ [e]))) <> sl_val (t_freq (run es)) \/ sl_val (t_amp (run (es ++ [e]))) <> sl_val (t_amp (run es)) ->
  let s := run (es ++ e :: es') in t_line s = curve (sl_val (t_amp s)) (sl_val (t_freq s)) /\ t_line s <> t_line start.
Proof. exact template_moved. Qed.
Print Assumptions C171_line_follows.

(** Until then the sliders show 3.1 and 5 and the line is the curve of 3 and 5. *)
Theorem C171_before_moving : forall es,
  (forall es1 es2, es = es1 ++ es2 -> sl_val (t_freq (run es1)) = 3.1 /\ sl_val (t_amp (run es1)) = 5) -> t_line (run es) = curve 5 3.
Proof. exact template_unmoved. Qed.
Print Assumptions C171_before_moving.

(** Reset shows 3.1 and 5 again and keeps the colour; the line becomes the curve of 3.1 if it was ever redrawn. *)
Theorem C171_reset : forall es, let s := run (es ++ [Reset]) in
  sl_val (t_freq s) = 3.1 /\ sl_val (t_amp s) = 5 /\ t_color s = t_color (run es) /\ t_radio s = t_radio (run es) /\
  (t_line (run es) <> t_line start -> t_line s = curve 5 3.1).
Proof. exact template_reset. Qed.
Print Assumptions C171_reset.

(** The colour is that of the active button, except before the first click, when "red" is active and the line has matplotlib's first colour. *)
Theorem C171_color : forall es, let s := run es in
  (t_color s = "C0"%string /\ t_radio s = 0%nat /\ forall i, In (Radio i) es -> (3 <= i)%nat) \/ nth_error labels (t_radio s) = Some (t_color s).
Proof. exact template_color. Qed.
Print Assumptions C171_color.

Example C171_example : let s := run [DragAmp 7; Radio 1; Reset] in
  sl_val (t_amp (run ([] ++ [DragAmp 7]))) <> sl_val (t_amp (run [])) /\ t_line s <> t_line start /\ t_line s = curve 5 3.1 /\ t_color s = "blue"%string.
Proof. exact template_case. Qed.
