(** * Model of acrobotics/dp.py (dynamic programming shortest path).
    NaN costs are in [Nan] (C169). *)
From Coq Require Import List Arith Lia Bool.
From Verif Require Import PyBase Cost.
Import ListNotations.

Section Dp.
Context {K : CostStruct}.

(** A 2D numpy array: [m_cols] is shape[1] (needed when there are no rows). *)
Record matrix : Type := { m_cols : nat; m_rows : list (list K) }.

(** np.min of a 1D array; ValueError on an empty array.
    The fold keeps the first of equal elements. *)
Definition min_list (l : list K) : res K :=
  match l with
  | [] => Raise ValueError
  | x :: xs => Ok (fold_left (fun m y => if clt y m then y else m) xs x)
  end.

(** np.argmin of a 1D array: index of the first minimal element. *)
Fixpoint argmin_from (best : nat) (m : K) (i : nat) (l : list K) : nat :=
  match l with
  | [] => best
  | y :: ys => if clt y m then argmin_from i y (S i) ys else argmin_from best m (S i) ys
  end.
Definition argmin (l : list K) : res nat :=
  match l with [] => Raise ValueError | x :: xs => Ok (argmin_from 0 x 1 xs) end.

(** numpy broadcasting of [row + v] for 1D arrays. *)
Fixpoint zip_add (a b : list K) : list K :=
  match a, b with x :: a', y :: b' => cadd x y :: zip_add a' b' | _, _ => [] end.
Definition row_add (row v : list K) : res (list K) :=
  if Nat.eqb (length row) (length v) then Ok (zip_add row v)
  else match row, v with
       | _, [y] => Ok (map (fun x => cadd x y) row)
       | [x], _ => Ok (map (fun y => cadd x y) v)
       | _, _ => Raise ValueError
       end.

(** dp.py:4-9 apply_cost_function *)
Fixpoint apply_cost_function {D} (data : list (list D)) (f : list D -> list D -> matrix)
  : list matrix :=
  match data with
  | d1 :: ((d2 :: _) as rest) => f d1 d2 :: apply_cost_function rest f
  | _ => []
  end.

(** dp.py:17 np.zeros(d) *)
Definition zeros (d : nat) : list K := repeat czero d.

(** dp.py:20-23, one turn of the loop: rhs = C + V[i+1]; row minima and
    argmins.  A reduction over an axis of length zero raises ValueError. *)
Definition bellman_step (c : matrix) (v_next : list K) : res (list nat * list K) :=
  rhs <- mapM (fun row => row_add row v_next) (m_rows c) ;;
  (if Nat.eqb (m_cols c) 0 then Raise ValueError else
   v <- mapM min_list rhs ;;
   vi <- mapM argmin rhs ;;
   Ok (vi, v)).

(** dp.py:20-23, the loop from the last stage to the first.  The base case is
    the last entry of V and V_ind, created by np.zeros in lines 17-18 (the
    integer list stands for the float zeros of V_ind[-1], never used as an
    index when data and V have the same length). *)
Fixpoint bellman_loop (tcs : list matrix) (d_last : nat) : res (list (list nat) * list (list K)) :=
  match tcs with
  | [] => Ok ([repeat 0 d_last], [zeros d_last])
  | c :: rest =>
      '(vis, vs) <- bellman_loop rest d_last ;;
      match vs with
      | [] => Raise IndexError
      | v_next :: _ => '(vi, v) <- bellman_step c v_next ;; Ok (vi :: vis, v :: vs)
      end
  end.

(** dp.py:12-25 calculate_value_function *)
Definition calculate_value_function (tcs : list matrix)
  : res (list (list nat) * list (list K)) :=
  last <- py_last tcs ;;                      (* transition_costs[-1] *)
  bellman_loop tcs (m_cols last).

(** dp.py:35-37 loop of extract_shortest_path *)
Fixpoint extract_loop {D} (data : list (list D)) (v_ind : list (list nat)) (i_next : nat)
  : res (list D) :=
  match data with
  | [] => Ok []
  | col :: data' =>
      x <- py_index col i_next ;;
      match v_ind with
      | [] => Raise IndexError
      | vi :: v_ind' =>
          n <- py_index vi i_next ;;
          xs <- extract_loop data' v_ind' n ;;
          Ok (x :: xs)
      end
  end.

(** dp.py:28-39 extract_shortest_path *)
Definition extract_shortest_path {D} (data : list (list D)) (v_ind : list (list nat))
  (v : list (list K)) : res (list D) :=
  v0 <- py_index v 0 ;;
  i_start <- argmin v0 ;;
  extract_loop data v_ind i_start.

Record dp_result (D : Type) := { dp_success : bool; dp_path : list D; dp_length : K }.

(** dp.py:42-48 shortest_path *)
Definition shortest_path {D} (Q : list (list D)) (cost_function : list D -> list D -> matrix)
  : res (dp_result D) :=
  let costs := apply_cost_function Q cost_function in
  '(actions, values) <- calculate_value_function costs ;;
  path <- extract_shortest_path Q actions values ;;
  v0 <- py_index values 0 ;;
  len <- min_list v0 ;;
  Ok {| dp_success := true; dp_path := path; dp_length := len |}.
End Dp.
Arguments matrix : clear implicits.
Arguments dp_result : clear implicits.
