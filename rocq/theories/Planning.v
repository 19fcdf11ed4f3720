(** * Model of acrobotics/planning.py.

    Simplifications: numbers are an abstract type F, [to32] is the rounding of
    astype("float32") (astype("float64") of a float32 value is exact and is
    the identity here).  Poses T, path points P and everything random or
    mutable outside planning.py (random generator, collision objects) are
    abstract; the latter is a state S threaded through sampling and collision
    checking.  Printing, timing values and plotting are dropped.  Not modelled:
    cart_to_joint_tool_first_cc (its first lines always raise: class Link has
    no attribute tf_shape), resample for point types SolutionPoint rejects. *)
From Coq Require Import String List Arith ZArith Lia Bool Reals.
From Verif Require Import PyBase Cost GraphCommon CppGraph.
Import ListNotations.
Local Open Scope nat_scope.

Inductive dtype : Type := F32 | F64.

(** An entry of Q: a numpy array with [nc] columns, or the empty python list. *)
Inductive qent (F : Type) : Type :=
| QArr (t : dtype) (nc : nat) (rows : list (list F))
| QNil.
Arguments QArr {F}. Arguments QNil {F}.

(** The dictionaries returned by get_shortest_path. *)
Inductive gsp (K : CostStruct) (F : Type) : Type :=
| GspFail
| GspOk (path : list (list F)) (len : K).
Arguments GspFail {K F}. Arguments GspOk {K F}.

(** [l[i]] with a python index, negative indices count from the end. *)
Definition py_index_z {A} (l : list A) (i : Z) : res A :=
  if (i <? 0)%Z
  then (if (Z.of_nat (length l) + i <? 0)%Z then Raise IndexError
        else py_index l (Z.to_nat (Z.of_nat (length l) + i)))
  else py_index l (Z.to_nat i).

Section Gsp.
Context {K : CostStruct} {F : Type} (f1 : F) (sq_acc : K -> F -> F -> F -> K)
  (pq : pqueue K F) (to32 : F -> F).

(** planning.py:475-476 astype("float32") *)
Definition astype32 (e : qent F) : res (qent F) :=
  match e with
  | QArr F32 nc rows => Ok (QArr F32 nc rows)
  | QArr F64 nc rows => Ok (QArr F32 nc (map (map to32) rows))
  | QNil => Raise AttributeError
  end.

(** planning.py:458-478 _check_dtype *)
Definition check_dtype (Q : list (qent F)) : res (list (qent F)) :=
  match Q with
  | [] => Raise IndexError
  | QNil :: _ => Raise AttributeError
  | QArr F32 _ _ :: _ => Ok Q
  | QArr F64 _ _ :: _ => mapM astype32 Q
  end.

(** len(c) *)
Definition qlen (e : qent F) : nat := match e with QArr _ _ rows => length rows | QNil => 0 end.

(** planning.py:424-428 the loop over the columns; [None]: early return with
    success False.  The SWIG typemap refuses float64 arrays. *)
Fixpoint add_columns (Q : list (qent F)) (g : cgraph K F) : res (option (cgraph K F)) :=
  match Q with
  | [] => Ok (Some g)
  | c :: Q' =>
      if Nat.eqb (qlen c) 0 then Ok None
      else match c with
           | QArr F32 nc rows =>
               g' <- add_data_column (concat rows) (length rows) nc g ;; add_columns Q' g'
           | _ => Raise TypeError
           end
  end.

(** planning.py:449-453 *)
Definition pick_row (ei : qent F * Z) : res (list F) :=
  match ei with
  | (QArr _ _ rows, i) => py_index_z rows i
  | (QNil, i) => Raise IndexError
  end.

(** planning.py:388-455 get_shortest_path.  An output array that get_path does
    not fill holds arbitrary numbers; using it counts as OutOfBounds. *)
Definition get_shortest_path (Q0 : list (qent F)) (method : string) (ow : option (list F)) : res (gsp K F) :=
  Q <- check_dtype Q0 ;;
  let n_path := length Q in
  let g0 := match ow with Some w => set_weights w cnew | None => cnew end in
  og <- add_columns Q g0 ;;
  match og with
  | None => Ok GspFail
  | Some g =>
      g <- init f1 g ;;
      g <- (if String.eqb method "bfs" then run_bfs sq_acc g
            else if String.eqb method "dijkstra" then run_dijkstra sq_acc pq g
            else Raise NotImplementedError) ;;
      _ <- get_path_nodes (path_found g) (na g) ;;          (* print_path *)
      op <- get_path n_path g ;;
      match op with
      | None => Raise OutOfBounds
      | Some p_i =>
          z <- py_index p_i 0 ;;
          if Z.eqb z (-1) then Ok GspFail
          else path <- mapM pick_row (combine Q p_i) ;; Ok (GspOk path (get_path_cost g))
      end
  end.
End Gsp.

(** ** From the cartesian path to joint solutions *)
Section Cart.
Context {F T P S G : Type} (to32 : F -> F).
Local Notation jv := (list F).
(** robot.ik: [None] is success False, otherwise sol["sol"]. *)
Context (ik : T -> option (list jv)).
(** robot.ik with values for the redundant joints. *)
Context (ik_fix : T -> G -> option (list jv)).
(** robot.is_in_collision *)
Context (coll : jv -> S -> bool * S).
(** tp.get_samples(n, rep="transform"), tp.discretise() *)
Context (samples : P -> nat -> S -> res (list T * S)) (discretise : P -> S -> res (list T * S)).

(** if not robot.is_in_collision(qi, scene): q_sol.append(qi) *)
Fixpoint keep_free (qs : list jv) (st : S) (acc : list jv) : list jv * S :=
  match qs with
  | [] => (acc, st)
  | q :: qs' =>
      let '(c, st') := coll q st in
      keep_free qs' st' (if c then acc else acc ++ [q])
  end.

(** for Ti in samples: sol = robot.ik(Ti); if sol["success"]: ... *)
Fixpoint collect (Ts : list T) (st : S) (acc : list jv) : list jv * S :=
  match Ts with
  | [] => (acc, st)
  | t :: Ts' =>
      match ik t with
      | Some qs => let '(acc', st') := keep_free qs st acc in collect Ts' st' acc'
      | None => collect Ts' st acc
      end
  end.

(** Q.append(np.vstack(q_sol).astype("float32")) or Q.append([]) ; rows of
    different lengths make vstack raise. *)
Definition pack (q_sol : list jv) : res (qent F) :=
  match q_sol with
  | [] => Ok QNil
  | q :: _ =>
      if forallb (fun q' => Nat.eqb (length q') (length q)) q_sol
      then Ok (QArr F32 (length q) (map (map to32) q_sol))
      else Raise ValueError
  end.

(** planning.py:283-313 cart_to_joint_no_redundancy *)
Fixpoint cart_to_joint_no_redundancy (path : list P) (num_samples : nat) (st : S) : res (list (qent F) * S) :=
  match path with
  | [] => Ok ([], st)
  | tp :: path' =>
      '(Ts, st) <- samples tp num_samples st ;;
      let '(q_sol, st) := collect Ts st [] in
      e <- pack q_sol ;;
      '(Q, st) <- cart_to_joint_no_redundancy path' num_samples st ;;
      Ok (e :: Q, st)
  end.

(** planning.py:108-113 the loop over q_fixed for one sample *)
Fixpoint collect_fix (t : T) (qf : list G) (st : S) (acc : list jv) : list jv * S :=
  match qf with
  | [] => (acc, st)
  | g :: qf' =>
      match ik_fix t g with
      | Some qs => let '(acc', st') := keep_free qs st acc in collect_fix t qf' st' acc'
      | None => collect_fix t qf' st acc
      end
  end.
(** planning.py:106-113: q_sol is set to [] for every sample; [None] means the
    variable has never been assigned. *)
Fixpoint simple_samples (Ts : list T) (qf : list G) (st : S) (q_sol : option (list jv)) : option (list jv) * S :=
  match Ts with
  | [] => (q_sol, st)
  | t :: Ts' => let '(acc, st') := collect_fix t qf st [] in simple_samples Ts' qf st' (Some acc)
  end.
(** planning.py:92-118 cart_to_joint_simple; q_sol survives from one point to the next *)
Fixpoint cart_to_joint_simple (path : list P) (qf : list G) (st : S) (q_sol : option (list jv)) : res (list (qent F) * S) :=
  match path with
  | [] => Ok ([], st)
  | tp :: path' =>
      '(Ts, st) <- discretise tp st ;;
      let '(q_sol, st) := simple_samples Ts qf st q_sol in
      match q_sol with
      | None => Raise UnboundLocalError
      | Some l =>
          e <- pack l ;;
          '(Q, st) <- cart_to_joint_simple path' qf st q_sol ;;
          Ok (e :: Q, st)
      end
  end.

(** planning.py:329-345 the while loop of cart_to_joint_incremental *)
Fixpoint inc_loop (fuel : nat) (tp : P) (min_samples max_tries : nat) (st : S) (q_sol : list jv) (cnt : nat)
  : res (list jv * S) :=
  if Nat.ltb cnt max_tries then
    match fuel with
    | O => OutOfFuel
    | Datatypes.S fuel' =>
        '(Ts, st) <- samples tp 1 st ;;
        t <- py_index Ts 0 ;;
        let '(q_sol', st) := match ik t with Some qs => keep_free qs st q_sol | None => (q_sol, st) end in
        let cnt' := cnt + (length q_sol' - length q_sol) in
        if Nat.leb min_samples cnt' then Ok (q_sol', st)
        else inc_loop fuel' tp min_samples max_tries st q_sol' cnt'
    end
  else Ok (q_sol, st).
(** planning.py:316-351 cart_to_joint_incremental *)
Fixpoint cart_to_joint_incremental (fuel : nat) (path : list P) (min_samples max_tries : nat) (st : S)
  : res (list (qent F) * S) :=
  match path with
  | [] => Ok ([], st)
  | tp :: path' =>
      '(q_sol, st) <- inc_loop fuel tp min_samples max_tries st [] 0 ;;
      e <- pack q_sol ;;
      '(Q, st) <- cart_to_joint_incremental fuel path' min_samples max_tries st ;;
      Ok (e :: Q, st)
  end.
End Cart.

(** ** Iterative refinement *)
(** The classes of path.py a point can belong to; none is a subclass of another. *)
Inductive pclass : Type := CFree | CTolPos | CAxis | CTolEuler | CTolOri.

(** The dictionaries returned by cart_to_joint_iterative. *)
Inductive iter_sol (K : CostStruct) (F : Type) : Type :=
| ItFail
| ItOk (path : list (list F)) (len : K) (costs : list K) (paths : list (list (list F))) (ntimes : nat).
Arguments ItFail {K F}. Arguments ItOk {K F}.

Section Iter.
Context {K : CostStruct} {F T P S D : Type} (f1 : F) (sq_acc : K -> F -> F -> F -> K) (pq : pqueue K F) (to32 : F -> F).
Local Notation jv := (list F).
Context (ik : T -> option (list jv)) (coll : jv -> S -> bool * S).
Context (class_of : P -> pclass).
(** tp.get_samples(n, rep="transform", dist=d) *)
Context (samples_near : P -> nat -> D -> S -> res (list T * S)).
(** robot.fk; TolOrientationPt at the pose found by fk; pi / 4 and d / 2 *)
Context (fk : jv -> res T) (tol_ori_at : T -> P) (dist0 : D) (halve : D -> D).

(** planning.py:151-175 class SolutionPoint *)
Record spoint : Type := mkSP { sp_cur : P; sp_class : pclass; sp_best : option jv; sp_dist : D }.

(** planning.py:161-175: isinstance(tp, FreeOrientationPt) is tested first; for
    any other point the undefined name TolPositionPoint is evaluated. *)
Definition solution_point (tp : P) : res spoint :=
  match class_of tp with
  | CFree => Ok (mkSP tp CFree None dist0)
  | _ => Raise NameError
  end.

(** planning.py:177-198 calc_joint_solutions with check_collision=True;
    np.array of no solutions is an array of length 0. *)
Definition calc_joint_solutions (has_scene : bool) (Ts : list T) (st : S) : res (qent F * S) :=
  if has_scene then
    let '(l, st) := collect ik coll Ts st [] in
    match l with
    | [] => Ok (QArr F32 0 [], st)
    | q :: _ =>
        if forallb (fun q' => Nat.eqb (length q') (length q)) l
        then Ok (QArr F32 (length q) (map (map to32) l), st)
        else Raise ValueError
    end
  else Raise ValueError.

(** planning.py:200-224 resample (only CFree points exist) *)
Definition resample (sp : spoint) (q : jv) : res spoint :=
  match sp_class sp with
  | CFree => t <- fk q ;; Ok (mkSP (tol_ori_at t) CFree (Some q) (halve (sp_dist sp)))
  | CTolPos => Raise NameError
  | _ => Raise ValueError
  end.

(** planning.py:249-256 Q for one iteration *)
Fixpoint iter_columns (has_scene : bool) (sps : list spoint) (num_samples : nat) (st : S) : res (list (qent F) * S) :=
  match sps with
  | [] => Ok ([], st)
  | sp :: sps' =>
      '(Ts, st) <- samples_near (sp_cur sp) num_samples (sp_dist sp) st ;;
      '(e, st) <- calc_joint_solutions has_scene Ts st ;;
      '(Q, st) <- iter_columns has_scene sps' num_samples st ;;
      Ok (e :: Q, st)
  end.

(** planning.py:267-269 for qi, tpi in zip(sol["path"], current_path) *)
Fixpoint resample_all (qs : list jv) (sps : list spoint) : res (list spoint) :=
  match qs, sps with
  | q :: qs', sp :: sps' => sp' <- resample sp q ;; rest <- resample_all qs' sps' ;; Ok (sp' :: rest)
  | _, _ => Ok sps
  end.

(** planning.py:246-280 the loop over the iterations; [last] is the variable sol *)
Fixpoint iter_loop (iters : nat) (has_scene : bool) (sps : list spoint) (num_samples : nat) (st : S)
  (costs : list K) (paths : list (list jv)) (ntimes : nat) (last : option (list jv * K)) : res (iter_sol K F * S) :=
  match iters with
  | O =>
      match last with
      | None => Raise UnboundLocalError
      | Some (p, c) => Ok (ItOk p c costs paths ntimes, st)
      end
  | Datatypes.S iters' =>
      '(Q, st) <- iter_columns has_scene sps num_samples st ;;
      if forallb (fun e => negb (Nat.eqb (qlen e) 0)) Q then
        r <- get_shortest_path f1 sq_acc pq to32 Q "dijkstra" None ;;
        match r with
        | GspOk p c =>
            sps' <- resample_all p sps ;;
            iter_loop iters' has_scene sps' num_samples st (costs ++ [c]) (paths ++ [p]) (ntimes + 1) (Some (p, c))
        | GspFail => Ok (ItFail, st)
        end
      else Ok (ItFail, st)
  end.

(** planning.py:232-280 cart_to_joint_iterative *)
Definition cart_to_joint_iterative (path : list P) (has_scene : bool) (num_samples max_iters : nat) (st : S)
  : res (iter_sol K F * S) :=
  sps <- mapM solution_point path ;;
  iter_loop max_iters has_scene sps num_samples st [] [] 0 None.
End Iter.

(** planning.py:121-127 get_new_bounds on reals, red <> 0 (red = 0 raises
    ZeroDivisionError in python and is excluded by the theorems). *)
Definition get_new_bounds (l u m red : R) : R * R :=
  let delta := (Rabs (u - l) / red)%R in (Rmax (m - delta) l, Rmin (m + delta) u).

(** ** PlanningTask *)
(** A numpy array given to set_initial_path: rank 1, rank 2 (rows, number of
    columns) or any other rank. *)
Inductive ndarr (F : Type) : Type :=
| ND1 (v : list F)
| ND2 (rows : list (list F)) (ncols : nat)
| NDother (shape : list nat).
Arguments ND1 {F}. Arguments ND2 {F}. Arguments NDother {F}.

(** planning.py:40-50 set_initial_path: the new value of qp_init *)
Definition set_initial_path {F} (npath : nat) (q : ndarr F) : res (list (list F)) :=
  match q with
  | ND1 v => Ok (repeat v npath)
  | ND2 rows _ => if Nat.eqb (length rows) npath then Ok rows else Raise AssertionError
  | NDother _ => Raise GenericException
  end.

(** planning.py:52-83 solve.  [has_scene = false]: the attribute scene was
    never set, reading it raises AttributeError.  The four planners are
    parameters (grid and grid_incremental return Q). *)
Inductive answer (A B C : Type) : Type := AGrid (a : A) | AIter (b : B) | AOpt (c : C).
Arguments AGrid {A B C}. Arguments AIter {A B C}. Arguments AOpt {A B C}.
Definition solve {Q A B C : Type} (grid incremental : res Q) (iterative : res B) (optimize : res C)
  (shortest : Q -> string -> res A) (has_scene : bool) (default : string) (method : option string) : res (answer A B C) :=
  let m := match method with Some m => m | None => default end in
  let scene := if has_scene then Ok tt else Raise AttributeError in
  if String.eqb m "grid" then
    _ <- scene ;; q <- grid ;; r <- shortest q "dijkstra"%string ;; Ok (AGrid r)
  else if String.eqb m "grid_iterative" then
    _ <- scene ;; r <- iterative ;; Ok (AIter r)
  else if String.eqb m "optimization" then
    _ <- scene ;; r <- optimize ;; Ok (AOpt r)
  else if String.eqb m "grid_incremental" then
    _ <- scene ;; q <- incremental ;; r <- shortest q "dijkstra"%string ;; Ok (AGrid r)
  else Raise GenericException.
