(** * A planning task in floating point (C153).

    Sampling a TolEulerPt and cart_to_joint_no_redundancy again, with the rounded
    operations of FloatFk.v, FloatColl.v and FloatIk.v.  An integer below 2 ** 53 is an
    exact float.  Overflow and NaN are not modelled. *)
From Coq Require Import String Reals List Arith ZArith.
From Verif Require Import PyBase Cost GraphCommon CppGraph Mat Util Geometry Robot Ik Path Planning Pipeline FloatFk FloatColl FloatIk.
Import ListNotations.
Local Open Scope R_scope.

Section F.
Context (A : arith_ik).
Local Notation rn := (rnd (ar A)).

(** np.linspace: delta = stop - start; y = arange(0, num) * (delta / div), or y / div * delta
    when the step rounds to zero; y += start; the last entry is stop.  With one sample div is
    zero and y = arange(0, 1) * delta. *)
Definition flinspace (lo hi : R) (n : nat) : list R :=
  match n with
  | O => []
  | S O => [rn (rn (0 * rn (hi - lo)) + lo)]
  | S (S m) =>
      let delta := rn (hi - lo) in let step := rn (delta / INR (S m)) in
      map (fun k => rn ((if Req_EM_T step 0 then rn (rn (INR k / INR (S m)) * delta) else rn (INR k * step)) + lo)) (seq 0 (S m)) ++ [hi]
  end.
(** path.py:33-34 *)
Definition ftol_discretise (t : tolnum) : res (list R) :=
  if (t_samples t <? 0)%Z then Raise ValueError
  else Ok (flinspace (t_lower t) (t_upper t) (Z.to_nat (t_samples t))).
(** path.py:70-74, 77-81 *)
Definition fdiscretise_num (v : num) : res (list R) :=
  match v with Tol t => ftol_discretise t | Fix x => Ok [x] end.
(** util.py:12-27 rot_x, rot_y, rot_z *)
Definition frot_x (a : R) : mat3 := let c := fcos (ar A) a in let s := fsin (ar A) a in M3 1 0 0  0 c (- s)  0 s c.
Definition frot_y (a : R) : mat3 := let c := fcos (ar A) a in let s := fsin (ar A) a in M3 c 0 s  0 1 0  (- s) 0 c.
Definition frot_z (a : R) : mat3 := let c := fcos (ar A) a in let s := fsin (ar A) a in M3 c (- s) 0  s c 0  0 0 1.
(** path.py:88-90 *)
Definition fframe_of_row (p : list R) : res mat4 :=
  match p with
  | x :: y :: z :: a :: b :: c :: _ => Ok (M4 (fmul3 A (frot_x a) (fmul3 A (frot_y b) (frot_z c))) (V3 x y z) v0 1)
  | _ => Raise IndexError
  end.
(** path.py:67-93 TolEulerPt.get_samples *)
Definition feuler_samples (p : eulerpt) : res (list mat4) :=
  r1 <- mapM fdiscretise_num (firstn 3 (e_pos p)) ;;
  r2 <- mapM fdiscretise_num (firstn 3 (e_rpy p)) ;;
  mapM fframe_of_row (create_grid (r1 ++ r2)).

Section Plan.
Context (prim : shape -> mat3 -> vec3 -> shape -> mat3 -> vec3 -> bool) (to32 : R -> R).
(** robots.py:322-351 Kuka.ik as the planner reads it *)
Definition fkuka_call (k : kuka) (T : mat4) : kuka * res (option (list (list R))) :=
  let (k', r) := fkuka_ik A k T in
  (k', r <- r ;; Ok (match r with IkFail => None | IkOk s => Some (read (k_wrist k') s) end)).
(** planning.py:299-301 the loop over sol["sol"] *)
Fixpoint fcheck_sols (scene : coll) (qs : list (list R)) (k : kuka) (acc : list (list R)) : kuka * res (list (list R)) :=
  match qs with
  | [] => (k, Ok acc)
  | q :: qs' =>
      let (r, c) := frobot_collision (ar A) prim (k_rob k) q scene in
      match c with
      | Ok true => fcheck_sols scene qs' (kuka_put k r) acc
      | Ok false => fcheck_sols scene qs' (kuka_put k r) (acc ++ [q])
      | Raise e => (kuka_put k r, Raise e)
      | OutOfFuel => (kuka_put k r, OutOfFuel)
      end
  end.
(** planning.py:296-307 the loop over the samples of one point *)
Fixpoint fsolve_frames (scene : coll) (Ts : list mat4) (k : kuka) (acc : list (list R)) : kuka * res (list (list R)) :=
  match Ts with
  | [] => (k, Ok acc)
  | T :: Ts' =>
      match fkuka_call k T with
      | (k', Ok None) => fsolve_frames scene Ts' k' acc
      | (k', Ok (Some qs)) =>
          match fcheck_sols scene qs k' acc with
          | (k'', Ok acc') => fsolve_frames scene Ts' k'' acc'
          | (k'', Raise e) => (k'', Raise e)
          | (k'', OutOfFuel) => (k'', OutOfFuel)
          end
      | (k', Raise e) => (k', Raise e)
      | (k', OutOfFuel) => (k', OutOfFuel)
      end
  end.
(** planning.py:283-313 cart_to_joint_no_redundancy *)
Fixpoint fkuka_columns (scene : coll) (path : list eulerpt) (k : kuka) : kuka * res (list (qent R)) :=
  match path with
  | [] => (k, Ok [])
  | tp :: path' =>
      match feuler_samples tp with
      | Ok Ts =>
          match fsolve_frames scene Ts k [] with
          | (k', Ok q_sol) =>
              match pack to32 q_sol with
              | Ok e => let (k'', Q) := fkuka_columns scene path' k' in (k'', Q <- Q ;; Ok (e :: Q))
              | Raise e => (k', Raise e)
              | OutOfFuel => (k', OutOfFuel)
              end
          | (k', Raise e) => (k', Raise e)
          | (k', OutOfFuel) => (k', OutOfFuel)
          end
      | Raise e => (k, Raise e)
      | OutOfFuel => (k, OutOfFuel)
      end
  end.
(** planning.py:56-60 PlanningTask.solve with method "grid" *)
Definition fkuka_plan {K : CostStruct} (sq_acc : K -> R -> R -> R -> K) (pq : pqueue K R)
  (scene : coll) (path : list eulerpt) (method : string) (ow : option (list R)) (k : kuka) : kuka * res (gsp K R) :=
  let (k', Q) := fkuka_columns scene path k in
  (k', Q <- Q ;; get_shortest_path 1 sq_acc pq to32 Q method ow).
End Plan.
End F.
