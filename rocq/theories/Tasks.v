(** * The task and scene files of examples/.

    The json files as values of [json] (Io.v), the urdf files as documents of
    Urdf.v; both keep the text of the files number by number.  In the urdf files
    the visual elements and the colours are left out; the collision elements,
    the joints and their names are those of the template of urdfio.py, so
    [urdf_doc] builds them.  Numbers are exact reals, as in Io.v. *)
From Coq Require Import String Ascii Reals List Bool ZArith.
From Verif Require Import PyBase Mat Util Geometry Io Urdf.
Import ListNotations.
Local Open Scope R_scope.

(** ** Numbers in text *)
(** the value of a digit *)
Definition digit (c : ascii) : option Z :=
  let n := Z.of_nat (nat_of_ascii c) in if ((48 <=? n) && (n <=? 57))%Z then Some (n - 48)%Z else None.
(** digits with at most one point, after the number n / d *)
Fixpoint decimals (s : string) (frac : bool) (n d : Z) : option (Z * Z) :=
  match s with
  | EmptyString => Some (n, d)
  | String c s' =>
      match digit c with
      | Some k => decimals s' frac (10 * n + k)%Z (if frac then 10 * d else d)%Z
      | None => if (Ascii.eqb c "." && negb frac)%char then decimals s' true n d else None
      end
  end.
(** a number written in decimals, sign allowed, as numerator and denominator *)
Definition dec_parts (s : string) : option (Z * Z) :=
  match s with
  | String "-" (String c s') => match digit c with Some _ => option_map (fun p => (- fst p, snd p)%Z) (decimals (String c s') false 0 1) | None => None end
  | String c _ => match digit c with Some _ => decimals s false 0 1 | None => None end
  | EmptyString => None
  end.
(** reading decimals gives their value *)
Definition decimal_reader (N : numbers) : Prop :=
  forall s n d, dec_parts s = Some (n, d) -> exists z, read N s = Some z /\ value N z = IZR n / IZR d.

(** ** Files *)
(** examples/line_orient_free.json:1-24 *)
Definition line_orient_free : json := JObj [
  ("name"%string, JStr "line_orient_free");
  ("path"%string, JObj [
    ("type"%string, JStr "LINE");
    ("tolerance"%string, JStr "orientation_free");
    ("start_pose"%string, JObj [
      ("xyz"%string, JList [JFloat 0.8; JFloat (-0.2); JFloat 0.2]);
      ("rpy"%string, JList [JFloat 0.0; JFloat 0.0; JFloat 0.0])]);
    ("end_point"%string, JList [JFloat 0.8; JFloat 0.2; JFloat 0.2]);
    ("num_points"%string, JInt 10)]);
  ("obstacles"%string, JList [
    JObj [
      ("type"%string, JStr "box");
      ("size"%string, JList [JFloat 0.5; JFloat 0.5; JFloat 0.1]);
      ("xyz"%string, JList [JFloat 0.8; JFloat 0.0; JFloat 0.12]);
      ("rpy"%string, JList [JFloat 0.0; JFloat 0.0; JFloat 0.0])]])].
(** examples/line_x_tol.json:1-25 *)
Definition line_x_tol : json := JObj [
  ("name"%string, JStr "line_orient_free");
  ("path"%string, JObj [
    ("type"%string, JStr "LINE");
    ("tolerance"%string, JStr "position_tolerance");
    ("start_pose"%string, JObj [
      ("xyz"%string, JList [JFloat 0.8; JFloat (-0.2); JFloat 0.2]);
      ("rpy"%string, JList [JFloat 0.0; JFloat 0.0; JFloat 0.0])]);
    ("end_point"%string, JList [JFloat 0.8; JFloat 0.2; JFloat 0.2]);
    ("xyz_tol"%string, JList [JFloat 0.2; JFloat 0.0; JFloat 0.0]);
    ("num_points"%string, JInt 10)]);
  ("obstacles"%string, JList [
    JObj [
      ("type"%string, JStr "box");
      ("size"%string, JList [JFloat 0.5; JFloat 0.5; JFloat 0.1]);
      ("xyz"%string, JList [JFloat 0.8; JFloat 0.0; JFloat 0.12]);
      ("rpy"%string, JList [JFloat 0.0; JFloat 0.0; JFloat 0.0])]])].
(** examples/small_passage.json:1-36 *)
Definition small_passage : json := JObj [
  ("name"%string, JStr "line_orient_free");
  ("path"%string, JObj [
    ("type"%string, JStr "LINE");
    ("tolerance"%string, JStr "orientation_free");
    ("start_pose"%string, JObj [
      ("xyz"%string, JList [JFloat 0.0; JFloat (-0.1); JFloat 0.0]);
      ("rpy"%string, JList [JFloat 0.0; JFloat 0.0; JFloat 0.0])]);
    ("end_point"%string, JList [JFloat 0.0; JFloat 0.1; JFloat 0.0]);
    ("num_points"%string, JInt 15)]);
  ("obstacles"%string, JList [
    JObj [
      ("type"%string, JStr "box");
      ("size"%string, JList [JFloat 0.1; JFloat 0.03; JFloat 0.2]);
      ("xyz"%string, JList [JFloat (-0.0675); JFloat 0.0; JFloat 0.0]);
      ("rpy"%string, JList [JFloat 0.0; JFloat 0.0; JFloat 0.0])];
    JObj [
      ("type"%string, JStr "box");
      ("size"%string, JList [JFloat 0.1; JFloat 0.03; JFloat 0.2]);
      ("xyz"%string, JList [JFloat 0.0675; JFloat 0.0; JFloat 0.0]);
      ("rpy"%string, JList [JFloat 0.0; JFloat 0.0; JFloat 0.0])];
    JObj [
      ("type"%string, JStr "box");
      ("size"%string, JList [JFloat 0.035; JFloat 0.03; JFloat 0.1]);
      ("xyz"%string, JList [JFloat 0.0; JFloat 0.0; JFloat 0.05]);
      ("rpy"%string, JList [JFloat 0.0; JFloat 0.0; JFloat 0.0])]])].
(** examples/small_passage_2.json:1-81 *)
Definition small_passage_2 : json := JObj [
  ("name"%string, JStr "line_orient_free");
  ("path"%string, JObj [
    ("type"%string, JStr "LINE");
    ("tolerance"%string, JStr "orientation_free");
    ("start_pose"%string, JObj [
      ("xyz"%string, JList [JFloat 0.8; JFloat (-0.1); JFloat 0.0]);
      ("rpy"%string, JList [JFloat 0.0; JFloat 0.0; JFloat 0.0])]);
    ("end_point"%string, JList [JFloat 0.8; JFloat 0.1; JFloat 0.0]);
    ("num_points"%string, JInt 15)]);
  ("obstacles"%string, JList [
    JObj [
      ("type"%string, JStr "box");
      ("size"%string, JList [JFloat 0.1; JFloat 0.03; JFloat 0.2]);
      ("xyz"%string, JList [JFloat 0.7325; JFloat 0.0; JFloat 0.0]);
      ("rpy"%string, JList [JFloat 0.0; JFloat 0.0; JFloat 0.0])];
    JObj [
      ("type"%string, JStr "box");
      ("size"%string, JList [JFloat 0.1; JFloat 0.03; JFloat 0.2]);
      ("xyz"%string, JList [JFloat 0.8675; JFloat 0.0; JFloat 0.0]);
      ("rpy"%string, JList [JFloat 0.0; JFloat 0.0; JFloat 0.0])];
    JObj [
      ("type"%string, JStr "box");
      ("size"%string, JList [JFloat 0.035; JFloat 0.03; JFloat 0.1]);
      ("xyz"%string, JList [JFloat 0.8; JFloat 0.0; JFloat 0.05]);
      ("rpy"%string, JList [JFloat 0.0; JFloat 0.0; JFloat 0.0])]])].
(** examples/weld_circle.json:1-21 *)
Definition weld_circle : json := JObj [
  ("name"%string, JStr "line_orient_free");
  ("path"%string, JObj [
    ("type"%string, JStr "CIRC");
    ("tolerance"%string, JStr "orientation_free");
    ("mid"%string, JList [JFloat 0.8; JFloat 0.0; JFloat 0.1]);
    ("start"%string, JList [JFloat 0.6; JFloat 0.0; JFloat 0.1]);
    ("axis"%string, JList [JFloat 0.0; JFloat 0.0; JFloat 1.0]);
    ("num_points"%string, JInt 15)]);
  ("obstacles"%string, JList [
    JObj [
      ("type"%string, JStr "box");
      ("size"%string, JList [JFloat 0.5; JFloat 0.5; JFloat 0.1]);
      ("xyz"%string, JList [JFloat 0.8; JFloat 0.0; JFloat 0.02]);
      ("rpy"%string, JList [JFloat 0.0; JFloat 0.0; JFloat 0.0])]])].
(** examples/tasks/circle.json:1-25 *)
Definition task_circle : json := JObj [
  ("paths"%string, JList [
    JObj [
      ("name"%string, JStr "line_orient_free");
      ("type"%string, JStr "CIRC");
      ("tolerance"%string, JStr "orientation_free");
      ("mid"%string, JList [JFloat 0.8; JFloat 0.0; JFloat 0.1]);
      ("start"%string, JList [JFloat 0.6; JFloat 0.0; JFloat 0.1]);
      ("axis"%string, JList [JFloat 0.0; JFloat 0.0; JFloat 1.0]);
      ("num_points"%string, JInt 15)]])].
(** examples/tasks/industrial_1.json:1-88 *)
Definition task_industrial : json := JObj [
  ("paths"%string, JList [
    JObj [
      ("name"%string, JStr "approach_1");
      ("type"%string, JStr "LINE");
      ("tolerance"%string, JStr "euler_tolerance");
      ("rpy_tol"%string, JList [JFloat 0.0; JFloat 0.0; JInt 180]);
      ("start_pose"%string, JObj [
        ("xyz"%string, JList [JFloat 0.98; JFloat (-0.1); JFloat 0.05]);
        ("rpy"%string, JList [JInt 135; JInt 20; JInt 0])]);
      ("end_point"%string, JList [JFloat 0.99; JFloat (-0.15); JInt 0]);
      ("num_points"%string, JInt 10)];
    JObj [
      ("name"%string, JStr "weld_1");
      ("type"%string, JStr "LINE");
      ("tolerance"%string, JStr "euler_tolerance");
      ("rpy_tol"%string, JList [JFloat 0.0; JFloat 0.0; JInt 180]);
      ("start_pose"%string, JObj [
        ("xyz"%string, JList [JFloat 0.99; JFloat (-0.15); JInt 0]);
        ("rpy"%string, JList [JFloat (-2.35619449); JInt 0; JFloat 3.14159265])]);
      ("end_point"%string, JList [JFloat 0.72; JFloat (-0.1); JFloat 0.05]);
      ("num_points"%string, JInt 10)];
    JObj [
      ("name"%string, JStr "retract_1");
      ("type"%string, JStr "LINE");
      ("tolerance"%string, JStr "euler_tolerance");
      ("rpy_tol"%string, JList [JFloat 0.0; JFloat 0.0; JInt 180]);
      ("start_pose"%string, JObj [
        ("xyz"%string, JList [JFloat 0.71; JFloat (-0.15); JInt 0]);
        ("rpy"%string, JList [JInt 135; JInt (-20); JInt 0])]);
      ("end_point"%string, JList [JFloat 0.72; JFloat (-0.1); JFloat 0.05]);
      ("num_points"%string, JInt 10)]])].
(** examples/tasks/path_in_box.json:1-32 *)
Definition task_path_in_box : json := JObj [
  ("paths"%string, JList [
    JObj [
      ("name"%string, JStr "weld_line_1");
      ("type"%string, JStr "LINE");
      ("tolerance"%string, JStr "euler_tolerance");
      ("rpy_tol"%string, JList [JFloat 0.5; JInt 0; JFloat 3.1415]);
      ("start_pose"%string, JObj [
        ("xyz"%string, JList [JFloat (-0.69); JFloat 0.35; JFloat 0.05]);
        ("rpy"%string, JList [JFloat (-2.35619449); JInt 0; JFloat 3.14159265])]);
      ("end_point"%string, JList [JFloat 0.69; JFloat 0.35; JFloat 0.05]);
      ("num_points"%string, JInt 10)]])].
(** examples/tasks/small_passage.json:1-27 *)
Definition task_small_passage : json := JObj [
  ("paths"%string, JList [
    JObj [
      ("name"%string, JStr "line_orient_free");
      ("type"%string, JStr "LINE");
      ("tolerance"%string, JStr "orientation_free");
      ("start_pose"%string, JObj [
        ("xyz"%string, JList [JFloat 0.8; JFloat (-0.1); JFloat 0.0]);
        ("rpy"%string, JList [JFloat 0.0; JFloat 0.0; JFloat 0.0])]);
      ("end_point"%string, JList [JFloat 0.8; JFloat 0.1; JFloat 0.0]);
      ("num_points"%string, JInt 15)]])].
(** examples/tasks/torch_obstacle.json:1-32 *)
Definition task_torch_obstacle : json := JObj [
  ("paths"%string, JList [
    JObj [
      ("name"%string, JStr "weld_line_1");
      ("type"%string, JStr "LINE");
      ("tolerance"%string, JStr "euler_tolerance");
      ("rpy_tol"%string, JList [JFloat 1.5707963267948966; JInt 0; JFloat 1.5707963267948966]);
      ("start_pose"%string, JObj [
        ("xyz"%string, JList [JFloat 0.82585786; JFloat (-0.25); JFloat 0.12414214]);
        ("rpy"%string, JList [JInt 0; JFloat 2.356194490192345; JInt 0])]);
      ("end_point"%string, JList [JFloat 0.82585786; JFloat 0.25; JFloat 0.12414214]);
      ("num_points"%string, JInt 10)]])].
(** examples/scenes/circle.urdf:1-31 *)
Definition scene_circle : doc := (urdf_doc "circle" [
   Entry "shape_0" "0.5 0.5 0.1" "0.8 0.0 0.02"])%string.
(** examples/scenes/industrial_1.urdf:1-131 *)
Definition scene_industrial : doc := (urdf_doc "kingpin" [
   Entry "u_profile" "0.2 0.5 0.1" "1.1 0 0.05";
   Entry "obstacle" "0.2 0.0833333333333 0.01" "0.85 0 0.005";
   Entry "table" "0.7 0.7 0.01" "0.85 0 -0.005";
   Entry "side_1" "0.3 0.1 0.055" "0.85 0.2 0.0275";
   Entry "side_2" "0.3 0.1 0.055" "0.85 -0.2 0.0275";
   Entry "u_profile_2" "0.2 0.5 0.1" "0.6 0 0.05"])%string.
(** examples/scenes/path_in_box.urdf:1-111 *)
Definition scene_path_in_box : doc := (urdf_doc "halfopen_box" [
   Entry "shape_0" "1.6 0.8 0.01" "0.0 0.0 0.005";
   Entry "shape_1" "1.6 0.8 0.01" "0.0 0.0 1.015";
   Entry "shape_2" "1.58 0.01 1.0" "0.0 0.395 0.51";
   Entry "shape_3" "0.01 0.8 1.0" "0.795 0.0 0.51";
   Entry "shape_4" "0.01 0.8 1.0" "-0.795 0.0 0.51"])%string.
(** examples/scenes/small_passage.urdf:1-71 *)
Definition scene_small_passage : doc := (urdf_doc "small_passage" [
   Entry "shape_0" "0.1 0.03 0.2" "0.7325 0.0 0.0";
   Entry "shape_1" "0.1 0.03 0.2" "0.8675 0.0 0.0";
   Entry "shape_2" "0.035 0.03 0.1" "0.8 0.0 0.05"])%string.
(** examples/scenes/torch_obstacle.urdf:1-91 *)
Definition scene_torch_obstacle : doc := (urdf_doc "torch_obstacle" [
   Entry "shape_0" "0.5 0.5 0.1" "0.6000000000000001 0.0 0.05";
   Entry "shape_1" "0.1 0.5 0.01" "0.8 0.0 0.10500000000000001";
   Entry "shape_2" "0.01 0.5 0.1" "0.8450000000000001 0.0 0.16000000000000003";
   Entry "shape_3" "0.05 0.1 0.05" "0.775 0.0 0.135"])%string.
