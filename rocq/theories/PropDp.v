(** * Property theorems C01-C05: the dynamic program of acrobotics/dp.py. *)
From Coq Require Import List Arith Lia Bool ZArith.
From Verif Require Import PyBase Cost CostFloat Dp SpecPath DpProofs.
Import ListNotations.
Local Open Scope nat_scope.

(** C01: the returned length is a lower bound on every choice of states. *)
Theorem C01_dp_shortest_path_optimal :
  forall (K : CostStruct) (D : Type) (Q : list (list D)) (f : list D -> list D -> matrix K),
  2 <= length Q -> Forall (fun stage => stage <> []) Q ->
  (forall d1 d2, In d1 Q -> In d2 Q ->
     m_cols (f d1 d2) = length d2 /\ has_dims (m_rows (f d1 d2)) (length d1) (length d2)) ->
  exists r, shortest_path Q f = Ok r /\ dp_success _ r = true /\
    forall js, in_range Q js ->
      cle (dp_length _ r) (stage_cost (fun d1 d2 => m_rows (f d1 d2)) Q js).
Proof. exact @dp_optimal. Qed.
Print Assumptions C01_dp_shortest_path_optimal.

(** C02: the returned path picks one state per stage and costs the returned length. *)
Theorem C02_dp_path_realises_length :
  forall (K : CostStruct) (D : Type) (Q : list (list D)) (f : list D -> list D -> matrix K) r,
  2 <= length Q -> Forall (fun stage => stage <> []) Q ->
  (forall d1 d2, In d1 Q -> In d2 Q ->
     m_cols (f d1 d2) = length d2 /\ has_dims (m_rows (f d1 d2)) (length d1) (length d2)) ->
  shortest_path Q f = Ok r ->
  exists js, in_range Q js /\ picks Q js (dp_path _ r) /\
    stage_cost (fun d1 d2 => m_rows (f d1 d2)) Q js = dp_length _ r.
Proof. exact @dp_realises. Qed.
Print Assumptions C02_dp_path_realises_length.

(** C03: among the sequences that are optimal from every stage on, the returned
    one has the lexicographically smallest indices. *)
Theorem C03_dp_first_index_tie_break :
  forall (K : CostStruct) (D : Type) (Q : list (list D)) (f : list D -> list D -> matrix K) r,
  2 <= length Q -> Forall (fun stage => stage <> []) Q ->
  (forall d1 d2, In d1 Q -> In d2 Q ->
     m_cols (f d1 d2) = length d2 /\ has_dims (m_rows (f d1 d2)) (length d1) (length d2)) ->
  shortest_path Q f = Ok r ->
  exists js, picks Q js (dp_path _ r) /\
    stage_cost (fun d1 d2 => m_rows (f d1 d2)) Q js = dp_length _ r /\
    forall js', in_range Q js' ->
      cle (stage_cost (fun d1 d2 => m_rows (f d1 d2)) Q js') (dp_length _ r) ->
      suffix_optimal (fun d1 d2 => m_rows (f d1 d2)) Q js' -> lex_le js js'.
Proof. exact @shortest_path_lex. Qed.
Print Assumptions C03_dp_first_index_tie_break.

(** C03, exact arithmetic and finite costs: smallest among all optimal sequences. *)
Theorem C03_dp_first_index_tie_break_exact :
  forall (K : CostStruct) (D : Type) (Q : list (list D)) (f : list D -> list D -> matrix K) r,
  (forall a b c : K, clt c cinf = true -> clt a b = true -> clt (cadd c a) (cadd c b) = true) ->
  2 <= length Q -> Forall (fun stage => stage <> []) Q ->
  (forall d1 d2, In d1 Q -> In d2 Q ->
     m_cols (f d1 d2) = length d2 /\ has_dims (m_rows (f d1 d2)) (length d1) (length d2)) ->
  (forall d1 d2, In d1 Q -> In d2 Q ->
     Forall (Forall (fun x => clt x cinf = true)) (m_rows (f d1 d2))) ->
  shortest_path Q f = Ok r ->
  exists js, picks Q js (dp_path _ r) /\
    stage_cost (fun d1 d2 => m_rows (f d1 d2)) Q js = dp_length _ r /\
    forall js', in_range Q js' ->
      cle (stage_cost (fun d1 d2 => m_rows (f d1 d2)) Q js') (dp_length _ r) -> lex_le js js'.
Proof. exact @shortest_path_lex_exact. Qed.
Print Assumptions C03_dp_first_index_tie_break_exact.

(** C03 without these conditions fails: with an infinite transition all
    sequences tie, and the returned one is not the lexicographically smallest. *)
Theorem C03_dp_lexicographic_with_infinite_costs_refuted :
  exists (Q : list (list nat)) (f : list nat -> list nat -> matrix ZCost) r,
  2 <= length Q /\ Forall (fun stage => stage <> []) Q /\ shaped Q f /\
  shortest_path Q f = Ok r /\
  exists js js', picks Q js (dp_path _ r) /\ in_range Q js' /\
    (forall js2, picks Q js2 (dp_path _ r) -> js2 = js) /\
    cle (stage_cost (fun d1 d2 => m_rows (f d1 d2)) Q js') (dp_length _ r) /\ ~ lex_le js js'.
Proof. exact dp_lex_inf_witness. Qed.
Print Assumptions C03_dp_lexicographic_with_infinite_costs_refuted.

(** C04: V[k][j] is the least cost of any continuation from state j of stage k. *)
Theorem C04_dp_value_function_is_cost_to_go :
  forall (K : CostStruct) (tcs : list (matrix K)) (sizes : list nat),
  tcs <> [] -> length sizes = S (length tcs) -> Forall (fun n => 0 < n) sizes ->
  (forall k c, nth_error tcs k = Some c ->
     m_cols c = nth (S k) sizes 0 /\ has_dims (m_rows c) (nth k sizes 0) (nth (S k) sizes 0)) ->
  exists v_ind v, calculate_value_function tcs = Ok (v_ind, v) /\ length v = length sizes /\
    forall k vk, nth_error v k = Some vk ->
      length vk = nth k sizes 0 /\
      (forall j, j < nth k sizes 0 ->
         (exists js, in_dims (skipn k sizes) (j :: js) /\
            route_cost (map m_rows (skipn k tcs)) (j :: js) = nth j vk czero) /\
         (forall js, in_dims (skipn k sizes) (j :: js) ->
            cle (nth j vk czero) (route_cost (map m_rows (skipn k tcs)) (j :: js)))) /\
      (k = length tcs -> vk = repeat czero (nth k sizes 0)).
Proof. exact @value_function_spec. Qed.
Print Assumptions C04_dp_value_function_is_cost_to_go.

(** C05: too few stages, or an empty stage, raise. *)
Theorem C05_dp_rejects_degenerate_input :
  forall (K : CostStruct) (D : Type) (Q : list (list D)) (f : list D -> list D -> matrix K),
  (length Q <= 1 -> shortest_path Q f = Raise IndexError) /\
  (2 <= length Q -> In [] Q ->
   (forall d1 d2, In d1 Q -> In d2 Q ->
      m_cols (f d1 d2) = length d2 /\ has_dims (m_rows (f d1 d2)) (length d1) (length d2)) ->
   shortest_path Q f = Raise ValueError).
Proof. exact @dp_rejects. Qed.
Print Assumptions C05_dp_rejects_degenerate_input.

(** ** the hypotheses are met by concrete data *)

(** Three stages of sizes 2, 3, 2 with |x-y| as cost, in exact arithmetic. *)
Example C01_C02_hypotheses_met :
  2 <= length dp_ex_Q /\ Forall (fun stage => stage <> []) dp_ex_Q /\ shaped dp_ex_Q dp_ex_f /\
  shortest_path dp_ex_Q dp_ex_f =
    Ok {| dp_success := true; dp_path := [2; 3; 3]%Z; dp_length := Some 1%Z : ZCost |}.
Proof. exact dp_ex_ok. Qed.

(** Exact integers and reals have strictly monotone addition of finite costs. *)
Example C03_exact_arithmetics :
  (forall a b c : ZCost, clt c cinf = true -> clt a b = true -> clt (cadd c a) (cadd c b) = true) /\
  (forall a b c : RCost, clt c cinf = true -> clt a b = true -> clt (cadd c a) (cadd c b) = true).
Proof. exact strict_instances. Qed.

(** A tie: both routes cost 2, the first indices are returned. *)
Example C03_tie_example :
  shortest_path [[0; 0]; [1; 1]; [2; 2]]%Z dp_ex_f =
    Ok {| dp_success := true; dp_path := [0; 1; 2]%Z; dp_length := Some 2%Z : ZCost |}.
Proof. exact dp_ex_tie. Qed.

Example C04_hypotheses_met :
  let tcs := apply_cost_function dp_ex_Q dp_ex_f in
  tcs <> [] /\ length [2; 3; 2] = S (length tcs) /\ Forall (fun n => 0 < n) [2; 3; 2] /\
  (forall k c, nth_error tcs k = Some c ->
     m_cols c = nth (S k) [2; 3; 2] 0 /\
     has_dims (m_rows c) (nth k [2; 3; 2] 0) (nth (S k) [2; 3; 2] 0)).
Proof. exact dp_ex_sizes. Qed.

(** Instance: IEEE double precision addition with round-to-nearest-even. *)
Example C01_float64 :
  forall (D : Type) (Q : list (list D)) (f : list D -> list D -> matrix Float64Cost),
  2 <= length Q -> Forall (fun stage => stage <> []) Q -> shaped Q f ->
  exists r, shortest_path Q f = Ok r /\ dp_success _ r = true /\
    forall js, in_range Q js -> cle (dp_length _ r) (stage_cost (fun d1 d2 => m_rows (f d1 d2)) Q js).
Proof. exact (C01_dp_shortest_path_optimal Float64Cost). Qed.
