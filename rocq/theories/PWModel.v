(* Partial-wave state space: make_pw_symm_states.cpp and find_deuteron_channels (run_organizer.cpp). *)
From Verif Require Import Common.

(* One entry of the parallel arrays of pw_3N_statespace (type_defs.h); the code keeps nine int arrays,
   the model one list of records (all nine are always pushed together, l.191-202). *)
Record pw := mkpw {
  L_2N : Z; S_2N : Z; J_2N : Z; T_2N : Z;
  L_1N : Z; two_J_1N : Z; two_J_3N : Z; two_T_3N : Z; P_3N : Z }.

(* make_pw_symm_states.cpp l.68-71 *)
Definition two_T_3N_max (iso : bool) : Z := if iso then 3 else 1.

(* Loop nest l.136-220: the states pushed for one channel (two_J_3N, P_3N_remainder), in order.
   [negb (_ =? 0)] is the C truth value of (..)%2 at l.156; the `continue` of l.170-174 skips the push. *)
Definition chn_states (J_2N_max : Z) (iso : bool) (twoJ3 prem : Z) : list pw :=
  flat_map (fun twoT3 =>
  flat_map (fun J =>
  flat_map (fun S =>
  flat_map (fun L =>
    let T_min := Z.abs (twoT3 - 1) / 2 in
    let T_max := let t := (twoT3 + 1) / 2 in if t >? 1 then 1 else t in
  flat_map (fun T =>
    if negb ((L + S + T) mod 2 =? 0) then
      flat_map (fun twoj =>
      flat_map (fun l =>
        if ((L + l) mod 2 =? prem) then
          if (twoT3 =? 3) && negb ((S =? 0) && (L =? 0) && (J =? 0)) then []
          else [ mkpw L S J T l twoj twoJ3 twoT3 (1 - 2 * prem) ]
        else [])
      (for_range (Z.abs (twoj - 1) / 2) ((twoj + 1) / 2 + 1) 1))
      (for_range (Z.abs (twoJ3 - 2 * J)) (twoJ3 + 2 * J + 1) 2)
    else [])
  (for_range T_min (T_max + 1) 1))
  (for_range (Z.abs (J - S)) (J + S + 1) 1))
  (for_range 0 2 1))
  (for_range 0 (J_2N_max + 1) 1))
  (for_range 1 (two_T_3N_max iso + 1) 2).

(* The channel loops l.122-124, in order. *)
Definition chn_keys (two_J_3N_max : Z) : list (Z * Z) :=
  flat_map (fun twoJ3 => map (fun prem => (twoJ3, prem)) (for_range 0 2 1))
           (for_range 1 (two_J_3N_max + 1) 2).

(* State of the construction: the pushed states and chn_idx_temp. *)
Record pwacc := mkacc { acc_states : list pw; acc_chn : list Z }.

(* One channel: l.134-228. Nalpha_temp_prev = number of states before the channel. *)
Definition add_channel (J_2N_max : Z) (iso : bool) (a : pwacc) (key : Z * Z) : pwacc :=
  let new := chn_states J_2N_max iso (fst key) (snd key) in
  mkacc (acc_states a ++ new)
        (if (Z.of_nat (length new) =? 0) then acc_chn a
         else acc_chn a ++ [Z.of_nat (length (acc_states a))]).

Definition run_channels (J_2N_max two_J_3N_max : Z) (iso : bool) : pwacc :=
  fold_left (add_channel J_2N_max iso) (chn_keys two_J_3N_max) (mkacc [] []).

(* l.234-244: scan for the largest channel; [v] is chn_idx_temp, N_chn its size.
   Reads chn_idx_temp[chn_3N+1] BEFORE the terminating entry is pushed (l.249). *)
Definition largest_scan (v : list Z) : outcome Z :=
  fold_left (fun r c =>
      do best <- r; do lo <- aget v c; do hi <- aget v (c + 1);
      Ok (if (hi - lo >? best) then hi - lo else best))
    (for_range 0 (Z.of_nat (length v)) 1) (Ok 0).

(* The same scan if every out-of-range read returned the value [g] instead of being undefined. *)
Definition aget_g (g : Z) (a : list Z) (i : Z) : outcome Z :=
  match aget a i with UB => Ok g | r => r end.
Definition largest_scan_g (g : Z) (v : list Z) : outcome Z :=
  fold_left (fun r c =>
      do best <- r; do lo <- aget_g g v c; do hi <- aget_g g v (c + 1);
      Ok (if (hi - lo >? best) then hi - lo else best))
    (for_range 0 (Z.of_nat (length v)) 1) (Ok 0).

(* pw_3N_statespace as written by l.248-283. *)
Record statespace := mkss { ss_states : list pw; ss_chn_idx : list Z; ss_N_chn : Z }.

Definition final_tables (a : pwacc) : statespace :=
  mkss (acc_states a) (acc_chn a ++ [Z.of_nat (length (acc_states a))]) (Z.of_nat (length (acc_chn a))).

(* construct_symmetric_pw_states l.62-284, strict semantics. *)
Definition construct_symmetric_pw_states (J_2N_max two_J_3N_max : Z) (iso : bool) : outcome statespace :=
  if J_2N_max <? 0 then Err else
  let a := run_channels J_2N_max two_J_3N_max iso in
  do _ <- largest_scan (acc_chn a);
  Ok (final_tables a).

(* The same with the stray read returning [g] (what a real machine does: the value only reaches a printf). *)
Definition construct_symmetric_pw_states_g (g : Z) (J_2N_max two_J_3N_max : Z) (iso : bool)
  : outcome statespace :=
  if J_2N_max <? 0 then Err else
  let a := run_channels J_2N_max two_J_3N_max iso in
  do _ <- largest_scan_g g (acc_chn a);
  Ok (final_tables a).

(* main.cpp l.177-192: the sub-range of states belonging to channel [c]. *)
Definition channel_slice (ss : statespace) (c : Z) : outcome (list pw) :=
  do lo <- aget (ss_chn_idx ss) c;
  do hi <- aget (ss_chn_idx ss) (c + 1);
  Ok (firstn (Z.to_nat (hi - lo)) (skipn (Z.to_nat lo) (ss_states ss))).

(* constants.h: deuteron_L=0, deuteron_S=1, deuteron_J=1, deuteron_T=0. *)
Definition is_deuteron_b (s : pw) : bool :=
  (0 =? L_2N s) && (1 =? S_2N s) && (1 =? J_2N s) && (0 =? T_2N s).

(* find_deuteron_channels, run_organizer.cpp l.360-367: indices (within the channel) pushed. *)
Fixpoint deuteron_indices_from (i : Z) (l : list pw) : list Z :=
  match l with
  | [] => []
  | s :: r => (if is_deuteron_b s then [i] else []) ++ deuteron_indices_from (i + 1) r
  end.
Definition deuteron_indices (chn : list pw) : list Z := deuteron_indices_from 0 chn.

(* find_deuteron_channels l.342-378: per channel the index list. *)
Definition find_deuteron_channels (ss : statespace) : outcome (list (list Z)) :=
  fold_left (fun r c => do acc <- r; do s <- channel_slice ss c; Ok (acc ++ [deuteron_indices s]))
            (for_range 0 (ss_N_chn ss) 1) (Ok []).

(* unique_2N_idx l.4-60.  [Z.b2z] is the C conversion bool -> int. *)
Definition unique_2N_idx (tensor iso coupled : bool) (L S J T : Z) : outcome Z :=
  if coupled && negb tensor then Err else
  let state_1S0 := (S =? 0) && (J =? 0) && (L =? 0) && (T =? 1) in
  Ok (if tensor then
        if coupled then
          if iso then (if state_1S0 then 0 else (J - 1) + 1) else J - 1
        else (2 * J + S) - (if iso then 1 else 0)
      else
        if coupled then (if iso then 0 else -1)
        else J * (4 * Z.b2z (J >? 1) + 2) + Z.b2z (S =? 1)
             + Z.b2z ((S =? 1) && negb (J =? 0)) * (J - L + 1)
             - (if iso then 1 else 0)).

(* main.cpp l.273-289: number of two-nucleon matrices allocated. *)
Definition num_2N_unco_states (tensor iso : bool) (J_2N_max : Z) : Z :=
  (if tensor then 2 * (J_2N_max + 1) else 4 * J_2N_max + 2) - (if iso then 1 else 0).
Definition num_2N_coup_states (tensor iso : bool) (J_2N_max : Z) : Z :=
  if tensor then J_2N_max + (if iso then 1 else 0) else (if iso then 1 else 0).

(* The "coupled" flag computed wherever a matrix is looked up, e.g. solve_faddeev.cpp l.1686-1697,
   make_potential_matrix.cpp, make_swp_states.cpp, make_resolvent.cpp (same expression). *)
Definition coupled_via_L_2N (tensor : bool) (r c : pw) : bool :=
  tensor && (negb (L_2N r =? L_2N c)
             || ((L_2N r =? L_2N c) && negb (L_2N r =? J_2N r) && negb (J_2N r =? 0))).
Definition coupled_via_T_3N (iso : bool) (r : pw) : bool :=
  (S_2N r =? 0) && (J_2N r =? 0) && (L_2N r =? 0) && iso.
Definition coupled_matrix (tensor iso : bool) (r c : pw) : bool :=
  coupled_via_L_2N tensor r c || coupled_via_T_3N iso r.
(* "Check if possible channel through interaction", solve_faddeev.cpp l.1674-1682; [same_spectator]
   is check_l && check_j. *)
Definition same_2N (tensor : bool) (r c : pw) : bool :=
  (T_2N r =? T_2N c) && (J_2N r =? J_2N c) && (S_2N r =? S_2N c) &&
  ((tensor && (Z.abs (L_2N r - L_2N c) <=? 2)) || (L_2N r =? L_2N c)).
Definition same_spectator (r c : pw) : bool :=
  (L_1N r =? L_1N c) && (two_J_1N r =? two_J_1N c).
Definition interaction_allowed (tensor : bool) (r c : pw) : bool :=
  same_2N tensor r c && same_spectator r c.

(* The matrix a state is looked up in: the flag and the number the code computes for the diagonal block (s,s). *)
Definition matrix_of (tensor iso : bool) (s : pw) : bool * outcome Z :=
  (coupled_matrix tensor iso s s,
   unique_2N_idx tensor iso (coupled_matrix tensor iso s s) (L_2N s) (S_2N s) (J_2N s) (T_2N s)).
