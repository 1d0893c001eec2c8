(* find_on_shell_bins, run_organizer.cpp l.4-340, over R.  The requested energies are the numbers read by
   read_input_energies (disk_io_routines.cpp l.80-108); printing and the alpha_pq_boundaries.txt dump are left out. *)
From Coq Require Import Reals.
From Verif Require Import Common ArrayLib PWModel SwpModel ResolventModel GridModel.
Open Scope R_scope.

Definition Rleb (x y : R) : bool := if Rle_dec x y then true else false.

(* l.45-49: energy mid-point of a q bin as a laboratory energy *)
Definition mid_T_lab (Eb q_lower q_upper : R) : R :=
  let Eq_lower := 0.5 * (q_lower * q_lower) / kin_mu1 Eb in
  let Eq_upper := 0.5 * (q_upper * q_upper) / kin_mu1 Eb in
  let E_com := 0.5 * (Eq_upper + Eq_lower) in
  com_momentum_to_lab_energy (com_energy_to_com_q_momentum E_com) Eb.

Open Scope nat_scope.
(* l.43-50 *)
Definition T_lab_midpoints (Nq : nat) (q : list R) (Eb : R) (a : list R) : outcome (list R) :=
  ofold (fun a i => do ql <- aread q i; do qu <- aread q (i + 1); awrite a i (mid_T_lab Eb ql qu)) (seq 0 Nq) a.

(* l.56-70: pairs of adjacent bins (i, i+1) with a requested energy between their mid-points *)
Definition mark_pairs (Nq : nat) (mids : list R) (inputs : list R) (m : list bool) : outcome (list bool) :=
  ofold (fun m i =>
      do lo <- aread mids i; do hi <- aread mids (i + 1);
      ofold (fun m T => if Rleb lo T && Rleb T hi then awrite m i true else Ok m) inputs m)
    (seq 0 (Nq - 1)) m.

(* l.72-79 *)
Definition mark_bins (Nq : nat) (m : list bool) (b : list bool) : outcome (list bool) :=
  ofold (fun b i => do x <- aread m i;
                    if x then do b <- awrite b i true; awrite b (i + 1) true else Ok b)
    (seq 0 (Nq - 1)) b.

(* l.81-85 *)
Definition bin_list (Nq : nat) (b : list bool) : outcome (list nat) :=
  ofold (fun v i => do x <- aread b i; Ok (if x then v ++ [i] else v)) (seq 0 Nq) [].

(* l.112-118 *)
Definition find_bin (Nq : nat) (q : list R) (q_com : R) : outcome (option nat) :=
  ofold (fun r i => match r with
                    | Some _ => Ok r
                    | None => do ql <- aread q i; do qu <- aread q (i + 1);
                              Ok (if Rltb ql q_com && Rltb q_com qu then Some i else None)
                    end) (seq 0 Nq) None.

Record on_shell := mkos { os_bins : list nat; os_T : list R; os_q : list R; os_E : list R; os_idx : list nat }.

(* l.40-129.  Nq=0 makes std::vector(Nq-1) throw. *)
Definition elastic_bins (Nq : nat) (q : list R) (Eb : R) (inputs : list R) : outcome on_shell :=
  if Nq =? 0 then Exc else
  do mids <- T_lab_midpoints Nq q Eb (repeat 0%R Nq);
  do m <- mark_pairs Nq mids inputs (repeat false (Nq - 1));
  do b <- mark_bins Nq m (repeat false Nq);
  do v <- bin_list Nq b;
  (* l.90-98: computed again from the boundaries *)
  do T <- ofold (fun l i => do ql <- aread q i; do qu <- aread q (i + 1); Ok (l ++ [mid_T_lab Eb ql qu])) v [];
  let qs := map (fun t => lab_energy_to_com_momentum t Eb) T in
  let Es := map com_q_momentum_to_com_energy qs in
  do idx <- ofold (fun l x => do r <- find_bin Nq q x; match r with Some i => Ok (l ++ [i]) | None => Err end) qs [];
  Ok (mkos v T qs Es idx).

(* ---------- breakup: l.131-338 ---------- *)
(* kinetic_conversion.cpp l.16-19 *)
Definition mu1_free : R := (Mn * (Mp + Mn) / (Mn + (Mp + Mn)))%R.
Definition E_free (x : R) : R := (0.5 * (x * x) / mu1_free)%R.

(* l.243-318: neighbours of an on-shell cell, as (q index, p index), in the order pushed *)
Definition square (plo phi qlo qhi p q : Z) : list (Z * Z) :=
  flat_map (fun pi => flat_map (fun qj => if (negb (pi =? p) || negb (qj =? q))%Z then [(qj, pi)] else [])
                        (for_range qlo (qhi + 1) 1)) (for_range plo (phi + 1) 1).
Definition neighbours (E Ep_lower Ep_upper Eq_lower Eq_upper : R) (p q : Z) : list (Z * Z) :=
  let Ep := (0.5 * (Ep_upper + Ep_lower))%R in
  let Eq := (0.5 * (Eq_upper + Eq_lower))%R in
  if Rleb (Eq + Ep) E && Rleb E (Ep_upper + Eq_upper) then square p (p + 1) q (q + 1) p q
  else if Rleb (Eq + Ep_lower) E && Rleb E (Ep + Eq_upper) then square (p - 1) p q (q + 1) p q
  else if Rleb (Ep_lower + Eq_lower) E && Rleb E (Eq + Ep) then square (p - 1) p (q - 1) q p q
  else if Rleb (Eq_lower + Ep) E && Rleb E (Ep_upper + Eq) then square p (p + 1) (q - 1) q p q
  else [].

(* l.224-320: one cell; pushed triples (alpha, q, p) *)
Definition cell_triples (E : R) (a : nat) (iq ip : nat) (Ep_lower Ep_upper Eq_lower Eq_upper : R) : list (Z * Z * Z) :=
  if Rleb (Ep_lower + Eq_lower) E && Rleb E (Ep_upper + Eq_upper) && Rleb 0 Ep_lower && Rleb 0 Ep_upper then
    (zn a, zn iq, zn ip)
      :: map (fun qp => (zn a, fst qp, snd qp)) (neighbours E Ep_lower Ep_upper Eq_lower Eq_upper (zn ip) (zn iq))
  else [].

(* l.156-323: one energy.  e_block (ResolventModel.v) is the same pointer selection, l.164-205 *)
Definition breakup_energy (tensor iso : bool) (Np Nq : nat) (e_unco e_coup q : list R) (states : list pw) (E : R)
  : outcome (list (Z * Z * Z)) :=
  ofold (fun acc sa =>
      do '(coup, off) <- e_block tensor iso (zn Np) (snd sa);
      let e := if coup then e_coup else e_unco in
      ofold (fun acc iq =>
          do ql <- aread q iq; do qu <- aread q (iq + 1);
          ofold (fun acc ip =>
              do el <- zread e (off + zn ip); do eu <- zread e (off + zn ip + 1);
              Ok (acc ++ cell_triples E (fst sa) iq ip el eu (E_free ql) (E_free qu)))
            (seq 0 Np) acc)
        (seq 0 Nq) acc)
    (combine (seq 0 (length states)) states) [].

(* l.131-338: all energies; returns alphapq_idx_array (as triples) and q_com_BU_idx_array *)
Definition breakup_cells (tensor iso : bool) (Np Nq : nat) (e_unco e_coup q : list R) (states : list pw) (Eb : R)
  (E_coms : list R) : outcome (list (Z * Z * Z) * list nat) :=
  ofold (fun st E =>
      let '(acc, ends) := st in
      if Rltb (E + Eb) 0 then Ok (acc, ends ++ [length acc]) else
      do new <- breakup_energy tensor iso Np Nq e_unco e_coup q states E;
      match new with
      | [] => Err                       (* l.329-332 *)
      | _ => Ok (acc ++ new, ends ++ [length (acc ++ new)])
      end)
    E_coms ([], [0]).

Definition find_on_shell_bins (tensor iso breakup : bool) (Np Nq : nat) (e_unco e_coup q : list R) (states : list pw)
  (Eb : R) (inputs : list R) : outcome (on_shell * option (list (Z * Z * Z) * list nat)) :=
  do os <- elastic_bins Nq q Eb inputs;
  if breakup then
    do bu <- breakup_cells tensor iso Np Nq e_unco e_coup q states Eb (os_E os);
    Ok (os, Some bu)
  else Ok (os, None).
