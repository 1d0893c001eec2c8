(* make_resolvent.cpp over R.  A cdouble is a pair (real part, imaginary part).
   log of |0| and division by 0 are not distinguished from ordinary values (Coq's ln 0 and /0 are arbitrary reals);
   the theorems about real parts exclude those points. *)
From Coq Require Import Reals.
From Verif Require Import Common ArrayLib PWModel SwpModel.
Open Scope R_scope.

Definition cdouble := (R * R)%type.

(* l.3-10 *)
Definition heaviside (x : R) : R := if Rltb x 0 then 0 else 1.

(* l.17 / l.45: local mu1 *)
Definition mu1 (Eb : R) : R := Mn * (Mn + Mp + Eb) / (Mn + Mn + Mp + Eb).
(* l.20-21 / l.48-49: bin boundary in energy *)
Definition Eq_of (Eb q : R) : R := q * q / (2 * mu1 Eb).

(* resolvent_bound_continuum l.13-36 *)
Definition resolvent_BC (E Eb q_upper q_lower : R) : cdouble :=
  let Eq_lower := Eq_of Eb q_lower in
  let Eq_upper := Eq_of Eb q_upper in
  let Dq := Eq_upper - Eq_lower in
  (ln (Rabs ((Eq_lower + Eb - E) / (Eq_upper + Eb - E))) / Dq,
   (heaviside (Eq_upper + Eb - E) - heaviside (Eq_lower + Eb - E)) * (- PI) / Dq).

(* resolvent_continuum_continuum l.39-80 *)
Definition resolvent_CC (E Eb q_upper q_lower e_upper e_lower : R) : cdouble :=
  let Eq_lower := Eq_of Eb q_lower in
  let Eq_upper := Eq_of Eb q_upper in
  let Ep := 0.5 * (e_lower + e_upper) in
  let Eq := 0.5 * (Eq_lower + Eq_upper) in
  let Dq := Eq_upper - Eq_lower in
  let Dp := e_upper - e_lower in
  let DM := 0.5 * (Dp - Dq) in
  let DP := 0.5 * (Dp + Dq) in
  let D := Ep + Eq - E in
  (((D + DM) * ln (Rabs (D + DM)) + (D - DM) * ln (Rabs (D - DM))
    - (D + DP) * ln (Rabs (D + DP)) - (D - DP) * ln (Rabs (D - DP))) / (Dp * Dq),
   ((D + DM) * heaviside (D + DM) + (D - DM) * heaviside (D - DM)
    - (D + DP) * heaviside (D + DP) - (D - DP) * heaviside (D - DP)) * PI / (Dp * Dq)).

(* l.167-196: the value of one cell *)
Definition cell_value (E q_lower q_upper e_lower e_upper : R) : cdouble :=
  if Rltb e_lower 0 then resolvent_BC E e_lower q_upper q_lower
  else resolvent_CC E 0 q_upper q_lower e_upper e_lower.

Open Scope Z_scope.
(* l.116-155: coupling flags and the offset of the energy boundaries, (coupled table?, offset) *)
Definition coupled_via_L_diag (tensor : bool) (s : pw) : bool :=
  tensor && negb (L_2N s =? J_2N s) && negb (J_2N s =? 0).
Definition e_block (tensor iso : bool) (Np : Z) (s : pw) : outcome (bool * Z) :=
  let viaL := coupled_via_L_diag tensor s in
  let viaT := coupled_via_T_3N iso s in
  if viaL && viaT then Err else
  if viaL || viaT then
    do i <- unique_2N_idx tensor iso true (L_2N s) (S_2N s) (J_2N s) (T_2N s);
    if viaL then Ok (true, i * 2 * (Np + 1) + (if L_2N s <? J_2N s then 0 else Np + 1))
    else Ok (true, i * 2 * (Np + 1) + (if two_T_3N s =? 1 then 0 else Np + 1))
  else
    do i <- unique_2N_idx tensor iso false (L_2N s) (S_2N s) (J_2N s) (T_2N s);
    Ok (false, i * (Np + 1)).

(* calculate_resolvent_array_in_SWP_basis l.82-210, writing at G[base..] (main.cpp l.384-391: base = j*dense_dim).
   int indices, no overflow. *)
Definition resolvent_state (tensor iso : bool) (Np Nq : nat) (e_unco e_coup q : list R) (E : R) (base : nat)
  (G : list cdouble) (a : nat) (s : pw) : outcome (list cdouble) :=
  do '(coup, off) <- e_block tensor iso (zn Np) s;
  let e := if coup then e_coup else e_unco in
  ofold (fun G p =>
      do e_lower <- zread e (off + zn p); do e_upper <- zread e (off + zn p + 1);
      ofold (fun G iq =>
          do q_lower <- aread q iq; do q_upper <- aread q (iq + 1);
          awrite G (base + (a * Nq * Np + iq * Np + p)) (cell_value E q_lower q_upper e_lower e_upper))
        (seq 0 Nq) G)
    (seq 0 Np) G.
Definition resolvent_array (tensor iso : bool) (Np Nq : nat) (e_unco e_coup q : list R) (E : R) (base : nat)
  (states : list pw) (G : list cdouble) : outcome (list cdouble) :=
  ofold (fun G sa => resolvent_state tensor iso Np Nq e_unco e_coup q E base G (fst sa) (snd sa))
        (combine (seq 0 (length states)) states) G.

(* main.cpp l.381-392: one block per energy *)
Definition all_resolvents (tensor iso : bool) (Np Nq : nat) (e_unco e_coup q : list R) (states : list pw)
  (energies : list R) (G : list cdouble) : outcome (list cdouble) :=
  ofold (fun G je => resolvent_array tensor iso Np Nq e_unco e_coup q (snd je)
                       (fst je * (length states * Np * Nq)) states G)
        (combine (seq 0 (length energies)) energies) G.
