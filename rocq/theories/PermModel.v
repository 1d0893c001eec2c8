(* Momentum kinematics and wave-packet overlap of the permutation operator:
   auxiliary.cpp (pi1_tilde, pi2_tilde, calc_gauss_points, calculate_P123_element_in_WP_basis_mod) and
   make_permutation_matrix.cpp (calculate_WP_overlap, recoupling angles), over R. *)
From Coq Require Import Reals.
From Verif Require Import Common ArrayLib SwpModel GridModel.
Open Scope R_scope.

(* auxiliary.cpp l.453-462 *)
Definition pi1_rad (p q x : R) : R := 0.25 * p * p + 9.0 / 16.0 * q * q + 0.75 * p * q * x.
Definition pi2_rad (p q x : R) : R := p * p + 0.25 * q * q - p * q * x.
Definition pi1_tilde (p q x : R) : R := sqrt (pi1_rad p q x).
Definition pi2_tilde (p q x : R) : R := sqrt (pi2_rad p q x).

(* make_permutation_matrix.cpp l.557-576: the cosines before and after clamping *)
Definition costheta1_raw (p q x : R) : R := - (0.5 * p + 0.75 * q * x) / pi1_tilde p q x.
Definition costheta2_raw (p q x : R) : R := (p - 0.5 * q * x) / pi2_tilde p q x.
Definition clamp (c : R) : R := if Rltb 1 c then 1 else if Rltb c (-1) then -1 else c.
Definition costheta1 (p q x : R) : R := clamp (costheta1_raw p q x).
Definition costheta2 (p q x : R) : R := clamp (costheta2_raw p q x).

(* std::max(a,b) = (a<b)?b:a,  std::min(a,b) = (b<a)?b:a *)
Definition std_max (a b : R) : R := if Rltb a b then b else a.
Definition std_min (a b : R) : R := if Rltb b a then b else a.
(* *std::max_element / *std::min_element of a non-empty array: first largest / first smallest *)
Definition max_element (h : R) (t : list R) : R := fold_left (fun m x => if Rltb m x then x else m) t h.
Definition min_element (h : R) (t : list R) : R := fold_left (fun m x => if Rltb x m then x else m) t h.

(* atan(a/b) for a>0, b>=0 in IEEE arithmetic: a/0 is +inf and atan(+inf) is pi/2 *)
Definition atan_ratio (a b : R) : R := if Req_EM_T b 0 then PI / 2 else atan (a / b).

Section Overlap.
(* roots(qtemp, Nphi) and dLegendre(., Nphi): any nodes, any derivative values *)
Variable roots : list R.
Variable dleg : R -> R.
Definition Nphi : nat := length roots.

(* calc_gauss_points, auxiliary.cpp l.77-89, on &q_par[off], &w_par[off] *)
Definition gp_node (lo hi t : R) : R := (hi - lo) * (t + 1) / 2.0 + lo.
Definition gp_weight (lo hi t : R) : R := 2.0 / (1 - t * t) * 1.0 / (dleg t * dleg t) * (hi - lo) / 2.0.
Definition calc_gauss_points (off : nat) (lo hi : R) (xw : list R * list R) : outcome (list R * list R) :=
  ofold (fun '(x, w) j =>
      do t <- aread roots j;
      do w <- awrite w (off + j) (gp_weight lo hi t);
      do x <- awrite x (off + j) (gp_node lo hi t);
      Ok (x, w)) (seq 0 Nphi) xw.

(* make_permutation_matrix.cpp l.203-228: one direction (phi, x) has an admissible k-interval *)
Definition direction_hit (pp_l pp_u qp_l qp_u p_l p_u q_l q_u phi x : R) : bool :=
  let s := sin phi in let c := cos phi in
  let kmin := std_max (pp_l / s) (qp_l / c) in
  let kmax := std_min (pp_u / s) (qp_u / c) in
  if Rltb kmin kmax then
    let z1 := pi1_tilde s c x in let z2 := pi2_tilde s c x in
    let hl := std_max (p_l / z1) (q_l / z2) in
    let hu := std_min (p_u / z1) (q_u / z2) in
    if Rltb hl hu then Rltb (std_max kmin hl) (std_min kmax hu) else false
  else false.
(* l.190-239: the two search loops with their breaks *)
Definition cell_overlap (phi_lower phi_upper pp_l pp_u qp_l qp_u p_l p_u q_l q_u : R) (phis xs : list R) : bool :=
  if Rltb phi_lower phi_upper
  then existsb (fun phi => existsb (fun x => direction_hit pp_l pp_u qp_l qp_u p_l p_u q_l q_u phi x) xs) phis
  else false.

(* a[off], ..., a[off+n-1] *)
Definition slice (a : list R) (off n : nat) : list R := firstn n (skipn off a).

(* l.242-250 and l.814-822 (the read), the same expression *)
Definition pq_idx (Np Nq qp pp q p : nat) : nat := qp * (Np * Nq * Np) + pp * (Nq * Np) + q * Np + p.

(* calculate_WP_overlap l.160-256 (the else branch of `if (true)` is dead code).  The omp-parallel qp iterations
   write disjoint parts; they are run here in order. *)
Definition calculate_WP_overlap (Np Nq : nat) (pb qb xs : list R) (st : list R * list R * list bool)
  : outcome (list R * list R * list bool) :=
  ofold (fun st qp =>
    do qp_l <- aread qb qp; do qp_u <- aread qb (qp + 1)%nat;
    ofold (fun '(phi, wphi, tab) pp =>
      do pp_l <- aread pb pp; do pp_u <- aread pb (pp + 1)%nat;
      let phi_lower := atan_ratio pp_l qp_u in
      let phi_upper := atan_ratio pp_u qp_l in
      do '(phi, wphi) <- calc_gauss_points ((qp * Np + pp) * Nphi) phi_lower phi_upper (phi, wphi);
      do tab <- ofold (fun tab q =>
        do q_l <- aread qb q; do q_u <- aread qb (q + 1)%nat;
        ofold (fun tab p =>
          do p_l <- aread pb p; do p_u <- aread pb (p + 1)%nat;
          awrite tab (pq_idx Np Nq qp pp q p)
            (cell_overlap phi_lower phi_upper pp_l pp_u qp_l qp_u p_l p_u q_l q_u
               (slice phi ((qp * Np + pp) * Nphi) Nphi) xs)) (seq 0 Np) tab) (seq 0 Nq) tab;
      Ok (phi, wphi, tab)) (seq 0 Np) st) (seq 0 Nq) st.

(* auxiliary.cpp l.699-737: contribution of one quadrature point; 0 when skipped *)
Definition element_term (pp_l pp_u qp_l qp_u p_l p_u q_l q_u x wx s c wphi G : R) : R :=
  let z1 := pi1_tilde s c x in let z2 := pi2_tilde s c x in
  let kmin := max_element (pp_l / s) [qp_l / c; p_l / z1; q_l / z2] in
  let kmax := min_element (pp_u / s) [qp_u / c; p_u / z1; q_u / z2] in
  if Rltb kmax kmin then 0
  else wx * wphi * c * s * G * (kmax * kmax - kmin * kmin) / (2 * z1 * z2).

(* calculate_P123_element_in_WP_basis_mod, auxiliary.cpp l.660-746.  [sin_s], [cos_s], [w_s] are the Nphi entries at
   the sub-array pointers passed, G the Gtilde sub-array. *)
Definition P123_element (G : list R) (p q pp qp : nat) (pb qb : list R) (xs wxs sin_s cos_s w_s : list R) : outcome R :=
  do p_l <- aread pb p; do p_u <- aread pb (p + 1)%nat;
  do q_l <- aread qb q; do q_u <- aread qb (q + 1)%nat;
  do pp_l <- aread pb pp; do pp_u <- aread pb (pp + 1)%nat;
  do qp_l <- aread qb qp; do qp_u <- aread qb (qp + 1)%nat;
  do sum <- ofold (fun acc xi =>
      do x <- aread xs xi; do wx <- aread wxs xi;
      ofold (fun acc j =>
        do s <- aread sin_s j; do c <- aread cos_s j; do w <- aread w_s j;
        do g <- aread G (j * length xs + xi)%nat;
        Ok (acc + element_term pp_l pp_u qp_l qp_u p_l p_u q_l q_u x wx s c w g)) (seq 0 Nphi) acc)
    (seq 0 (length xs)) 0;
  Ok (sum / (normalization q_l q_u * normalization p_l p_u * normalization qp_l qp_u * normalization pp_l pp_u)).
End Overlap.
