(* Momentum grids: make_wp_states.cpp, General_functions/gauss_legendre.cpp (updateRange_a_b),
   disk_io_routines.cpp (read_WP_boundaries_from_txt), over R. *)
From Coq Require Import Reals String.
From Verif Require Import Common ArrayLib SwpModel.
Open Scope nat_scope.

(* make_chebyshev_distribution l.26-44.  pow(x,t) with x>0 is Rpower; M_PI is PI. *)
Definition cheb_value (N : nat) (scale t : R) (i : nat) : R :=
  (scale * Rpower (tan ((2 * INR i - 1) * PI / (4 * INR N))) t)%R.
Definition make_chebyshev (N : nat) (b : list R) (scale t : R) : outcome (list R) :=
  do b <- ofold (fun b i => awrite b i (cheb_value N scale t i)) (seq 1 N) b;
  awrite b 0 0%R.

Section Files.
(* [lines f]: the lines std::getline delivers from file f (none if it cannot be opened);
   [parse l]: result of  istringstream(l) >> val. *)
Variable lines : string -> list string.
Variable parse : string -> option R.

(* read_WP_boundaries_from_txt l.977-994 *)
Definition read_boundaries (b : list R) (N : nat) (file : string) : outcome (list R) :=
  do '(b, k) <- ofold (fun '(b, k) l =>
                   match parse l with
                   | None => Err
                   | Some v => do b <- awrite b k v; Ok (b, k + 1)
                   end) (lines file) (b, 0);
  if k =? N + 1 then Ok b else Err.

(* the run_params members used *)
Record grid_params := {
  gp_Np : nat; gp_Nq : nat; gp_Np_per : nat; gp_Nq_per : nat;
  gp_s : R; gp_t : R;
  gp_p_type : string; gp_p_file : string; gp_q_type : string; gp_q_file : string;
  gp_midpoint : bool }.

(* make_p_bin_grid l.46-60 *)
Definition p_bin_grid (g : grid_params) (b : list R) : outcome (list R) :=
  if String.eqb (gp_p_type g) "chebyshev" then make_chebyshev (gp_Np g) b (gp_s g) (gp_t g)
  else if String.eqb (gp_p_type g) "custom" then read_boundaries b (gp_Np g) (gp_p_file g)
  else Err.
(* make_q_bin_grid l.61-75: the second test is on the p grid type, as in the code *)
Definition q_bin_grid (g : grid_params) (b : list R) : outcome (list R) :=
  if String.eqb (gp_q_type g) "chebyshev" then make_chebyshev (gp_Nq g) b (gp_s g) (gp_t g)
  else if String.eqb (gp_p_type g) "custom" then read_boundaries b (gp_Nq g) (gp_q_file g)
  else Err.

(* gauss(x, w, N): nodes and weights on (-1,1); here any rule of n nodes (see GaussModel.v for the routine). *)
Variable gauss_x gauss_w : nat -> list R.

(* store a list at an offset *)
Definition store (a : list R) (off : nat) (v : list R) : outcome (list R) :=
  ofold (fun a iv => awrite a (off + fst iv) (snd iv)) (combine (seq 0 (length v)) v) a.

(* gauss_legendre.cpp updateRange_a_b l.92-97 on x[off..off+n), w[off..off+n) *)
Definition update_range (xw : list R * list R) (off : nat) (a b : R) (n : nat) : outcome (list R * list R) :=
  ofold (fun '(x, w) i =>
      do xi <- aread x (off + i); do x <- awrite x (off + i) (0.5 * (b - a) * xi + 0.5 * (b + a))%R;
      do wi <- aread w (off + i); do w <- awrite w (off + i) (0.5 * (b - a) * wi)%R;
      Ok (x, w)) (seq 0 n) xw.

(* make_p_bin_quadrature_grids / make_q_bin_quadrature_grids l.77-114: the rule is recomputed n times per bin *)
Definition quadrature_grids (N n : nat) (bounds : list R) (xw : list R * list R) : outcome (list R * list R) :=
  ofold (fun xw k =>
      do lo <- aread bounds k; do hi <- aread bounds (k + 1);
      ofold (fun xw _ =>
          do x <- store (fst xw) (k * n) (gauss_x n);
          do w <- store (snd xw) (k * n) (gauss_w n);
          update_range (x, w) (k * n) lo hi n) (seq 0 n) xw) (seq 0 N) xw.

(* l.3-24 *)
Definition normalization (p0 p1 : R) : R := sqrt (p1 - p0).
Definition weight_function (p : R) : R := 1%R.

(* l.148-162 *)
Definition midpoints (N : nat) (bounds a : list R) : outcome (list R) :=
  ofold (fun a i => do lo <- aread bounds i; do hi <- aread bounds (i + 1); awrite a i (0.5 * (lo + hi))%R) (seq 0 N) a.
(* l.194-205 *)
Definition norms (N : nat) (bounds a : list R) : outcome (list R) :=
  ofold (fun a i => do lo <- aread bounds i; do hi <- aread bounds (i + 1); awrite a i (normalization lo hi)) (seq 0 N) a.
(* l.180-191 *)
Definition weights (N : nat) (x a : list R) : outcome (list R) :=
  ofold (fun a i => do xi <- aread x i; awrite a i (weight_function xi)) (seq 0 N) a.

Record fwp := { f_pWP : list R; f_qWP : list R; f_p : list R; f_wp : option (list R); f_q : list R; f_wq : option (list R);
                f_fp : list R; f_fq : list R; f_np : list R; f_nq : list R }.

(* make_fwp_statespace l.116-216.  [new double[n]] has arbitrary contents: [junk n].
   Writing the q boundaries to a CSV file (l.208-212) is not part of this model. *)
Variable junk : nat -> list R.
Definition make_fwp (g : grid_params) : outcome fwp :=
  let Np := if gp_midpoint g then gp_Np g else gp_Np_per g * gp_Np g in
  let Nq := if gp_midpoint g then gp_Nq g else gp_Nq_per g * gp_Nq g in
  do pWP <- p_bin_grid g (junk (gp_Np g + 1));
  do qWP <- q_bin_grid g (junk (gp_Nq g + 1));
  do '(p, wp, q, wq) <-
    (if gp_midpoint g then
       do p <- midpoints Np pWP (junk Np);
       do q <- midpoints Nq qWP (junk Nq);
       Ok (p, None, q, None)
     else
       do '(p, wp) <- quadrature_grids (gp_Np g) (gp_Np_per g) pWP (junk Np, junk Np);
       do '(q, wq) <- quadrature_grids (gp_Nq g) (gp_Nq_per g) qWP (junk Nq, junk Nq);
       Ok (p, Some wp, q, Some wq));
  do fp <- weights Np p (junk Np);
  do fq <- weights Nq q (junk Nq);
  do np <- norms (gp_Np g) pWP (junk (gp_Np g));
  do nq <- norms (gp_Nq g) qWP (junk (gp_Nq g));
  Ok {| f_pWP := pWP; f_qWP := qWP; f_p := p; f_wp := wp; f_q := q; f_wq := wq; f_fp := fp; f_fq := fq; f_np := np; f_nq := nq |}.
End Files.

(* General_functions/kinetic_conversion.cpp l.4-54; the constants of constants.h l.19-22 are those of SwpModel.v *)
Open Scope R_scope.
Definition deuteron_mass (Eb : R) : R := Mn + Mp + Eb.                                  (* l.5-7 *)
Definition kin_mu1 (Eb : R) : R := let Md := deuteron_mass Eb in Mn * Md / (Mn + Md).   (* l.10-13 *)
Definition com_momentum_to_lab_energy (q Eb : R) : R :=                                 (* l.22-30 *)
  let Md := deuteron_mass Eb in
  let b := 2 * (Mp - q * q / Md) in
  let c := - q * q * (Mp + Md) * (Mp + Md) / (Md * Md) in
  0.5 * (- b + sqrt (b * b - 4 * c)).
Definition lab_energy_to_com_momentum (T Eb : R) : R :=                                 (* l.33-36 *)
  let Md := deuteron_mass Eb in
  sqrt (Md * Md * T * (T + 2 * Mp) / ((Mp + Md) * (Mp + Md) + 2 * T * Md)).
Definition com_energy_to_com_q_momentum (E : R) : R := sqrt (4 * E * MN / 3).           (* l.39-41 *)
Definition com_q_momentum_to_com_energy (q : R) : R := 3 * q * q / (4 * MN).            (* l.44-46 *)
Definition com_energy_to_com_p_momentum (Ep : R) : R := sqrt (2 * Ep * mu23).           (* l.49-51 *)
Definition com_p_momentum_to_com_energy (p : R) : R := p * p / (2 * mu23).              (* l.52-54 *)
