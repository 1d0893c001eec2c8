(* Geometric function of the permutation operator: make_permutation_matrix.cpp l.340-606 (tables),
   l.92-140 (calculate_Gtilde_subarray_polar), auxiliary.cpp l.127-158, l.863-884, l.950-1067, over R.
   The GSL special functions are parameters: 3j, 6j, 9j symbols (doubled arguments) and the block of normalised
   associated Legendre functions written by gsl_sf_legendre_array_e(GSL_SF_LEGENDRE_SPHARM, lmax, x, -1, .). *)
From Coq Require Import Reals.
From Verif Require Import Common ArrayLib PWModel SwpModel PermModel KernelModel.
Open Scope Z_scope.

(* for (int x = lo; x <= hi; x++) *)
Definition upto (lo hi : Z) : list Z := for_range lo (hi + 1) 1.
(* gsl_sf_pow_int(-1, n), also for negative n *)
Definition sgn (n : Z) : R := powerRZ (-1) n.
(* value of an int expression whose mathematical value is z, with wrap-around *)
Definition i32 (z : Z) : Z := (z + 2 ^ 31) mod 2 ^ 32 - 2 ^ 31.

(* make_permutation_matrix.cpp l.369-389 *)
Definition max_of (f : pw -> Z) (l : list pw) : Z := fold_left (fun m s => if m <? f s then f s else m) l 0.
Definition max_L12 (l : list pw) : Z := max_of L_2N l.
Definition max_l3 (l : list pw) : Z := max_of L_1N l.
Definition geo_lmax (l : list pw) : Z := Z.max (max_l3 l) (max_L12 l) + 3.
Definition geo_Lmax (l : list pw) : Z := max_L12 l + max_l3 l.

Section Geo.
Variable sixj : Z -> Z -> Z -> Z -> Z -> Z -> R.
Variable ninej : Z -> Z -> Z -> Z -> Z -> Z -> Z -> Z -> Z -> R.
Variable threej : Z -> Z -> Z -> Z -> Z -> Z -> R.
Variable legblock : Z -> R -> list R.
Variable legsize : Z -> Z.      (* gsl_sf_legendre_array_n *)

(* ---------- 6j table, l.411-441 ---------- *)
(* The size is an int; a product beyond the int range wraps.  If the wrapped value is negative the run stops;
   if it is not the mathematical size the fill loop leaves the allocated array: UB. *)
Definition sixj_size (two_jmax : Z) : outcome Z :=
  let n := two_jmax + 1 in
  let size := i32 (n * n * n * n * n * n) in
  if size <? 0 then Err else if size =? n * n * n * n * n * n then Ok size else UB.
Definition sixj_idx (two_jmax a b c d e f : Z) : Z :=
  let n := two_jmax + 1 in
  a * n * n * n * n * n + b * n * n * n * n + c * n * n * n + d * n * n + e * n + f.
(* Simplification: the omp collapse(3) iterations write different elements and are run in order. *)
Definition sixj_table (two_jmax : Z) (tab : list R) : outcome (list R) :=
  let r := upto 0 two_jmax in
  ofold (fun t a => ofold (fun t b => ofold (fun t c => ofold (fun t d => ofold (fun t e => ofold (fun t f =>
    zwrite t (sixj_idx two_jmax a b c d e f) (sixj a b c d e f)) r t) r t) r t) r t) r t) r tab.
(* SixJSymbol, auxiliary.cpp l.150-158 *)
Definition sixj_read (tab : list R) (two_jmax a b c d e f : Z) : outcome R := zread tab (sixj_idx two_jmax a b c d e f).

(* ---------- Atilde, auxiliary.cpp l.863-884; a = alpha, a' = alphaprime ---------- *)
Definition atilde (tab : list R) (two_jmax : Z) (a a' : pw) (L two_J two_T : Z) : outcome R :=
  ofold (fun ret two_S =>
    do s1 <- sixj_read tab two_jmax 1 1 (2 * S_2N a) 1 two_S (2 * S_2N a');
    do s2 <- sixj_read tab two_jmax 1 1 (2 * T_2N a) 1 two_T (2 * T_2N a');
    Ok (ret + sqrt (IZR ((2 * J_2N a + 1) * (two_J_1N a + 1) * (2 * S_2N a + 1) * (2 * T_2N a + 1)
                    * (2 * J_2N a' + 1) * (two_J_1N a' + 1) * (2 * S_2N a' + 1) * (2 * T_2N a' + 1)))
              * sgn (S_2N a' + T_2N a') * IZR (two_S + 1)
              * ninej (2 * L_2N a) (2 * S_2N a) (2 * J_2N a) (2 * L_1N a) 1 (two_J_1N a) (2 * L) two_S two_J
              * ninej (2 * L_2N a') (2 * S_2N a') (2 * J_2N a') (2 * L_1N a') 1 (two_J_1N a') (2 * L) two_S two_J
              * s1 * s2)%R) [1; 3] 0%R.
(* Atilde_store, l.446-466 *)
Definition atilde_base (N Lmax a a' : Z) : Z := a * N * (Lmax + 1) + a' * (Lmax + 1).
Definition atilde_store (tab : list R) (two_jmax : Z) (states : list pw) (two_J Lmax : Z) : outcome (list R) :=
  let N := zn (length states) in
  ofold (fun st a => do sa <- zread states a;
    ofold (fun st a' => do sa' <- zread states a';
      if two_T_3N sa =? two_T_3N sa' then
        ofold (fun st L => do v <- atilde tab two_jmax sa sa' L two_J (two_T_3N sa);
                 zwrite st (atilde_base N Lmax a a' + L) v) (upto 0 Lmax) st
      else Ok st) (upto 0 (N - 1)) st) (upto 0 (N - 1)) (repeat 0%R (Z.to_nat (N * N * (Lmax + 1)))).

(* ---------- Clebsch-Gordan table ---------- *)
(* ClebschGordan, auxiliary.cpp l.127-135 (the test of m1 is repeated there, m3 is not tested) *)
Definition cg_fun (j1 j2 j3 m1 m2 m3 : Z) : R :=
  if (Z.abs m1 <=? j1) && (Z.abs m2 <=? j2) && (Z.abs m1 <=? j1)
  then (sgn ((j1 - j2 + m3) ÷ 2) * sqrt (IZR (j3 + 1)) * threej j1 j2 j3 m1 m2 (- m3))%R else 0%R.
(* index used by l.483-489 and ClebschGordan_array, auxiliary.cpp l.137-141 *)
Definition cg_idx (jm j1 j2 j3 m1 m2 : Z) : Z :=
  ((j1 + 1) * (j1 + 1) + m1 - j1 - 1) * (jm + 1) * (jm + 1) * (2 * jm + 1)
  + ((j2 + 1) * (j2 + 1) + m2 - j2 - 1) * (2 * jm + 1) + j3.
Definition cg_size (jm : Z) : Z := (jm + 1) * (jm + 1) * (jm + 1) * (jm + 1) * (2 * jm + 1).
Definition cg_table (jm : Z) (tab : list R) : outcome (list R) :=
  ofold (fun t j1 => ofold (fun t j2 => ofold (fun t j3 => ofold (fun t m1 => ofold (fun t m2 =>
    zwrite t (cg_idx jm j1 j2 j3 m1 m2) (cg_fun j1 j2 j3 m1 m2 (m1 + m2))) (upto (- j2) j2) t)
    (upto (- j1) j1) t) (upto 0 (2 * jm)) t) (upto 0 jm) t) (upto 0 jm) tab.
Definition cg_read (tab : list R) (jm j1 j2 j3 m1 m2 : Z) : outcome R := zread tab (cg_idx jm j1 j2 j3 m1 m2).

(* ---------- Legendre blocks, l.513-585 ---------- *)
(* gsl_sf_legendre_array_index *)
Definition leg_idx (l m : Z) : Z := l * (l + 1) / 2 + m.
Definition plm1_array (max_l3 : Z) (xs tab : list R) : outcome (list R) :=
  ofold (fun t i => do x <- aread xs i;
    ablit t (i * Z.to_nat (legsize max_l3)) (legblock max_l3 x)) (seq 0 (length xs)) tab.
Definition cell_dir (Np Nphi Nx qp pp j i : nat) : nat :=
  (qp * Np * Nphi * Nx + pp * Nphi * Nx + j * Nx + i)%nat.
Definition plm23_arrays (max_L max_l : Z) (Np Nq Nphi : nat) (sin_a cos_a xs : list R) (tabs : list R * list R)
  : outcome (list R * list R) :=
  ofold (fun ts qp => ofold (fun ts pp => ofold (fun ts j => ofold (fun ts i =>
    do x <- aread xs i;
    do p <- aread sin_a ((qp * Np + pp) * Nphi + j)%nat;
    do q <- aread cos_a ((qp * Np + pp) * Nphi + j)%nat;
    do t2 <- ablit (fst ts) (cell_dir Np Nphi (length xs) qp pp j i * Z.to_nat (legsize max_L)) (legblock max_L (costheta1 p q x));
    do t3 <- ablit (snd ts) (cell_dir Np Nphi (length xs) qp pp j i * Z.to_nat (legsize max_l)) (legblock max_l (costheta2 p q x));
    Ok (t2, t3)) (seq 0 (length xs)) ts) (seq 0 Nphi) ts) (seq 0 Np) ts) (seq 0 Nq) tabs.

(* ---------- Gtilde_subarray_new, auxiliary.cpp l.950-1067 ---------- *)
(* Plm for either sign of m from the block of |m|; C's m%2 *)
Definition plm_read (tab : list R) (base l m : Z) : outcome R :=
  do v <- zread tab (base + leg_idx l (Z.abs m));
  Ok (if (m <? 0) && (Z.rem m 2 =? -1) then v * -1 else v)%R.
(* [bA], [b1], [b2], [b3]: offsets of the sub-array pointers.  The momenta p, q, x and the cosines computed at
   l.975-998 are not used by the rest of the function and left out. *)
Definition gtilde (A cg P1 P2 P3 : list R) (jm bA b1 b2 b3 : Z) (L12 L12' l3 l3' two_J : Z) : outcome R :=
  do ret <- ofold (fun ret L =>
      do a <- zread A (bA + L);
      let fac1 := (8 * PI * PI * a)%R in
      if Req_EM_T fac1 0 then Ok ret else
      ofold (fun ret M =>
        do p1 <- plm_read P1 b1 l3 M;
        do c1 <- cg_read cg jm (2 * L12) (2 * l3) (2 * L) 0 (2 * M);
        let fac2 := (c1 * sgn M * p1)%R in
        if Req_EM_T fac2 0 then Ok ret else
        ofold (fun ret M' =>
          if Z.abs (M - M') <=? l3' then
            do p2 <- plm_read P2 b2 L12' M';
            do p3 <- plm_read P3 b3 l3' (M - M');
            do c2 <- cg_read cg jm (2 * L12') (2 * l3') (2 * L) (2 * M') (2 * M - 2 * M');
            Ok (ret + fac1 * fac2 * c2 * p2 * p3)%R
          else Ok ret) (upto (- L12') L12') ret) (upto (- Z.min l3 L) (Z.min l3 L)) ret)
    (upto (Z.max (Z.abs (L12 - l3)) (Z.abs (L12' - l3'))) (Z.min ((two_J + 5) / 2) (Z.min (L12 + l3) (L12' + l3')))) 0%R;
  Ok (ret * sqrt ((2 * IZR L12 + 1) / (4 * PI)))%R.

(* ---------- the tables of one channel ---------- *)
Record gtabs := mkgtabs { g_A : list R; g_cg : list R; g_P1 : list R; g_P2 : list R; g_P3 : list R }.
(* uninitialised contents of the allocated arrays *)
Record gjunk := mkgjunk { k_six : list R; k_cg : list R; k_P1 : list R; k_P2 : list R; k_P3 : list R }.
(* sizes of the arrays allocated at l.417, l.475-477, l.535-537 *)
Definition allocated (states : list pw) (Np Nq Nphi Nx : nat) (k : gjunk) : Prop :=
  sixj_size (2 * geo_lmax states) = Ok (zn (length (k_six k))) /\
  zn (length (k_cg k)) = cg_size (2 * geo_lmax states) /\
  length (k_P1 k) = (Z.to_nat (legsize (max_l3 states)) * Nx)%nat /\
  length (k_P2 k) = (Z.to_nat (legsize (max_L12 states)) * Np * Nq * Nphi * Nx)%nat /\
  length (k_P3 k) = (Z.to_nat (legsize (max_l3 states)) * Np * Nq * Nphi * Nx)%nat.
Definition geo_tables (states : list pw) (Np Nq Nphi : nat) (phi xs : list R) (k : gjunk) : outcome gtabs :=
  let two_jmax := 2 * geo_lmax states in
  do s0 <- aread states 0;
  do _ <- sixj_size two_jmax;
  do six <- sixj_table two_jmax (k_six k);
  do A <- atilde_store six two_jmax states (two_J_3N s0) (geo_Lmax states);
  do cg <- cg_table two_jmax (k_cg k);
  do P1 <- plm1_array (max_l3 states) xs (k_P1 k);
  do P23 <- plm23_arrays (max_L12 states) (max_l3 states) Np Nq Nphi (map sin phi) (map cos phi) xs (k_P2 k, k_P3 k);
  Ok (mkgtabs A cg P1 (fst P23) (snd P23)).

(* calculate_Gtilde_subarray_polar, make_permutation_matrix.cpp l.92-140, as called at l.772-790: row state ap
   ("unprimed" in the geometric function), column state a ("primed"), bra cell (qp, pp) *)
Definition gtilde_subarray (states : list pw) (t : gtabs) (Np Nphi : nat) (xs : list R) (qp pp : nat) (ap a : Z)
    (out : list R) : outcome (list R) :=
  let N := zn (length states) in
  let Nx := length xs in
  do s0 <- aread states 0; do r <- zread states ap; do c <- zread states a;
  ofold (fun out j => ofold (fun out i =>
      do v <- gtilde (g_A t) (g_cg t) (g_P1 t) (g_P2 t) (g_P3 t) (2 * geo_lmax states)
                (atilde_base N (geo_Lmax states) ap a)
                (zn i * legsize (max_l3 states))
                (zn (cell_dir Np Nphi Nx qp pp j i) * legsize (max_L12 states))
                (zn (cell_dir Np Nphi Nx qp pp j i) * legsize (max_l3 states))
                (L_2N r) (L_2N c) (L_1N r) (L_1N c) (two_J_3N s0);
      awrite out (j * Nx + i) v) (seq 0 Nx) out) (seq 0 Nphi) out.
End Geo.
