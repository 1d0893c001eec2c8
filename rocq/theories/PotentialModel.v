(* Two-nucleon potentials: make_potential_matrix.cpp, Interactions/{OPEP,chiral_LO_internal,malfliet_tjon}.cpp,
   General_functions/legendre.cpp.  double is idealised to R. *)
From Coq Require Import Reals.
From Verif Require Import Common ArrayLib PWModel SwpModel.
Open Scope Z_scope.

(* A potential model: qi qo coupled S J T Tz -> the six numbers Varray[0..5] (potential_model.h, virtual V).
   Simplification: V is a function of these arguments (no hidden state); the mesh indices i, j are not used by any
   model that main can select except through setup_store_matrices, whose call is commented out. *)
Definition potmodel := R -> R -> bool -> Z -> Z -> Z -> Z -> outcome (list R).

(* make_potential_matrix.cpp extract_potential_element_from_array l.4-48 *)
Definition extract (L Lp J S : Z) (coupled : bool) (V : list R) : outcome R :=
  if (J <? Z.abs (S - L)) || (S + L <? J) || (J <? Z.abs (S - Lp)) || (S + Lp <? J) then Err else
  if coupled then
    if (L =? Lp) && (L <? J) then aread V 2
    else if (L =? Lp) && (J <? L) then aread V 5
    else if L <? Lp then do v <- aread V 4; Ok (-1 * v)%R
    else do v <- aread V 3; Ok (-1 * v)%R
  else
    if L =? J + 1 then aread V 5
    else if L =? J - 1 then aread V 2
    else if S =? 0 then aread V 0
    else if (S =? 1) && (L =? J) then aread V 1
    else Ok 0%R.

(* Grid data handed to the routine (fwp_statespace). *)
Record vgrid := mkvgrid {
  vg_Np : nat; vg_Nper : nat; vg_pWP : list R; vg_p : list R; vg_w : list R; vg_f : list R; vg_norm : list R }.

(* make_potential_matrix.cpp l.138-158: isoscalar_type.  && binds tighter than || in C++ (l.149). *)
Definition state_1S0 (r : pw) : bool := (S_2N r =? 0) && (J_2N r =? 0) && (L_2N r =? 0).
Definition isoscalar_type (r c : pw) : outcome nat :=
  if state_1S0 r && (two_T_3N r =? 3) && (two_T_3N c =? 3) then Ok 2%nat
  else if (state_1S0 r && ((two_T_3N r =? 3) && (two_T_3N c =? 1)))
          || ((two_T_3N r =? 1) && (two_T_3N c =? 3)) then Ok 3%nat
  else if (T_2N r =? 0) && (two_T_3N r =? two_T_3N c) && (two_T_3N r =? 1) then Ok 0%nat
  else if (T_2N r =? 1) && (two_T_3N r =? two_T_3N c) && (two_T_3N r =? 1) then Ok 1%nat
  else Err.

(* make_potential_matrix.cpp l.162-174 *)
Definition coupled_model (r c : pw) : bool :=
  negb (L_2N r =? L_2N c) || ((L_2N r =? L_2N c) && negb (L_2N r =? J_2N r)).

Fixpoint map2 {A B C} (f : A -> B -> C) (a : list A) (b : list B) : list C :=
  match a, b with x :: a', y :: b' => f x y :: map2 f a' b' | _, _ => [] end.

(* The three ways to fill V_IS_elements (make_potential_matrix.cpp l.289-321 and l.359-390).  [junk] is the initial content of the
   stack array V_IS_elements (uninitialised): the third way leaves elements 0 and 1 unset. *)
Definition vis_np (pot : potmodel) (r c : pw) (p_in p_out : R) : outcome (list R) :=
  pot p_in p_out (coupled_model r c) (S_2N r) (J_2N r) (T_2N r) 0.
Definition vis_avg (pot : potmodel) (r c : pw) (p_in p_out : R) : outcome (list R) :=
  do nn <- pot p_in p_out (coupled_model r c) (S_2N r) (J_2N r) (T_2N r) (-1);
  do np <- pot p_in p_out (coupled_model r c) (S_2N r) (J_2N r) (T_2N r) 0;
  Ok (map2 (fun a b => (2 / 3) * a + (1 / 3) * b)%R nn np).
Definition vis_1S0 (pot : potmodel) (junk : R * R) (r c : pw) (p_in p_out : R) : outcome (list R) :=
  do nn <- pot p_in p_out (coupled_model r c) (S_2N r) (J_2N r) (T_2N r) (-1);
  do np <- pot p_in p_out (coupled_model r c) (S_2N r) (J_2N r) (T_2N r) 0;
  do a <- extract (L_2N r) (L_2N c) (J_2N r) (S_2N r) false nn;
  do b <- extract (L_2N r) (L_2N c) (J_2N r) (S_2N r) false np;
  Ok [fst junk; snd junk;
      (2 / 3) * a + (1 / 3) * b;
      (sqrt 2 / 3) * (a - b);
      (sqrt 2 / 3) * (a - b);
      (1 / 3) * a + (2 / 3) * b]%R.

(* branch taken with the mid-point rule (l.289-321): by isoscalar_type *)
Definition vis_mid (pot : potmodel) (junk : R * R) (ty : nat) (r c : pw) (p_in p_out : R) : outcome (list R) :=
  match ty with
  | 0%nat => vis_np pot r c p_in p_out
  | 1%nat => vis_avg pot r c p_in p_out
  | _ => vis_1S0 pot junk r c p_in p_out
  end.
(* branch taken with quadrature (l.359-390): by coupled_via_T_3N, then isoscalar_type *)
Definition vis_quad (pot : potmodel) (junk : R * R) (viaT : bool) (ty : nat) (r c : pw) (p_in p_out : R)
  : outcome (list R) :=
  if viaT then vis_1S0 pot junk r c p_in p_out
  else match ty with
       | 0%nat => vis_np pot r c p_in p_out
       | 1%nat => vis_avg pot r c p_in p_out
       | _ => Err
       end.

(* V_WP_elements for bins (i, j): make_potential_matrix.cpp l.271-326 (mid-point), l.327-398 (quadrature). *)
Definition six0 : list R := [0; 0; 0; 0; 0; 0]%R.
Definition wp_elements (mid : bool) (pot : potmodel) (junk : R * R) (viaT : bool) (ty : nat) (g : vgrid)
  (r c : pw) (i j : nat) : outcome (list R) :=
  do Nr <- aread (vg_norm g) i; do Nc <- aread (vg_norm g) j;
  if mid then
    do p_in <- aread (vg_p g) j; do p_out <- aread (vg_p g) i;
    do f_in <- aread (vg_f g) j; do f_out <- aread (vg_f g) i;
    do c1 <- aread (vg_pWP g) (j + 1); do c0 <- aread (vg_pWP g) j;
    do r1 <- aread (vg_pWP g) (i + 1); do r0 <- aread (vg_pWP g) i;
    do v <- vis_mid pot junk ty r c p_in p_out;
    Ok (map2 (fun acc x => acc + p_in * p_out * f_in * f_out * (r1 - r0) * (c1 - c0) * x / (Nr * Nc))%R six0 v)
  else
    ofold (fun acc a =>
        do p_r <- aread (vg_p g) (i * vg_Nper g + a); do w_r <- aread (vg_w g) (i * vg_Nper g + a);
        do f_r <- aread (vg_f g) (i * vg_Nper g + a);
        ofold (fun acc b =>
            do p_c <- aread (vg_p g) (j * vg_Nper g + b); do w_c <- aread (vg_w g) (j * vg_Nper g + b);
            do f_c <- aread (vg_f g) (j * vg_Nper g + b);
            do v <- vis_quad pot junk viaT ty r c p_c p_r;
            Ok (map2 (fun acc x => acc + (f_r * (w_r * p_r)) * (f_c * (w_c * p_c)) * x / (Nr * Nc))%R acc v))
          (seq 0 (vg_Nper g)) acc)
      (seq 0 (vg_Nper g)) six0.
(* The product fp_array[..]*wp_r*p_r is (f*w)*p in C++; here f*(w*p): equal over R. *)

(* Writing one pair of bins: make_potential_matrix.cpp l.400-425, with the index formulas of l.252-263. *)
Definition write_elements (viaL cm : bool) (g : vgrid) (chn : Z) (r c : pw) (i j : nat) (el : list R)
  (V : list R * list R) : outcome (list R * list R) :=
  let N := zn (vg_Np g) in
  if cm then
    let ul := chn * 4 * N * N + zn i * 2 * N + zn j in
    let ur := chn * 4 * N * N + zn i * 2 * N + zn j + N in
    let ll := chn * 4 * N * N + (zn i + N) * 2 * N + zn j in
    let lr := chn * 4 * N * N + (zn i + N) * 2 * N + zn j + N in
    let J := J_2N r in let S := S_2N r in
    if viaL then
      do a <- extract (J - 1) (J - 1) J S cm el; do w <- zwrite (snd V) ul a;
      do a <- extract (J - 1) (J + 1) J S cm el; do w <- zwrite w ur a;
      do a <- extract (J + 1) (J - 1) J S cm el; do w <- zwrite w ll a;
      do a <- extract (J + 1) (J + 1) J S cm el; do w <- zwrite w lr a;
      Ok (fst V, w)
    else
      do a <- aread el 2; do w <- zwrite (snd V) ul a;
      do a <- aread el 3; do w <- zwrite w ur a;
      do a <- aread el 4; do w <- zwrite w ll a;
      do a <- aread el 5; do w <- zwrite w lr a;
      Ok (fst V, w)
  else
    do a <- extract (L_2N r) (L_2N c) (J_2N r) (S_2N r) cm el;
    do w <- zwrite (fst V) (chn * N * N + zn i * N + zn j) a;
    Ok (w, snd V).

(* One channel's matrix: the bin loops, make_potential_matrix.cpp l.243-427. *)
Definition fill_channel (mid : bool) (pot : potmodel) (junk : R * R) (viaL viaT cm : bool) (ty : nat) (g : vgrid)
  (chn : Z) (r c : pw) (V : list R * list R) : outcome (list R * list R) :=
  ofold (fun V ij =>
      do el <- wp_elements mid pot junk viaT ty g r c (fst ij) (snd ij);
      write_elements viaL cm g chn r c (fst ij) (snd ij) el V)
    (nest (vg_Np g) (vg_Np g)) V.

(* State: the two arrays and the numbers already marked in matrix_calculated_*_array. *)
Definition vstate := ((list R * list R) * list (bool * Z))%type.
Definition vkey_eqb (a b : bool * Z) : bool := Bool.eqb (fst a) (fst b) && (snd a =? snd b).

(* One pair of partial waves: make_potential_matrix.cpp l.128-427 (pair check l.128-134, matrix_calculated flags l.176-205). *)
Definition pot_step (tensor iso mid : bool) (pot : potmodel) (junk : R * R) (n_unco n_coup : Z) (g : vgrid)
  (s : vstate) (rc : pw * pw) : outcome vstate :=
  let (r, c) := rc in
  if same_2N tensor r c then
    do ty <- isoscalar_type r c;
    let viaL := coupled_via_L_2N tensor r c in
    let viaT := coupled_via_T_3N iso r in
    if viaL && viaT then Err else
    let cm := coupled_matrix tensor iso r c in
    do chn <- unique_2N_idx tensor iso cm (L_2N r) (S_2N r) (J_2N r) (T_2N r);
    (* matrix_calculated_*_array[chn] *)
    if (chn <? 0) || ((if cm then n_coup else n_unco) <=? chn) then UB else
    if existsb (vkey_eqb (cm, chn)) (snd s) then Ok s
    else
      do V <- fill_channel mid pot junk viaL viaT cm ty g chn r c (fst s);
      Ok (V, snd s ++ [(cm, chn)])
  else Ok s.

(* make_potential_matrix.cpp calculate_potential_matrices_array_in_WP_basis l.51-429 *)
Definition potential_matrices (tensor iso mid : bool) (J_2N_max : Z) (pot : potmodel) (junk : R * R) (g : vgrid)
  (states : list pw) (V_unco V_coup : list R) : outcome (list R * list R) :=
  do s <- ofold (pot_step tensor iso mid pot junk
                   (num_2N_unco_states tensor iso J_2N_max) (num_2N_coup_states tensor iso J_2N_max) g)
            (flat_map (fun r => map (fun c => (r, c)) states) states) ((V_unco, V_coup), []);
  Ok (fst s).

(* ---------- Legendre table: legendre.cpp, findRoots(int, vector<double>&) l.86-109, on an empty table ---------- *)
Definition legendre_next (l : nat) (z : list R) (curr prev : list R) : outcome (list R) :=
  ofold (fun acc i =>
      do zi <- aread z i; do pc <- aread curr i; do pp <- aread prev i;
      awrite acc i (((2 * INR l + 1) * zi * pc - INR l * pp) / (INR l + 1))%R)
    (seq 0 (length z)) (repeat 1%R (length z)).
(* Simplification: currRootList keeps the previous row's values before each element is overwritten; every element
   is overwritten, so the starting content (here all 1) is irrelevant. *)
Definition legendre_table (L : nat) (z : list R) : outcome (list (list R)) :=
  ofold (fun tab l =>
      do curr <- aread tab l; do prev <- aread tab (l - 1);
      do row <- legendre_next l z curr prev;
      Ok (tab ++ [row]))
    (seq 1 (L - 1)) [repeat 1%R (length z); z].
(* legendre.cpp fetchRoot l.115-117 *)
Definition fetch_root (tab : list (list R)) (d : Z) (i : nat) : outcome R :=
  do row <- zread tab d; aread row i.

(* constants.h l.25-29, l.39-40 *)
Definition Lambda : R := 450.
Definition gA : R := (1289 / 1000)%R.
Definition fpi : R := (922 / 10)%R.
Definition mpi : R := (138039 / 1000)%R.
Definition hbarc : R := (197327 / 1000)%R.
Definition C1S0 : R := (-112927 / 1000000 / 100)%R.
Definition C3S1 : R := (-87340 / 1000000 / 100)%R.

(* ---------- OPEP.cpp ---------- *)
(* OPEP.cpp isoFac l.17-22 *)
Definition iso_fac (L S : Z) : R :=
  let T := Z.land (1 - L - S) 1 in IZR (-3 * (1 - T) + 1 * T).
(* OPEP.cpp potOPEPmom l.85-89 *)
Definition pot_opep_mom (qi qo z : R) : R :=
  let q2 := (qi * qi + qo * qo - 2 * qi * qo * z)%R in
  (- (gA * gA / (4 * fpi * fpi)) * (1 / (q2 + mpi * mpi)))%R.
(* OPEP.cpp angIntegral l.65-83; [l1] is l<>0 *)
Definition ang_integral (tab : list (list R)) (z wz : list R) (qi qo : R) (J : Z) (l1 : bool) : outcome R :=
  do s <- ofold (fun acc i =>
      do root <- fetch_root tab J i; do w <- aread wz i; do zi <- aread z i;
      Ok (acc + (if l1 then w * pot_opep_mom qi qo zi * zi * root else w * pot_opep_mom qi qo zi * root))%R)
    (seq 0 (length wz)) 0%R;
  Ok (PI * s)%R.
(* OPEP.cpp potential l.24-63 *)
Definition opep (tab : list (list R)) (z wz : list R) (qi qo : R) (J : Z) : outcome (list R) :=
  do I0 <- ang_integral tab z wz qi qo J false;
  do I1 <- ang_integral tab z wz qi qo J true;
  do IP <- ang_integral tab z wz qi qo (J + 1) false;
  let jr := IZR J in
  let S0 := (2 * (- (qo * qo + qi * qi) * I0 + 2 * qo * qi * I1) * iso_fac J 0)%R in
  let pp := ((2 / (2 * jr + 1)) * (- (qo * qo + qi * qi) * IP + 2 * qo * qi * I0) * iso_fac (J + 1) 1)%R in
  if negb (J =? 0) then
    do IM <- ang_integral tab z wz qi qo (J - 1) false;
    let S1 := (2 * ((qo * qo + qi * qi) * I0 - 2 * qo * qi * (1 / (2 * jr + 1)) * (jr * IP + (jr + 1) * IM)) * iso_fac J 1)%R in
    let mm := ((2 / (2 * jr + 1)) * ((qo * qo + qi * qi) * IM - 2 * qo * qi * I0) * iso_fac (J - 1) 1)%R in
    let pm := ((4 * sqrt (jr * (jr + 1)) / (2 * jr + 1)) * (qi * qi * IP + qo * qo * IM - 2 * qo * qi * I0) * iso_fac (J - 1) 1)%R in
    let mp := ((4 * sqrt (jr * (jr + 1)) / (2 * jr + 1)) * (qi * qi * IM + qo * qo * IP - 2 * qo * qi * I0) * iso_fac (J + 1) 1)%R in
    Ok [S0; S1; mm; pm; mp; pp]
  else Ok [S0; 0; 0; 0; 0; pp]%R.

(* ---------- chiral_LO_internal.cpp ---------- *)
Definition reg (q : R) : R :=
  let t := (q / Lambda)%R in exp (- (t * t * t * t * t * t)).
Definition rel_factor (M q : R) : R := sqrt (M / sqrt (M * M + q * q)).
(* chiral_LO_internal.cpp V l.26-67; [tab],[z],[wz] are the tables built by the constructor (l.4-7, OPEP.cpp l.4-14), M the mass *)
Definition lo_internal (tab : list (list R)) (z wz : list R) (M : R) : potmodel :=
  fun qi qo _ _ J _ _ =>
    do V <- opep tab z wz qi qo J;
    do V <- (if J =? 0 then do v <- aread V 0; awrite V 0 (v + C1S0)%R
             else if J =? 1 then do v <- aread V 2; awrite V 2 (v + C3S1)%R
             else Ok V);
    let coeff := (reg qi * reg qo * rel_factor M qi * rel_factor M qo / (8 * PI * PI * PI))%R in
    Ok (map (fun v => v * coeff)%R V).
(* potential_model.cpp l.26-27: MN, Jmax = 100; [z], [wz] are the nodes and weights returned by gauss(), nz = 150 *)
Definition LO_internal (z wz : list R) : potmodel :=
  fun qi qo cpl S J T Tz =>
    do tab <- legendre_table (100 + 1) z;
    lo_internal tab z wz MN qi qo cpl S J T Tz.

(* ---------- malfliet_tjon.cpp V l.27-66 ---------- *)
Definition mt_term (V mu qi qo : R) : R :=
  ((V / hbarc) * ln (((qo + qi) * (qo + qi) + mu * mu) / ((qo - qi) * (qo - qi) + mu * mu)))%R.
Definition malfliet_tjon : potmodel :=
  fun qi qo _ _ J _ _ =>
    let VA_I := (513968 / 1000)%R in let VA_III := (626885 / 1000)%R in let VR := (1438720 / 1000)%R in
    let muA := (1550 / 1000 * hbarc)%R in let muR := (3110 / 1000 * hbarc)%R in
    Ok (if J =? 0 then [ (mt_term VR muR qi qo - mt_term VA_I muA qi qo) / (2 * PI * qi * qo); 0; 0; 0; 0; 0]%R
        else if J =? 1 then [0; 0; (mt_term VR muR qi qo - mt_term VA_III muA qi qo) / (2 * PI * qi * qo); 0; 0; 0]%R
        else six0).
