(* solve_faddeev.cpp l.305-437: faddeev_dense_solver.  solve_MM (matrix_routines.cpp l.71-79) is modelled by contract;
   the three text files it stores per energy are left out. *)
From Coq Require Import Reals.
From Verif Require Import Common ArrayLib SwpModel ResolventModel KernelModel FaddeevModel DetModel.
Open Scope nat_scope.

(* [solve L R n] is the contents of R after solve_MM(L, R, n) *)
Definition solve_t := list cdouble -> list cdouble -> nat -> list cdouble.
(* l.366-388: column col of both arrays *)
Definition dense_column (s : fsys) (j col : nat) (cpvc : list R) (LR : list cdouble * list cdouble)
  : outcome (list cdouble * list cdouble) :=
  do LR <- ofold (fun (LR : list cdouble * list cdouble) row =>
      do x <- aread cpvc row; do g <- aread (s_G s) (j * s_D s + col);
      do L <- awrite (fst LR) (row * s_D s + col) (- x * fst g, - x * snd g)%R;
      do x <- aread cpvc row;
      do R <- awrite (snd LR) (row * s_D s + col) (x, 0%R);
      Ok (L, R)) (seq 0 (s_D s)) LR;
  do d <- aread (fst LR) (col * s_D s + col);
  do L <- awrite (fst LR) (col * s_D s + col) (cadd d c1);
  Ok (L, snd LR).
(* l.335-392: both arrays for energy j *)
Definition dense_build (s : fsys) (j : nat) : outcome (list cdouble * list cdouble) :=
  ofold (fun LR qc => ofold (fun LR ac => ofold (fun LR pc =>
      do cpvc <- CPVC_col (s_N s) (s_Nq s) (s_Np s) (s_CT s) (s_VC s) (s_P s) ac pc qc (repeat 0%R (s_D s));
      dense_column s j (ac * s_Np s * s_Nq s + qc * s_Np s + pc) cpvc LR)
    (seq 0 (s_Np s)) LR) (seq 0 (s_N s)) LR) (seq 0 (s_Nq s)) (repeat c0 (s_D s * s_D s), repeat c0 (s_D s * s_D s)).
(* l.332-436 *)
Definition dense_solver (solve : solve_t) (s : fsys) (U : list cdouble) : outcome (list cdouble) :=
  ofold (fun U j =>
      do '(L, R) <- dense_build s j;
      let X := solve L R (s_D s) in
      ofold (fun U dr => ofold (fun U dc =>
          do ar <- aread (s_d s) dr; do ac <- aread (s_d s) dc; do q <- aread (s_q s) j;
          do x <- aread X ((ar * s_Nq s * s_Np s + q * s_Np s + 0) * s_D s + (ac * s_Nq s * s_Np s + q * s_Np s + 0));
          awrite U (dr * s_nd s * s_nq s + dc * s_nq s + j) x)
        (seq 0 (s_nd s)) U) (seq 0 (s_nd s)) U) (seq 0 (s_nq s)) U.

(* contract of solve_MM: if L (row major, n x n) is regular, the columns of the result solve L X = R *)
Definition regular (n : nat) (L : nat -> nat -> cdouble) : Prop :=
  forall y : nat -> cdouble, (forall i, i < n -> ctotal (fun k => cmul (L i k) (y k)) n = c0) -> forall i, i < n -> y i = c0.
Definition solve_contract (solve : solve_t) : Prop := forall L R n, length L = n * n -> length R = n * n ->
  length (solve L R n) = n * n /\
  (regular n (fun i k => nth (i * n + k) L c0) -> forall i j, i < n -> j < n ->
     ctotal (fun k => cmul (nth (i * n + k) L c0) (nth (k * n + j) (solve L R n) c0)) n = nth (i * n + j) R c0).
