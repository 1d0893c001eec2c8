(* solve_faddeev.cpp: the Pade solver and the dense solver.  double is idealised to R (no rounding, no NaN); complex
   division by zero returns some value.  BLAS and LAPACK are modelled by contract. *)
From Coq Require Import Reals.
From Verif Require Import Common ArrayLib PWModel SwpModel ResolventModel KernelModel.
Open Scope nat_scope.

(* ---------- complex<double> ---------- *)
Definition c0 : cdouble := (0, 0)%R.
Definition c1 : cdouble := (1, 0)%R.
Definition cadd (x y : cdouble) : cdouble := (fst x + fst y, snd x + snd y)%R.
Definition copp (x : cdouble) : cdouble := (- fst x, - snd x)%R.
Definition cmul (x y : cdouble) : cdouble := (fst x * fst y - snd x * snd y, fst x * snd y + snd x * fst y)%R.
Definition cinv (x : cdouble) : cdouble :=
  let n := (fst x * fst x + snd x * snd x)%R in (fst x / n, - snd x / n)%R.
Definition cdiv (x y : cdouble) : cdouble := cmul x (cinv y).
Definition cabs (x : cdouble) : R := sqrt (fst x * fst x + snd x * snd x).
Fixpoint cpow (x : cdouble) (n : nat) : cdouble := match n with O => c1 | S m => cmul x (cpow x m) end.

(* ---------- pade_approximant l.271-297 ---------- *)
Fixpoint omap {A B} (f : A -> outcome B) (l : list A) : outcome (list B) :=
  match l with [] => Ok [] | x :: r => do y <- f x; do t <- omap f r; Ok (y :: t) end.
(* [a k] reads a_coeff_array[k]; [det] is determinant(), a parameter here (see DeterminantModel.v).  The two local
   matrices are row major with M+1 columns: the common first M rows (l.277-282), then the last row (l.284-290).
   N - M is evaluated for N >= M only (the callers pass N = M). *)
Definition pade_approximant (det : list cdouble -> nat -> cdouble) (a : nat -> outcome cdouble) (N M : nat) (z : cdouble)
  : outcome cdouble :=
  do top <- omap (fun rc => a (N - M + 1 + fst rc + snd rc)) (nest M (M + 1));
  do lastP <- omap (fun c => ofold (fun acc j => do x <- a (j - (M - c)); Ok (cadd acc (cmul x (cpow z j))))
                                   (seq (M - c) (N + 1 - (M - c))) c0) (seq 0 (M + 1));
  let lastQ := map (fun c => cpow z (M - c)) (seq 0 (M + 1)) in
  Ok (cdiv (det (top ++ lastP) (M + 1)) (det (top ++ lastQ) (M + 1))).

(* ---------- the system handed to pade_method_solve (l.440-458) ---------- *)
Record fsys := mkfsys {
  s_N : nat; s_Nq : nat; s_Np : nat;                     (* Nalpha, Nq_WP, Np_WP *)
  s_CT : kop; s_VC : kop; s_P : csc;
  s_G : list cdouble;                                    (* G_array *)
  s_q : list nat;                                        (* q_com_idx_array, num_q_com *)
  s_d : list nat;                                        (* deuteron_idx_array, num_deuteron_states *)
  s_breakup : bool;                                      (* include_breakup_channels *)
  s_ends : list nat;                                     (* q_com_BU_idx_array *)
  s_cells : list (nat * nat * nat) }.                    (* alphapq_idx_array as (alpha, q, p); num_BU_chns = length *)
Definition s_D (s : fsys) : nat := s_N s * s_Nq s * s_Np s.       (* dense_dim l.492 *)
Definition s_nq (s : fsys) : nat := length (s_q s).
Definition s_nd (s : fsys) : nat := length (s_d s).
Definition s_nBU (s : fsys) : nat := length (s_cells s).
Definition enum {A} (l : list A) : list (nat * A) := combine (seq 0 (length l)) l.

(* An on-shell element: storage index idx_NDOS, row idx_row_NDOS, column idx_col_NDOS. *)
Record elt := mkelt { e_idx : nat; e_row : nat; e_col : nat }.
(* elastic elements in loop order (e.g. l.826-850, l.1138-1160) *)
Definition el_elts (s : fsys) : list elt :=
  flat_map (fun dr => flat_map (fun dc : nat * nat => map (fun q : nat * nat =>
      mkelt (dr * s_nd s * s_nq s + fst dc * s_nq s + fst q) (dr * s_nq s + fst q)
            (snd dc * s_Nq s * s_Np s + snd q * s_Np s + 0)) (enum (s_q s))) (enum (s_d s))) (seq 0 (s_nd s)).
(* breakup elements in loop order (l.863-885, l.1170-1200); empty when breakup is off.  The reads of
   q_com_BU_idx_array and alphapq_idx_array are in range by construction of those arrays (C35). *)
Definition bu_range (s : fsys) (q : nat) : list nat :=
  seq (nth q (s_ends s) 0) (nth (q + 1) (s_ends s) 0 - nth q (s_ends s) 0).
Definition bu_elts (s : fsys) : list elt :=
  if s_breakup s then
    flat_map (fun q => flat_map (fun dr => map (fun b =>
      let '(al, qi, pi) := nth b (s_cells s) (0, 0, 0) in
      mkelt (dr * s_nBU s + b) (dr * s_nq s + q) (al * s_Nq s * s_Np s + qi * s_Np s + pi))
      (bu_range s q)) (seq 0 (s_nd s))) (seq 0 (s_nq s))
  else [].

(* ---------- column chunks l.535-546, l.1020-1032 ---------- *)
Open Scope Z_scope.
Definition u64 (x : Z) : Z := x mod 2 ^ 64.
Definition zdiv (x y : Z) : outcome Z := if y =? 0 then UB else Ok (x / y).
(* num_cols_per_chunk, num_chunks *)
Definition chunking (dense_dim : Z) : outcome (Z * Z) :=
  do nc <- zdiv (u64 (4 * 1024 ^ 3)) (u64 (16 * dense_dim));
  do k <- zdiv dense_dim nc;
  Ok (nc, u64 (k + 1)).
(* idx_col_start, idx_col_end, cols_in_chunk of chunk k *)
Definition chunk_range (dense_dim nc k : Z) : Z * Z * Z :=
  let st := u64 (k * nc) in
  let en := u64 (u64 (k + 1) * nc) in
  let en := if en >? dense_dim then dense_dim else en in
  (st, en, u64 (en - st)).
Open Scope nat_scope.

(* ---------- one Neumann step (l.930-1240) ---------- *)
Definition rows2 := (list R * list R)%type.              (* real and imaginary parts *)
Record nst := mknst {
  n_prev : rows2; n_cur : rows2; n_comp : rows2; n_prod : rows2;
  n_a : list cdouble;                                    (* a_coeff_array; new std::complex<double>[n] sets all to 0 *)
  n_abu : list cdouble }.                                (* a_BU_coeff_array *)

(* l.945-962 *)
Definition mult_G (s : fsys) (prev : rows2) : outcome rows2 :=
  ofold (fun ri iq => ofold (fun ri d => ofold (fun (ri : rows2) k =>
      let at_k := (d * s_nq s + iq) * s_D s + k in
      do x <- aread (fst ri) at_k; do y <- aread (snd ri) at_k;
      do g <- aread (s_G s) (iq * s_D s + k);
      do re <- awrite (fst ri) at_k (x * fst g - y * snd g)%R;
      do im <- awrite (snd ri) at_k (x * snd g + y * fst g)%R;
      Ok (re, im)) (seq 0 (s_D s)) ri) (seq 0 (s_nd s)) ri) (seq 0 (s_nq s)) prev.

(* l.978-998: is every element of the row converged? *)
Definition all_conv (conv : list bool) (l : list nat) : outcome bool :=
  ofold (fun b i => do c <- aread conv i; Ok (if c then b else false)) l true.
Definition row_conv (s : fsys) (conv convbu : list bool) (d q : nat) : outcome bool :=
  do b <- all_conv conv (map (fun dc => d * s_nd s * s_nq s + dc * s_nq s + q) (seq 0 (s_nd s)));
  do b' <- all_conv convbu (if s_breakup s then map (fun b => d * s_nBU s + b) (bu_range s q) else []);
  Ok (b && b').

(* copying dense_dim consecutive elements (l.1006-1009, l.1113-1116); both parts *)
Definition copy_row (D : nat) (src : rows2) (i : nat) (dst : rows2) (j : nat) : outcome rows2 :=
  do x <- aslice (fst src) (i * D) D; do y <- aslice (snd src) (i * D) D;
  do re <- ablit (fst dst) (j * D) x; do im <- ablit (snd dst) (j * D) y;
  Ok (re, im).

(* l.964-1014: compactification; the second component lists A_An_indexing_array[0 .. num_non_conv_rows-1] *)
Definition compact (s : fsys) (conv convbu : list bool) (prev comp : rows2) : outcome (rows2 * list nat) :=
  ofold (fun (st : rows2 * list nat) dq =>
      do b <- row_conv s conv convbu (fst dq) (snd dq);
      if b then Ok st else
      do comp' <- copy_row (s_D s) prev (fst dq * s_nq s + snd dq) (fst st) (length (snd st));
      Ok (comp', snd st ++ [fst dq * s_nq s + snd dq])) (nest (s_nd s) (s_nq s)) (comp, []).

(* cblas_dgemm(RowMajor, NoTrans, Trans, M, N, K, 1, A, K, B, K, 0, C, ldc) writing at C + off: contract *)
Definition gemm_nt (M N K : nat) (A B : list R) (C : list R) (off ldc : nat) : outcome (list R) :=
  if (M * K <=? length A) && (N * K <=? length B) then
    ofold (fun C ij => awrite C (off + fst ij * ldc + snd ij)
                         (rsum (fun k => nth (fst ij * K + k) A 0 * nth (snd ij * K + k) B 0)%R K)) (nest M N) C
  else UB.

(* kernel column number idx_col (l.1046-1065), accumulated into a zeroed part of CPVC_cols_array *)
Definition kernel_col (s : fsys) (idx_col : nat) (zeros : list R) : outcome (list R) :=
  CPVC_col (s_N s) (s_Nq s) (s_Np s) (s_CT s) (s_VC s) (s_P s)
    (idx_col / (s_Np s * s_Nq s)) (idx_col mod s_Np s) ((idx_col mod (s_Np s * s_Nq s)) / s_Np s) zeros.

(* l.1020-1097.  The column loop is an OpenMP loop over disjoint parts of CPVC_cols_array; run in order here. *)
Definition chunk_step (s : fsys) (nc m : nat) (comp : rows2) (prod : rows2) (k : nat) : outcome rows2 :=
  let D := s_D s in
  let st := k * nc in
  let en := if D <? (k + 1) * nc then D else (k + 1) * nc in
  do cols <- ofold (fun buf idx =>
      do z <- aslice buf ((idx - st) * D) D;
      do c <- kernel_col s idx z;
      ablit buf ((idx - st) * D) c) (seq st (en - st)) (repeat 0%R (D * nc));
  do re <- gemm_nt m (en - st) D (fst comp) cols (fst prod) st D;
  do im <- gemm_nt m (en - st) D (snd comp) cols (snd prod) st D;
  Ok (re, im).

(* l.1111-1118 *)
Definition write_back (s : fsys) (prod : rows2) (index : list nat) (cur : rows2) : outcome rows2 :=
  ofold (fun cur (r : nat * nat) => copy_row (s_D s) prod (fst r) cur (snd r)) (enum index) cur.

(* l.1137-1175 (elastic), l.1177-1207 (breakup): store the n-th coefficient of every unconverged element *)
Definition num_terms : nat := 29.                         (* 2*NM_max+1, l.475 *)
Definition extract_terms (s : fsys) (conv : list bool) (cur : rows2) (n : nat) (l : list elt) (a : list cdouble)
  : outcome (list cdouble) :=
  ofold (fun a e =>
      do c <- aread conv (e_idx e);
      if c then Ok a else
      do x <- aread (fst cur) (e_row e * s_D s + e_col e);
      do y <- aread (snd cur) (e_row e * s_D s + e_col e);
      awrite a (e_idx e * num_terms + n) (x, y)) l a.

(* one value of n; nc and nch are num_cols_per_chunk and num_chunks *)
Definition neumann_step (s : fsys) (nc nch : nat) (conv convbu : list bool) (st : nst) (n : nat) : outcome nst :=
  do prev <- mult_G s (n_prev st);
  do '(comp, index) <- compact s conv convbu prev (n_comp st);
  do prod <- ofold (chunk_step s nc (length index) comp) (seq 0 nch) (n_prod st);
  do cur <- write_back s prod index (n_cur st);
  (* l.1129-1133: prev := cur *)
  do a <- extract_terms s conv cur n (el_elts s) (n_a st);
  do abu <- extract_terms s convbu cur n (bu_elts s) (n_abu st);
  Ok (mknst cur cur comp prod a abu).

(* l.494-512, l.780-885: zeroed arrays, the rows for n = 0 (real), and the first coefficients *)
Definition first_terms (s : fsys) (prev_re : list R) (l : list elt) (a : list cdouble) : outcome (list cdouble) :=
  ofold (fun a e => do x <- aread prev_re (e_row e * s_D s + e_col e);
                    awrite a (e_idx e * num_terms + 0) (x, 0%R)) l a.
Definition neumann_init (s : fsys) : outcome nst :=
  let z := repeat 0%R (s_D s * (s_nd s * s_nq s)) in
  do re <- CPVC_rows (s_N s) (s_Nq s) (s_Np s) (s_CT s) (s_VC s) (s_P s) (s_d s) (s_q s) z;
  do a <- first_terms s re (el_elts s) (repeat c0 (num_terms * (s_nd s * s_nd s * s_nq s)));
  do abu <- first_terms s re (bu_elts s) (repeat c0 (num_terms * (if s_breakup s then s_nd s * s_nBU s else 0)));
  Ok (mknst (re, z) (z, z) (z, z) (z, z) a abu).

(* ---------- Pade approximants of one order (l.1246-1310 elastic, l.1312-1385 breakup) ---------- *)
Definition NM_max : nat := 14.
Record pst := mkpst {
  p_pa : list cdouble;                (* pade_approximants_array, zero at first as every new std::complex<double>[n] *)
  p_best : list (option nat);         (* pade_approximants_idx_array, uninitialised at first *)
  p_conv : list bool }.               (* pade_approximants_conv_array *)

(* reading a cell that may be uninitialised *)
Definition pread {A} (a : list (option A)) (k : nat) : outcome A :=
  match nth_error a k with Some (Some v) => Ok v | _ => UB end.
(* The cell before (i, k): pade_approximants_array[i*(NM_max+1) + k - 1].  For k = 0 this is not a cell of element i:
   it is the last cell of the element before, and for i = 0 it is outside the array, a read at index -1.
   [stray] gives what that read returns while order NM is worked on; [None] makes it undefined behaviour (the language's view). *)
Definition stray_t := option (nat -> cdouble).
Definition pread_before (stray : stray_t) (NM : nat) (pa : list cdouble) (i k : nat) : outcome cdouble :=
  match i * (NM_max + 1) + k with
  | O => match stray with Some f => Ok (f NM) | None => UB end
  | S m => aread pa m
  end.
(* l.1268-1294: one comparison; the last one (k = NM) is l.1283-1290 *)
Definition best_step (stray : stray_t) (NM : nat) (pa : list cdouble) (i : nat) (acc : nat * R) (k : nat) : outcome (nat * R) :=
  do x <- aread pa (i * (NM_max + 1) + k);
  do y <- pread_before stray NM pa i k;
  let d := cabs (cadd x (copp y)) in
  if Rltb d (snd acc) && Rltb (1 / 10 ^ 15) d then Ok (k, d) else Ok acc.

Definition pade_element (det : list cdouble -> nat -> cdouble) (stray : stray_t) (NM : nat) (a : list cdouble)
  (st : pst * nat) (i : nat) : outcome (pst * nat) :=
  do c <- aread (p_conv (fst st)) i;
  if c then Ok st else
  do PA <- pade_approximant det (fun k => aread a (i * num_terms + k)) NM NM c1;
  do pa <- awrite (p_pa (fst st)) (i * (NM_max + 1) + NM) PA;
  do bm <- ofold (best_step stray NM pa i) (seq 0 (NM + 1)) (0, 1%R);
  do b <- aread pa (i * (NM_max + 1) + fst bm);
  if (NM =? NM_max) || (4 <? NM - fst bm) || Rltb (snd bm) (1 / 10 ^ 6 * cabs b) || Rltb (snd bm) (1 / 10 ^ 7) then
    do conv <- awrite (p_conv (fst st)) i true;
    do best <- awrite (p_best (fst st)) i (Some (fst bm));
    Ok (mkpst pa best conv, S (snd st))
  else Ok (mkpst pa (p_best (fst st)) (p_conv (fst st)), snd st).
Definition pade_order det stray NM a (l : list elt) (st : pst * nat) : outcome (pst * nat) :=
  ofold (fun st e => pade_element det stray NM a st (e_idx e)) l st.

(* ---------- the loop over NM (l.905-1387) ---------- *)
(* the two approximant arrays, elastic and breakup, have memory of their own around them *)
Definition strays := (stray_t * stray_t)%type.
Record solver := mksolver { v_n : nst; v_el : pst; v_bu : pst; v_count : nat }.
(* l.930: for NM = 0 the bound check compares -1 converted to size_t, the loop body does not run *)
Definition ns (NM : nat) : list nat := if NM =? 0 then [] else [2 * NM - 1; 2 * NM].
Definition nm_step (det : list cdouble -> nat -> cdouble) (mem : strays) (s : fsys) (nc nch : nat) (v : solver) (NM : nat) : outcome solver :=
  (* break: the state no longer changes *)
  if v_count v =? s_nd s * s_nd s * s_nq s then Ok v else
  do n <- ofold (neumann_step s nc nch (p_conv (v_el v)) (p_conv (v_bu v))) (ns NM) (v_n v);
  do '(el, cnt) <- pade_order det (fst mem) NM (n_a n) (el_elts s) (v_el v, v_count v);
  do '(bu, cnt) <- pade_order det (snd mem) NM (n_abu n) (bu_elts s) (v_bu v, cnt);
  Ok (mksolver n el bu cnt).

Definition fresh_pst (n : nat) : pst := mkpst (repeat c0 (n * (NM_max + 1))) (repeat None n) (repeat false n).
(* pade_method_solve up to l.1387 *)
Definition pade_run det (mem : strays) (s : fsys) (nc nch : nat) : outcome solver :=
  do n <- neumann_init s;
  ofold (nm_step det mem s nc nch) (seq 0 (NM_max + 1))
    (mksolver n (fresh_pst (s_nd s * s_nd s * s_nq s)) (fresh_pst (if s_breakup s then s_nd s * s_nBU s else 0)) 0).
(* l.1389-1440: the reported elements *)
Definition report (p : pst) (l : list elt) (U : list cdouble) : outcome (list cdouble) :=
  ofold (fun U e => do b <- pread (p_best p) (e_idx e); do x <- aread (p_pa p) (e_idx e * (NM_max + 1) + b);
                    awrite U (e_idx e) x) l U.
(* pade_method_solve.  The chunk numbers come from l.535-540. *)
Definition pade_method_solve det (mem : strays) (s : fsys) (U UBU : list cdouble) : outcome (list cdouble * list cdouble) :=
  do '(nc, nch) <- chunking (zn (s_D s));
  do v <- pade_run det mem s (Z.to_nat nc) (Z.to_nat nch);
  do U <- report (v_el v) (el_elts s) U;
  do UBU <- report (v_bu v) (bu_elts s) UBU;
  Ok (U, UBU).
