(* solve_faddeev.cpp: block pointers, kernel columns and rows.  double is idealised to R. *)
From Coq Require Import Reals.
From Verif Require Import Common ArrayLib PWModel SwpModel SparseModel.
Open Scope nat_scope.

(* &a[off] used as an array of n elements; std::copy into a part of an array. *)
Definition aslice {A} (a : list A) (off n : nat) : outcome (list A) :=
  if off + n <=? length a then Ok (firstn n (skipn off a)) else UB.
Definition ablit {A} (a : list A) (off : nat) (l : list A) : outcome (list A) :=
  if off + length l <=? length a then Ok (firstn off a ++ l ++ skipn (off + length l) a) else UB.

(* 0 + x0 + x1 + ... + x(n-1), in order *)
Fixpoint rsum (f : nat -> R) (n : nat) : R :=
  match n with O => 0%R | S m => (rsum f m + f m)%R end.

(* matrix_routines.cpp dot_MM l.35-37 (cblas_dgemm, row major, alpha 1, beta 0): modelled by its contract. *)
Definition dot_MM (A B : list R) (n : nat) : list R :=
  map (fun ij => rsum (fun k => (nth (fst ij * n + k) A 0 * nth (k * n + snd ij) B 0)%R) n) (nest n n).

(* restructure_coupled_VC_product l.1754-1780.  The temporary starts uninitialised (None). *)
Definition restructure {A} (m : list A) (Np : nat) : outcome (list A) :=
  do tmp <- ofold (fun t cb => ofold (fun t rb => ofold (fun t col => ofold (fun t row =>
        do v <- aread m ((col + Np * cb) * 2 * Np + (row + Np * rb));
        awrite t (cb * 2 * Np * Np + rb * Np * Np + col * Np + row) (Some v))
      (seq 0 Np) t) (seq 0 Np) t) (seq 0 2) t) (seq 0 2) (repeat None (4 * Np * Np));
  all_init tmp.

(* A block pointer: NULL, or (coupled array?, offset). *)
Definition ptr := option (bool * Z).
(* The two matrix arrays and the table of block pointers. *)
Record kop := mkkop { k_unco : list R; k_coup : list R; k_ptr : list ptr }.

(* create_CT_row_maj_3N_pointer_array l.1628-1650 (uncoupled, d = Np) and l.1653-1678 (coupled, d = 2 Np): copy,
   transpose, restructure.  [init] is the content of the freshly allocated array. *)
Definition ct_matrices (coup : bool) (n Np : nat) (C init : list R) : outcome (list R) :=
  let d := if coup then 2 * Np else Np in
  ofold (fun t k =>
      do m <- aslice C (k * (d * d)) (d * d);
      do m <- simple_transpose R m d;
      do m <- (if coup then restructure m Np else Ok m);
      ablit t (k * (d * d)) m) (seq 0 n) init.

(* create_VC_col_maj_3N_pointer_array l.1817-1849: product, transpose, restructure. *)
Definition vc_matrices (coup : bool) (n Np : nat) (V C init : list R) : outcome (list R) :=
  let d := if coup then 2 * Np else Np in
  ofold (fun t k =>
      do v <- aslice V (k * (d * d)) (d * d);
      do c <- aslice C (k * (d * d)) (d * d);
      do m <- simple_transpose R (dot_MM v c d) d;
      do m <- (if coup then restructure m Np else Ok m);
      ablit t (k * (d * d)) m) (seq 0 n) init.

(* The block selected for a pair of partial waves: l.1671-1742 and l.1862-1920 (the same text). *)
Open Scope Z_scope.
Definition block_ptr (tensor iso : bool) (Np : nat) (r c : pw) : outcome ptr :=
  if interaction_allowed tensor r c then
    let viaL := coupled_via_L_2N tensor r c in
    let viaT := coupled_via_T_3N iso r in
    if viaL && viaT then Err else
    if viaL || viaT then
      do i <- unique_2N_idx tensor iso true (L_2N r) (S_2N r) (J_2N r) (T_2N r);
      let base := i * 4 * zn Np * zn Np in
      if (viaL && (L_2N r <? L_2N c)) || (viaT && (two_T_3N r <? two_T_3N c)) then Ok (Some (true, base + 1 * zn Np * zn Np))
      else if (viaL && (L_2N r >? L_2N c)) || (viaT && (two_T_3N r >? two_T_3N c)) then Ok (Some (true, base + 2 * zn Np * zn Np))
      else if (viaL && (L_2N r <? J_2N c)) || (viaT && (two_T_3N r =? 1)) then Ok (Some (true, base + 0 * zn Np * zn Np))
      else if (viaL && (L_2N r >? J_2N c)) || (viaT && (two_T_3N r =? 3)) then Ok (Some (true, base + 3 * zn Np * zn Np))
      else Err
    else
      do i <- unique_2N_idx tensor iso false (L_2N r) (S_2N r) (J_2N r) (T_2N r);
      Ok (Some (false, i * zn Np * zn Np))
  else Ok None.
Open Scope nat_scope.
(* The double loop over partial waves filling the pointer table (l.1661-1748 / l.1852-1925); [init] is the content
   of the freshly allocated table. *)
Definition block_table (tensor iso : bool) (Np : nat) (states : list pw) (init : list ptr) : outcome (list ptr) :=
  let N := length states in
  ofold (fun t (rs : nat * pw) => ofold (fun t (cs : nat * pw) =>
      do p <- block_ptr tensor iso Np (snd rs) (snd cs);
      awrite t (fst rs * N + fst cs) p)
    (combine (seq 0 N) states) t) (combine (seq 0 N) states) init.

(* create_CT_row_maj_3N_pointer_array l.1588-1750 *)
Definition create_CT (tensor iso : bool) (J_2N_max : Z) (Np : nat) (states : list pw) (C_unco C_coup : list R)
  (iu ic : list R) (ip : list ptr) : outcome kop :=
  do u <- ct_matrices false (Z.to_nat (num_2N_unco_states tensor iso J_2N_max)) Np C_unco iu;
  do c <- ct_matrices true (Z.to_nat (num_2N_coup_states tensor iso J_2N_max)) Np C_coup ic;
  do p <- block_table tensor iso Np states ip;
  Ok (mkkop u c p).

(* create_VC_col_maj_3N_pointer_array l.1782-1925 *)
Definition create_VC (tensor iso : bool) (J_2N_max : Z) (Np : nat) (states : list pw) (V_unco V_coup C_unco C_coup : list R)
  (iu ic : list R) (ip : list ptr) : outcome kop :=
  do u <- vc_matrices false (Z.to_nat (num_2N_unco_states tensor iso J_2N_max)) Np V_unco C_unco iu;
  do c <- vc_matrices true (Z.to_nat (num_2N_coup_states tensor iso J_2N_max)) Np V_coup C_coup ic;
  do p <- block_table tensor iso Np states ip;
  Ok (mkkop u c p).

(* subarray[k] *)
Definition kread (o : kop) (p : ptr) (k : nat) : outcome R :=
  match p with
  | None => UB
  | Some (coup, off) => zread (if coup then k_coup o else k_unco o) (off + zn k)
  end.

(* P123 in compressed sparse column form *)
Record csc := mkcsc { c_val : list R; c_row : list nat; c_col : list nat }.

(* calculate_PVC_col l.4-47 *)
Definition PVC_col (N Nq Np : nat) (VC : kop) (P : csc) (ac pc qc : nat) (col : list R) : outcome (list R) :=
  ofold (fun col aj =>
      do p <- aread (k_ptr VC) (ac * N + aj);
      match p with
      | None => Ok col
      | Some _ =>
          ofold (fun col pj =>
              do v <- kread VC p (pc * Np + pj);
              let j := aj * Np * Nq + qc * Np + pj in
              do lo <- aread (c_col P) j; do hi <- aread (c_col P) (j + 1);
              ofold (fun col k =>
                  do x <- aread (c_val P) k; do row <- aread (c_row P) k;
                  do old <- aread col row;
                  awrite col row (old + 2 * x * v)%R) (seq lo (hi - lo)) col) (seq 0 Np) col
      end) (seq 0 N) col.

Definition Reqb (x y : R) : bool := if Req_EM_T x y then true else false.

(* calculate_CPVC_col l.50-180, accumulating into [col] (callers pass zeros) *)
Definition CPVC_col (N Nq Np : nat) (CT VC : kop) (P : csc) (ac pc qc : nat) (col : list R) : outcome (list R) :=
  do pvc <- PVC_col N Nq Np VC P ac pc qc (repeat 0%R (N * Nq * Np));
  ofold (fun col ar => ofold (fun col ai =>
      do p <- aread (k_ptr CT) (ar * N + ai);
      match p with
      | None => Ok col
      | Some _ =>
          ofold (fun col qr => ofold (fun col pi =>
              do e <- aread pvc (ai * Nq * Np + (qr * Np + pi));
              if Reqb e 0 then Ok col else
              ofold (fun col pr =>
                  do c <- kread CT p (pr * Np + pi);
                  do old <- aread col (ar * Nq * Np + qr * Np + pr);
                  awrite col (ar * Nq * Np + qr * Np + pr) (old + e * c)%R) (seq 0 Np) col)
            (seq 0 Np) col) (seq 0 Nq) col
      end) (seq 0 N) col) (seq 0 N) col.

(* calculate_all_CPVC_rows l.183-268: one on-shell row element (l.229-255) *)
Definition CPVC_row_element (N Nq Np : nat) (CT : kop) (pvc : list R) (ar qr : nat) : outcome R :=
  ofold (fun acc ai =>
      do p <- aread (k_ptr CT) (ar * N + ai);
      match p with
      | None => Ok acc
      | Some _ =>
          ofold (fun acc pi =>
              do e <- aread pvc (ai * Nq * Np + qr * Np + pi);
              do c <- kread CT p (0 * Np + pi);
              Ok (acc + c * e)%R) (seq 0 Np) acc
      end) (seq 0 N) 0%R.
(* The whole routine.  The column loop is an OpenMP loop; iterations write disjoint elements (each writes the
   elements idx_NDOS*dense_dim + its own column), the model runs them in order. *)
Definition CPVC_rows (N Nq Np : nat) (CT VC : kop) (P : csc) (deut qcom : list nat) (rows : list R) : outcome (list R) :=
  let D := N * Nq * Np in
  ofold (fun rows ac => ofold (fun rows qc => ofold (fun rows pc =>
      do pvc <- PVC_col N Nq Np VC P ac pc qc (repeat 0%R D);
      ofold (fun rows (id : nat * nat) => ofold (fun rows (jq : nat * nat) =>
          do x <- CPVC_row_element N Nq Np CT pvc (snd id) (snd jq);
          awrite rows ((fst id * length qcom + fst jq) * D + (ac * Nq * Np + qc * Np + pc)) x)
        (combine (seq 0 (length qcom)) qcom) rows) (combine (seq 0 (length deut)) deut) rows)
    (seq 0 Np) rows) (seq 0 Nq) rows) (seq 0 N) rows.
