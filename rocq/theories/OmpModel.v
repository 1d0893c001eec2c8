(* The OpenMP parallel regions of the program, at the level of single memory accesses.
   Every thread of a region runs its own sequence of reads and writes of the shared arrays; an arbitrary schedule says whose
   access comes next.  Arrays that no statement of a region writes are read by pure functions (such reads cannot conflict
   with anything); variables declared inside the region are private and travel in the thread's own state.
   A `#pragma omp for` gives every iteration of the loop to exactly one thread; which thread, and in which order a thread
   does its iterations, is left open.  Interleaving semantics: the weak memory effects of a data race are not modelled,
   instead every access is logged and conflicting accesses are visible in the log. *)
From Coq Require Import String Reals Permutation.
From Verif Require Import Common ArrayLib PWModel SwpModel KernelModel FaddeevModel GeoModel GridModel PermModel PioModel.
From Verif Require PRunModel.
Open Scope nat_scope.
Open Scope list_scope.

Section Machine.
Variables (L V : Type) (leqb : L -> L -> bool).

(* a thread: finished, or about to read or to write one shared location *)
Inductive acc (A : Type) : Type :=
| Done (o : outcome A)
| Rd (l : L) (k : V -> acc A)
| Wr (l : L) (v : V) (k : acc A).
Arguments Done {A} _. Arguments Rd {A} _ _. Arguments Wr {A} _ _ _.

(* None: not allocated *)
Definition memory := L -> option V.
Definition update (m : memory) (l : L) (v : V) : memory := fun x => if leqb x l then Some v else m x.

Fixpoint abind {A B} (p : acc A) (g : A -> acc B) : acc B :=
  match p with
  | Done (Ok a) => g a | Done Err => Done Err | Done Exc => Done Exc | Done UB => Done UB
  | Rd l k => Rd l (fun v => abind (k v) g)
  | Wr l v k => Wr l v (abind k g)
  end.
(* for (x : l) body *)
Fixpoint afold {S X} (f : S -> X -> acc S) (l : list X) (s : S) : acc S :=
  match l with [] => Done (Ok s) | x :: r => abind (f s x) (fun s' => afold f r s') end.

(* one access; an access outside every array is undefined behaviour *)
Definition step {A} (c : acc A * memory) : acc A * memory :=
  match fst c with
  | Done _ => c
  | Rd l k => match snd c l with Some v => (k v, snd c) | None => (Done UB, snd c) end
  | Wr l v k => match snd c l with Some _ => (k, update (snd c) l v) | None => (Done UB, snd c) end
  end.
(* alone to its end *)
Fixpoint run {A} (p : acc A) (m : memory) : outcome A * memory :=
  match p with
  | Done o => (o, m)
  | Rd l k => match m l with Some v => run (k v) m | None => (UB, m) end
  | Wr l v k => match m l with Some _ => run k (update m l v) | None => (UB, m) end
  end.

(* location and whether it is a write *)
Definition event : Type := (nat * (L * bool))%type.
Definition access {A} (p : acc A) : option (L * bool) :=
  match p with Done _ => None | Rd l _ => Some (l, false) | Wr l _ _ => Some (l, true) end.

Record state (A : Type) := mkst { threads : list (acc A); shared : memory; elog : list event }.
Arguments mkst {A} _ _ _. Arguments threads {A} _. Arguments shared {A} _. Arguments elog {A} _.
Definition turn {A} (st : state A) (t : nat) : state A :=
  match nth_error (threads st) t with
  | None => st
  | Some p =>
      let c := step (p, shared st) in
      mkst (PRunModel.set_nth (threads st) t (fst c)) (snd c)
        (match access p with Some e => (t, e) :: elog st | None => elog st end)
  end.
(* a parallel region: threads, memory at its start, schedule *)
Definition parallel {A} (ps : list (acc A)) (m : memory) (sched : list nat) : state A := fold_left turn sched (mkst ps m []).

(* every thread came to its end (the implicit barrier lets the program go on) *)
Definition finished {A} (st : state A) : Prop := forall t p, nth_error (threads st) t = Some p -> exists a, p = Done (Ok a).
Definition failed {A} (st : state A) : Prop := exists t o, nth_error (threads st) t = Some (Done o) /\ forall a, o <> Ok a.
(* two threads touch the same location, one of them writes; nothing inside a region orders them *)
Definition race_on (lg : list event) (l : L) : Prop :=
  exists t t' w w', t <> t' /\ In (t, (l, w)) lg /\ In (t', (l, w')) lg /\ (w = true \/ w' = true).

(* #pragma omp parallel { private state; #pragma omp for ... }: thread t does the iterations nth t assign *)
Definition omp_for {S X} (body : nat -> S -> X -> acc S) (init : nat -> S) (assign : list (list X)) : list (acc S) :=
  map (fun tl => afold (body (fst tl)) (snd tl) (init (fst tl))) (combine (seq 0 (length assign)) assign).
(* #pragma omp parallel without omp for: every thread runs the whole block *)
Definition omp_all {A} (T : nat) (p : nat -> acc A) : list (acc A) := map p (seq 0 T).
End Machine.
Arguments Done {L V A} _. Arguments Rd {L V A} _ _. Arguments Wr {L V A} _ _ _.
Arguments mkst {L V A} _ _ _. Arguments threads {L V A} _. Arguments shared {L V A} _. Arguments elog {L V A} _.
Arguments abind {L V A B} _ _. Arguments afold {L V S X} _ _ _. Arguments access {L V A} _.
Arguments step {L V} leqb {A} _. Arguments run {L V} leqb {A} _ _. Arguments update {L V} leqb _ _ _ _.
Arguments turn {L V} leqb {A} _ _. Arguments parallel {L V} leqb {A} _ _ _. Arguments finished {L V A} _. Arguments failed {L V A} _.
Arguments race_on {L} _ _. Arguments omp_for {L V S X} _ _ _. Arguments omp_all {L V A} _ _.

Definition ret {L V A} (a : A) : acc L V A := Done (Ok a).

(* ---------- on-shell kernel rows: calculate_all_CPVC_rows, solve_faddeev.cpp l.198-268 ---------- *)
(* Shared and written: row_arrays.  Private: PVC_col (l.202), allocated once per thread and zeroed in every column
   (l.211-213).  One iteration of the omp loop is one idx_alpha_c. *)
Definition rows_cell (N Nq Np nq : nat) (ac qc pc i j : nat) : nat := (i * nq + j) * (N * Nq * Np) + (ac * Nq * Np + qc * Np + pc).
Definition rows_body (N Nq Np : nat) (CT VC : kop) (P : csc) (deut qcom : list nat) (t : nat) (buf : list R) (ac : nat)
  : acc nat R (list R) :=
  afold (fun buf qc => afold (fun buf pc =>
      abind (Done (ofold (fun b k => awrite b k 0%R) (seq 0 (N * Nq * Np)) buf)) (fun buf =>
      abind (Done (PVC_col N Nq Np VC P ac pc qc buf)) (fun buf =>
      abind (afold (fun (_ : unit) (id : nat * nat) => afold (fun (_ : unit) (jq : nat * nat) =>
          abind (Done (CPVC_row_element N Nq Np CT buf (snd id) (snd jq))) (fun x =>
          Wr (rows_cell N Nq Np (length qcom) ac qc pc (fst id) (fst jq)) x (ret tt)))
        (combine (seq 0 (length qcom)) qcom) tt) (combine (seq 0 (length deut)) deut) tt) (fun _ => ret buf))))
    (seq 0 Np) buf) (seq 0 Nq) buf.

(* ---------- kernel columns of a chunk: solve_faddeev.cpp l.1037-1068, calculate_CPVC_col l.50-180 ---------- *)
(* Shared and written: CPVC_cols_array (cells (0, k)) and counter_array (cells (1, t)), an array of 100 counters (l.930). *)
Definition cols_val : Type := (R + nat)%type.
Definition col_add {A} (k : nat) (x : R) (p : acc (nat * nat) cols_val A) : acc (nat * nat) cols_val A :=
  Rd (0, k) (fun old => match old with inl o => Wr (0, k) (inl (o + x)%R) p | inr _ => Done UB end).
Definition col_prog (N Nq Np : nat) (CT VC : kop) (P : csc) (ac pc qc : nat) (base : nat) : acc (nat * nat) cols_val unit :=
  abind (Done (PVC_col N Nq Np VC P ac pc qc (repeat 0%R (N * Nq * Np)))) (fun pvc =>
  afold (fun _ ar => afold (fun _ ai =>
      abind (Done (aread (k_ptr CT) (ar * N + ai))) (fun p =>
      match p with
      | None => ret tt
      | Some _ =>
          afold (fun _ qr => afold (fun _ pi =>
              abind (Done (aread pvc (ai * Nq * Np + (qr * Np + pi)))) (fun e =>
              if Reqb e 0 then ret tt else
              afold (fun _ pr =>
                  abind (Done (kread CT p (pr * Np + pi))) (fun c =>
                  col_add (base + (ar * Nq * Np + qr * Np + pr)) (e * c)%R (ret tt))) (seq 0 Np) tt))
            (seq 0 Np) tt) (seq 0 Nq) tt
      end)) (seq 0 N) tt) (seq 0 N) tt).
(* counter_array[thread_idx] += CPVC_num_nnz: the counter of non-zero elements is never increased (l.1052, l.50-180).
   A cell of counter_array never holds anything but a counter: the other case does not occur. *)
Definition cols_body (s : FaddeevModel.fsys) (st : nat) (t : nat) (_ : unit) (idx_col : nat) : acc (nat * nat) cols_val unit :=
  abind (col_prog (s_N s) (s_Nq s) (s_Np s) (s_CT s) (s_VC s) (s_P s)
    (idx_col / (s_Np s * s_Nq s)) (idx_col mod s_Np s) ((idx_col mod (s_Np s * s_Nq s)) / s_Np s) ((idx_col - st) * s_D s)) (fun _ =>
  Rd (1, t) (fun c => Wr (1, t) (inr (match c with inr n => n | inl _ => 0 end + 0)) (ret tt))).

(* the memory at the start of the region *)
Definition cols_mem (cols : list R) (counters : list nat) : memory (nat * nat) cols_val := fun l =>
  match fst l with 0 => option_map inl (nth_error cols (snd l)) | 1 => option_map inr (nth_error counters (snd l)) | _ => None end.

(* ---------- coupling tables: make_permutation_matrix.cpp l.416-437 and l.477-500, omp for collapse(3) ---------- *)
Definition zwr {A} (i : Z) (v : R) (p : acc nat R A) : acc nat R A := if (i <? 0)%Z then Done UB else Wr (Z.to_nat i) v p.
Definition triples (a b c : list Z) : list (Z * Z * Z) :=
  flat_map (fun x => flat_map (fun y => map (fun z => (x, y, z)) c) b) a.
Definition sixj_iters (jm : Z) : list (Z * Z * Z) := triples (upto 0 jm) (upto 0 jm) (upto 0 jm).
Definition sixj_body (sixj : Z -> Z -> Z -> Z -> Z -> Z -> R) (jm : Z) (t : nat) (_ : unit) (x : Z * Z * Z) : acc nat R unit :=
  let '(a, b, c) := x in
  afold (fun _ d => afold (fun _ e => afold (fun _ f =>
    zwr (sixj_idx jm a b c d e f) (sixj a b c d e f) (ret tt)) (upto 0 jm) tt) (upto 0 jm) tt) (upto 0 jm) tt.
Definition cg_iters (jm : Z) : list (Z * Z * Z) := triples (upto 0 jm) (upto 0 jm) (upto 0 (2 * jm)).
Definition cg_body (cg_fun : Z -> Z -> Z -> Z -> Z -> Z -> R) (jm : Z) (t : nat) (_ : unit) (x : Z * Z * Z) : acc nat R unit :=
  let '(j1, j2, j3) := x in
  afold (fun _ m1 => afold (fun _ m2 =>
    zwr (cg_idx jm j1 j2 j3 m1 m2) (cg_fun j1 j2 j3 m1 m2 (m1 + m2)%Z) (ret tt)) (upto (- j2) j2) tt) (upto (- j1) j1) tt.

(* ---------- overlap table: make_permutation_matrix.cpp l.166-255 ---------- *)
(* Shared and written: phi_array (0), wphi_array (1) and pq_WP_overlap_array (2).  The phi nodes of the cell are read back for
   every (q, p); simplification: all Nphi of them, where the code stops at the first hit. *)
Inductive ov_val := VR (x : R) | VB (b : bool).
Definition rdR {A} (l : nat * nat) (k : R -> acc (nat * nat) ov_val A) : acc (nat * nat) ov_val A :=
  Rd l (fun v => match v with VR x => k x | VB _ => Done UB end).
Definition ov_body (roots : list R) (dleg : R -> R) (Np Nq : nat) (pb qb xs : list R) (t : nat) (_ : unit) (qp : nat)
  : acc (nat * nat) ov_val unit :=
  abind (Done (aread qb qp)) (fun qp_l => abind (Done (aread qb (qp + 1))) (fun qp_u =>
  afold (fun _ pp =>
      abind (Done (aread pb pp)) (fun pp_l => abind (Done (aread pb (pp + 1))) (fun pp_u =>
      let phi_lower := atan_ratio pp_l qp_u in
      let phi_upper := atan_ratio pp_u qp_l in
      let off := (qp * Np + pp) * Nphi roots in
      abind (afold (fun _ j => abind (Done (aread roots j)) (fun x =>
               Wr (1, off + j) (VR (gp_weight dleg phi_lower phi_upper x))
              (Wr (0, off + j) (VR (gp_node phi_lower phi_upper x)) (ret tt)))) (seq 0 (Nphi roots)) tt) (fun _ =>
      afold (fun _ q => abind (Done (aread qb q)) (fun q_l => abind (Done (aread qb (q + 1))) (fun q_u =>
        afold (fun _ p => abind (Done (aread pb p)) (fun p_l => abind (Done (aread pb (p + 1))) (fun p_u =>
          abind (afold (fun l j => rdR (0, off + j) (fun x => ret (l ++ [x]))) (seq 0 (Nphi roots)) []) (fun phis =>
          Wr (2, pq_idx Np Nq qp pp q p)
            (VB (cell_overlap phi_lower phi_upper pp_l pp_u qp_l qp_u p_l p_u q_l q_u phis xs)) (ret tt)))))
          (seq 0 Np) tt))) (seq 0 Nq) tt)))) (seq 0 Np) tt)).

(* ---------- loops of the merge: make_permutation_matrix.cpp l.1107-1138 (omp parallel without omp for) ---------- *)
(* every thread: for (i<n) tmp[i] = src[sorted[i]] *)
Definition gather_prog {A} (src : list A) (ord : list nat) (n : nat) : acc nat A unit :=
  afold (fun _ i => abind (Done (aread ord i)) (fun k => abind (Done (aread src k)) (fun v => Wr i v (ret tt)))) (seq 0 n) tt.
(* l.1057-1070: every thread fills the vector of one-dimensional indices *)
Definition coo_prog {V} (D : Z) (all : list (elem V)) (n : nat) : acc nat Z unit :=
  afold (fun _ i => abind (Done (aread all i)) (fun e =>
    if index_ok V D e then Wr i (e_row V e * D + e_col V e)%Z (ret tt) else Done Err)) (seq 0 n) tt.

(* ---------- elements of the permutation matrix: make_permutation_matrix.cpp l.691-886 ---------- *)
(* Shared and written: num_rows_calculated (Cnt), P123_dim_array_omp (Dim), max_TFC_array (Tfc), the buffers of a thread
   (Buf: row, column and value arrays as one), the files.  Storing a file is one access (the HDF5 library is not modelled);
   the numbers printed by thread 0 are not modelled, only the reads that make them. *)
Inductive eloc := Cnt (t : nat) | Dim (t : nat) | Tfc (t : nat) | Buf (t k : nat) | File (name : string).
Definition eloc_eqb (a b : eloc) : bool :=
  match a, b with
  | Cnt t, Cnt u => t =? u | Dim t, Dim u => t =? u | Tfc t, Tfc u => t =? u
  | Buf t k, Buf u j => (t =? u) && (k =? j)
  | File s, File r => String.eqb s r
  | _, _ => false
  end.
Inductive evalue (V : Type) := VNat (n : nat) | VElem (e : elem V) | VFile (f : option (h5file V)).
Arguments VNat {V} _. Arguments VElem {V} _. Arguments VFile {V} _.
Definition rdN {V A} (l : eloc) (k : nat -> acc eloc (evalue V) A) : acc eloc (evalue V) A :=
  Rd l (fun v => match v with VNat n => k n | _ => Done UB end).
Section ElementLoop.
Variable V : Type.
Variable vzero : V -> bool.
Variables (Nalpha Np Nq : nat).
Variable ovl : nat -> nat -> nat -> nat -> bool.
Variable value : nat -> nat -> nat -> nat -> nat -> nat -> V.
Variable name_of : nat -> nat -> string.
Variable sp : space V.
Variables (B T : nat).
Notation prog := (acc eloc (evalue V)).
(* the contents of the file that store_sparse_permutation_matrix_for_3N_channel_h5 creates *)
Definition new_file (buf : list (elem V)) (dim : nat) (name : string) : outcome (option (h5file V)) :=
  do fs <- store_h5 V (fun _ => None) buf dim sp name; Ok (fs name).
(* l.853-899 *)
Definition emit (t : nat) (e : elem V) : prog unit :=
  rdN (Dim t) (fun d => Wr (Buf t d) (VElem e) (Wr (Dim t) (VNat (d + 1)) (rdN (Tfc t) (fun c =>
  if B <=? d + 1 then
    abind (afold (fun l k => Rd (Buf t k) (fun v => match v with VElem x => ret (l ++ [x]) | _ => Done UB end)) (seq 0 (d + 1)) []) (fun buf =>
    abind (Done (new_file buf (d + 1) (name_of t c))) (fun f =>
    Wr (File (name_of t c)) (VFile f) (Wr (Dim t) (VNat 0) (rdN (Tfc t) (fun c' => Wr (Tfc t) (VNat (c' + 1)) (ret tt))))))
  else ret tt)))).
(* the non-zero elements of one row: l.769-848 *)
Definition row_work (qp pp alphap : nat) : list (elem V) :=
  flat_map (fun alpha => flat_map (fun q => flat_map (fun p =>
     if ovl qp pp q p then
       if vzero (value alphap qp pp alpha q p) then []
       else [ (Z.of_nat (P123_idx Np Nq alphap qp pp), Z.of_nat (P123_idx Np Nq alpha q p), value alphap qp pp alpha q p) ]
     else []) (seq 0 Np)) (seq 0 Nq)) (seq 0 Nalpha).
(* one iteration of the omp loop: l.737-883 *)
Definition elem_body (t : nat) (_ : unit) (qp : nat) : prog unit :=
  afold (fun _ pp =>
    abind (if t =? 0 then afold (fun _ i => Rd (Cnt i) (fun _ => ret tt)) (seq 0 T) tt else ret tt) (fun _ =>
    afold (fun _ alphap =>
      abind (afold (fun _ e => emit t e) (row_work qp pp alphap) tt) (fun _ =>
      rdN (Cnt t) (fun c => Wr (Cnt t) (VNat (c + 1)) (ret tt)))) (seq 0 Nalpha) tt)) (seq 0 Np) tt.
(* before the region: l.640-690 *)
Definition elem_mem (buf0 : nat -> list (elem V)) (fs : PioModel.fsys V) : memory eloc (evalue V) := fun l =>
  match l with
  | Cnt t | Dim t | Tfc t => if t <? T then Some (VNat 0) else None
  | Buf t k => if t <? T then option_map VElem (nth_error (buf0 t) k) else None
  | File n => Some (VFile (fs n))
  end.
End ElementLoop.
