(* Building, merging, storing and reading the sparse permutation matrix:
   make_permutation_matrix.cpp l.609-1142, l.1144-1231, disk_io_routines.cpp l.1078-1284.
   [V] is the type of doubles. *)
From Coq Require Import String.
From Verif Require Import Common ArrayLib PWModel NameModel.
Open Scope nat_scope.

Section Pio.
Variable V : Type.
Variable veqb : V -> V -> bool.     (* == on doubles *)
Variable vzero : V -> bool.         (* v == 0 *)

(* one sparse element: row (int), column (int), value *)
Definition elem : Type := (Z * Z * V)%type.
Definition e_row (e : elem) : Z := fst (fst e).
Definition e_col (e : elem) : Z := snd (fst e).

(* Contents of one HDF5 file written by store_sparse_permutation_matrix_for_3N_channel_h5; the three element
   datasets (rows, columns, values) are kept as one list. *)
Record h5file := mkh5 {
  h_Nalpha : nat; h_Np : nat; h_Nq : nat; h_dim : nat;
  h_pb : list V; h_qb : list V; h_pw : list pw; h_elems : list elem }.

Definition fsys := string -> option h5file.
(* H5Fcreate(.., H5F_ACC_TRUNC, ..) and the writes *)
Definition fs_write (fs : fsys) (name : string) (f : h5file) : fsys :=
  fun n => if String.eqb n name then Some f else fs n.

(* the arguments describing the model space *)
Record space := mkspace { sp_Np : nat; sp_pb : list V; sp_Nq : nat; sp_qb : list V; sp_pw : list pw }.

(* char filename[300]; strcpy(filename, name): needs room for the final zero *)
Definition name_fits (name : string) : bool := String.length name <? 300.

(* two_J_3N_array[0], P_3N_array[0] *)
Definition head_JP (l : list pw) : outcome (Z * Z) :=
  do s <- aread l 0; Ok (two_J_3N s, P_3N s).
(* write_PW_statespace_to_h5 l.1474-1545: J and P of the whole channel are those of the first state *)
Definition pw_row (J P : Z) (s : pw) : pw :=
  mkpw (L_2N s) (S_2N s) (J_2N s) (T_2N s) (L_1N s) (two_J_1N s) J (two_T_3N s) P.

(* store_sparse_permutation_matrix_for_3N_channel_h5 l.1078-1165: the first [dim] entries of the buffer *)
Definition store_h5 (fs : fsys) (buf : list elem) (dim : nat) (sp : space) (name : string) : outcome fsys :=
  do '(J, P) <- head_JP (sp_pw sp);
  if negb (name_fits name) then UB else
  if length buf <? dim then UB else
  if (length (sp_pb sp) <? sp_Np sp + 1) || (length (sp_qb sp) <? sp_Nq sp + 1) then UB else
  Ok (fs_write fs name
        (mkh5 (length (sp_pw sp)) (sp_Np sp) (sp_Nq sp) dim
           (firstn (sp_Np sp + 1) (sp_pb sp)) (firstn (sp_Nq sp + 1) (sp_qb sp))
           (map (pw_row J P) (sp_pw sp)) (firstn dim buf))).

(* for (i<n) if (file[i] != prog[i]) raise_error *)
Definition check_equal {X} (eqb : X -> X -> bool) (n : nat) (file prog : list X) : outcome unit :=
  ofold (fun _ i => do a <- aread file i; do b <- aread prog i; if eqb a b then Ok tt else Err) (seq 0 n) tt.

(* l.1260-1276 *)
Definition pw_same (J P : Z) (f s : pw) : bool :=
  (L_2N f =? L_2N s)%Z && (S_2N f =? S_2N s)%Z && (J_2N f =? J_2N s)%Z && (T_2N f =? T_2N s)%Z
  && (L_1N f =? L_1N s)%Z && (two_J_1N f =? two_J_1N s)%Z && (two_T_3N f =? two_T_3N s)%Z
  && (two_J_3N f =? J)%Z && (P_3N f =? P)%Z.

(* read_sparse_permutation_matrix_for_3N_channel_h5 l.1167-1284.  A missing file makes H5Dread fail: the status check
   stops the program.  The element arrays have P123_sparse_dim entries and H5Dread fills them from the whole dataset. *)
Definition read_h5 (fs : fsys) (sp : space) (name : string) : outcome (list elem) :=
  do '(J, P) <- head_JP (sp_pw sp);
  if negb (name_fits name) then UB else
  match fs name with
  | None => Err
  | Some f =>
    if negb ((h_Nalpha f =? length (sp_pw sp)) && (h_Np f =? sp_Np sp) && (h_Nq f =? sp_Nq sp)) then Err else
    do _ <- check_equal veqb (sp_Np sp + 1) (h_pb f) (sp_pb sp);
    do _ <- check_equal veqb (sp_Nq sp + 1) (h_qb f) (sp_qb sp);
    do _ <- check_equal (pw_same J P) (length (sp_pw sp)) (h_pw f) (sp_pw sp);
    if length (h_elems f) =? h_dim f then Ok (h_elems f) else UB
  end.

(* ------ computing the elements: loops of l.737-905 ------ *)
Section Elements.
Variables (Nalpha Np Nq : nat).
Variable ovl : nat -> nat -> nat -> nat -> bool.                    (* pq_WP_overlap_array, qp pp q p *)
Variable value : nat -> nat -> nat -> nat -> nat -> nat -> V.       (* P123_element, alphap qp pp alpha q p *)

(* l.845-846 *)
Definition P123_idx (alpha q p : nat) : nat := alpha * Nq * Np + q * Np + p.
(* what one iteration of the parallel loop over qp emits, in order *)
Definition work (qp : nat) : list elem :=
  flat_map (fun pp =>
  flat_map (fun alphap =>
  flat_map (fun alpha =>
  flat_map (fun q =>
  flat_map (fun p =>
     if ovl qp pp q p then
       if vzero (value alphap qp pp alpha q p) then []
       else [ (Z.of_nat (P123_idx alphap qp pp), Z.of_nat (P123_idx alpha q p), value alphap qp pp alpha q p) ]
     else [])
  (seq 0 Np)) (seq 0 Nq)) (seq 0 Nalpha)) (seq 0 Nalpha)) (seq 0 Np).
End Elements.

(* ------ thread buffers: l.636-655, l.853-900, l.918-949 ------ *)
Record thread := mkth { t_buf : list elem; t_dim : nat; t_tfc : nat }.
Record mem := mkmem { m_th : list thread; m_fs : fsys }.

Variable name_of : nat -> nat -> string.     (* generate_subarray_file_name for this channel: thread, TFC *)
Variable sp : space.

(* thread [t] emits [e]; [B] is tread_buffer_size *)
Definition push (B : nat) (m : mem) (ev : nat * elem) : outcome mem :=
  let '(t, e) := ev in
  do th <- aread (m_th m) t;
  do buf <- awrite (t_buf th) (t_dim th) e;
  let dim := t_dim th + 1 in
  if B <=? dim then
    do fs <- store_h5 (m_fs m) buf dim sp (name_of t (t_tfc th));
    do ths <- awrite (m_th m) t (mkth buf 0 (t_tfc th + 1));
    Ok (mkmem ths fs)
  else
    do ths <- awrite (m_th m) t (mkth buf dim (t_tfc th));
    Ok (mkmem ths (m_fs m)).

(* l.918-949 *)
Definition final_flush (m : mem) (t : nat) : outcome mem :=
  do th <- aread (m_th m) t;
  do fs <- store_h5 (m_fs m) (t_buf th) (t_dim th) sp (name_of t (t_tfc th));
  do ths <- awrite (m_th m) t (mkth (t_buf th) (t_dim th) (t_tfc th + 1));
  Ok (mkmem ths fs).

(* calculate_permutation_elements_for_3N_channel: [T] threads, events in the order they happen, buffers with
   arbitrary initial contents [buf0 t] of length B.  Returns the file system and max_TFC_array. *)
Definition calculate_elements (B T : nat) (buf0 : nat -> list elem) (fs : fsys) (evs : list (nat * elem)) : outcome (fsys * list nat) :=
  do m <- ofold (push B) evs (mkmem (map (fun t => mkth (buf0 t) 0 0) (seq 0 T)) fs);
  do m <- ofold final_flush (seq 0 T) m;
  Ok (m_fs m, map t_tfc (m_th m)).

(* ------ merging: l.951-1142 ------ *)
Definition file_list (fs : fsys) (tfc : list nat) : list string :=
  flat_map (fun t => flat_map (fun k => match fs (name_of t k) with Some _ => [name_of t k] | None => [] end)
                       (seq 0 (nth t tfc 0))) (seq 0 (length tfc)).

(* std::sort on indices with the comparison v[i1] < v[i2]: any function (see [sorts] in PioSpec) *)
Variable srt : list Z -> list nat.

(* the comparisons of l.1058-1066 *)
Definition index_ok (D : Z) (e : elem) : bool :=
  negb ((D <? e_row e)%Z || (e_row e <? 0)%Z) && negb ((D <? e_col e)%Z || (e_col e <? 0)%Z)
  && negb (D * D <? e_row e * D + e_col e)%Z.
(* (size_t) of a negative int exceeds any dimension: also rejected by the first two tests *)

Definition merge_files (D : Z) (fs : fsys) (tfc : list nat) : outcome (list elem) :=
  let names := file_list fs tfc in
  let total := fold_left (fun n name => n + match fs name with Some f => h_dim f | None => 0 end) names 0 in
  do all <- ofold (fun acc name => do l <- read_h5 fs sp name; Ok (acc ++ l)%list) names [];
  (* the output arrays have [total] entries *)
  if negb (length all =? total) then UB else
  do _ <- ofold (fun _ e => if index_ok D e then Ok tt else Err) all tt;
  let ord := srt (map (fun e => e_row e * D + e_col e)%Z all) in
  do _ <- ofold (fun _ i => if i <? total then Ok tt else Err) ord tt;
  ofold (fun acc i => do e <- aread all i; Ok (acc ++ [e])%list) ord [].

(* calculate_permutation_matrices_for_all_3N_channels l.1144-1231 with P123_recovery = false *)
Definition build (D : Z) (B T : nat) (buf0 : nat -> list elem) (fs : fsys) (evs : list (nat * elem)) : outcome (fsys * list elem) :=
  do '(fs, tfc) <- calculate_elements B T buf0 fs evs;
  do r <- merge_files D fs tfc;
  Ok (fs, r).

(* P123_recovery = true, l.1198-1231, in exact arithmetic: [hits] of [cells] table entries are true *)
Definition recovery_max_TFC (D cells hits T : Z) : Z :=
  let nnz := (D * D * hits / cells + 1)%Z in
  let bytes := (2 * nnz * 8 + 4 * nnz * 4)%Z in
  (bytes / (2 ^ 30 * (T * 1)))%Z.
Definition recover (D : Z) (cells hits : Z) (T : nat) (fs : fsys) : outcome (list elem) :=
  merge_files D fs (repeat (Z.to_nat (recovery_max_TFC D cells hits (Z.of_nat T))) T).
End Pio.
