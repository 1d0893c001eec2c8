(* Whole runs that compute the permutation matrix of a channel and store it (fill_P123_arrays, make_permutation_matrix.cpp
   l.1297-1402), as sequences of file accesses, so that several such processes can share a folder and can be killed:
   every access to a file is one step.  Pure parts are those of PioModel.  [V] is the type of doubles. *)
From Coq Require Import String.
From Verif Require Import Common ArrayLib PWModel NameModel PioModel.
Open Scope nat_scope.

Section Run.
Variable V : Type.
Variable veqb : V -> V -> bool.
Notation h5file := (h5file V).
Notation fsys := (fsys V).
Notation elem := (elem V).

(* a process: finished, or about to replace a file, or about to look at one *)
Inductive proc (A : Type) : Type :=
| Ret (o : outcome A)
| Write (n : string) (f : h5file) (k : proc A)
| Look (n : string) (k : option h5file -> proc A).
Arguments Ret {A} _. Arguments Write {A} _ _ _. Arguments Look {A} _ _.
Fixpoint bindp {A B} (p : proc A) (g : A -> proc B) : proc B :=
  match p with
  | Ret (Ok a) => g a | Ret Err => Ret Err | Ret Exc => Ret Exc | Ret UB => Ret UB
  | Write n f k => Write n f (bindp k g)
  | Look n k => Look n (fun o => bindp (k o) g)
  end.
Fixpoint foldp {S X} (f : S -> X -> proc S) (l : list X) (s : S) : proc S :=
  match l with [] => Ret (Ok s) | x :: r => bindp (f s x) (fun s' => foldp f r s') end.

(* one step of a process *)
Definition step {A} (c : proc A * fsys) : proc A * fsys :=
  match fst c with
  | Ret _ => c
  | Write n f k => (k, fs_write V (snd c) n f)
  | Look n k => (k (snd c n), snd c)
  end.
(* several processes: schedule [sched] says whose turn it is; a process that gets no more turns was killed *)
Fixpoint set_nth {X} (l : list X) (i : nat) (x : X) : list X :=
  match l, i with [], _ => [] | _ :: r, O => x :: r | y :: r, S j => y :: set_nth r j x end.
Definition turn {A} (st : list (proc A) * fsys) (i : nat) : list (proc A) * fsys :=
  match nth_error (fst st) i with
  | None => st
  | Some p => let c := step (p, snd st) in (set_nth (fst st) i (fst c), snd c)
  end.
Definition interleave {A} (sched : list nat) (st : list (proc A) * fsys) : list (proc A) * fsys := fold_left turn sched st.

(* A file that was truncated by H5Fcreate and not completed: the datasets are missing, every read of it fails. *)
Definition broken : h5file := mkh5 V 0 0 0 0 [] [] [] [].

(* store_sparse_permutation_matrix_for_3N_channel_h5, disk_io_routines.cpp l.1078-1165: the checks and contents of store_h5;
   H5Fcreate(.., H5F_ACC_TRUNC, ..) is one step, the completed file another *)
Definition store_p (buf : list elem) (dim : nat) (sp : space V) (name : string) : proc unit :=
  match head_JP (sp_pw V sp) with
  | Ok (J, P) =>
    if negb (name_fits name) then Ret UB else
    if length buf <? dim then Ret UB else
    if (length (sp_pb V sp) <? sp_Np V sp + 1) || (length (sp_qb V sp) <? sp_Nq V sp + 1) then Ret UB else
    Write name broken (Write name
        (mkh5 V (length (sp_pw V sp)) (sp_Np V sp) (sp_Nq V sp) dim
           (firstn (sp_Np V sp + 1) (sp_pb V sp)) (firstn (sp_Nq V sp + 1) (sp_qb V sp))
           (map (pw_row J P) (sp_pw V sp)) (firstn dim buf)) (Ret (Ok tt)))
  | Err => Ret Err | Exc => Ret Exc | UB => Ret UB
  end.
(* read_sparse_permutation_matrix_for_3N_channel_h5 l.1167-1284: one look at the file *)
Definition read_p (sp : space V) (name : string) : proc (list elem) :=
  Look name (fun o => Ret (read_h5 V veqb (fun _ => o) sp name)).

Definition lift {A} (o : outcome A) : proc A := Ret o.

Section Channel.
Variable name_of : nat -> nat -> string.
Variable sp : space V.
(* make_permutation_matrix.cpp l.853-900: a thread emits an element *)
Definition push_p (B : nat) (ths : list (thread V)) (ev : nat * elem) : proc (list (thread V)) :=
  let '(t, e) := ev in
  bindp (lift (aread ths t)) (fun th =>
  bindp (lift (awrite (t_buf V th) (t_dim V th) e)) (fun buf =>
  let dim := t_dim V th + 1 in
  if B <=? dim then
    bindp (store_p buf dim sp (name_of t (t_tfc V th))) (fun _ =>
    lift (awrite ths t (mkth V buf 0 (t_tfc V th + 1))))
  else lift (awrite ths t (mkth V buf dim (t_tfc V th))))).
(* l.903-937 *)
Definition flush_p (ths : list (thread V)) (t : nat) : proc (list (thread V)) :=
  bindp (lift (aread ths t)) (fun th =>
  bindp (store_p (t_buf V th) (t_dim V th) sp (name_of t (t_tfc V th))) (fun _ =>
  lift (awrite ths t (mkth V (t_buf V th) (t_dim V th) (t_tfc V th + 1))))).
(* calculate_permutation_elements_for_3N_channel *)
Definition elements_p (B T : nat) (buf0 : nat -> list elem) (evs : list (nat * elem)) : proc (list nat) :=
  bindp (foldp (push_p B) evs (map (fun t => mkth V (buf0 t) 0 0) (seq 0 T))) (fun ths =>
  bindp (foldp flush_p (seq 0 T) ths) (fun ths => Ret (Ok (map (t_tfc V) ths)))).
(* read_and_merge_thread_files_to_single_array l.944-1142: existence test and dimension of each file (one look), then the
   elements of each existing file, then the checks and the sort *)
Variable srt : list Z -> list nat.
Definition find_files_p (tfc : list nat) : proc (list string * nat) :=
  foldp (fun acc t => foldp (fun (acc : list string * nat) k =>
      Look (name_of t k) (fun o => Ret (Ok (match o with
        | Some f => (fst acc ++ [name_of t k], snd acc + h_dim V f)%list
        | None => acc end)))) (seq 0 (nth t tfc 0)) acc) (seq 0 (length tfc)) ([], 0).
Definition merge_p (D : Z) (tfc : list nat) : proc (list elem) :=
  bindp (find_files_p tfc) (fun '(names, total) =>
  bindp (foldp (fun acc name => bindp (read_p sp name) (fun l => Ret (Ok (acc ++ l)%list))) names []) (fun all =>
  lift (if negb (length all =? total) then UB else
    do _ <- ofold (fun _ e => if index_ok V D e then Ok tt else Err) all tt;
    let ord := srt (map (fun e => e_row V e * D + e_col V e)%Z all) in
    do _ <- ofold (fun _ i => if i <? total then Ok tt else Err) ord tt;
    ofold (fun acc i => do e <- aread all i; Ok (acc ++ [e])%list) ord []))).
End Channel.

(* One computing run for one channel: model space, J_2N_max, threads, their buffers and the order of their events, the sort *)
Record crun := mkrun { r_sp : space V; r_J2 : Z; r_B : nat; r_T : nat; r_buf0 : nat -> list elem;
  r_evs : list (nat * elem); r_srt : list Z -> list nat }.

(* fill_P123_arrays l.1313-1402 with calculate_and_store_P123 = true, P123_recovery = false: names from the first state of
   the channel (l.1314-1322, l.143-157), compute (C72's elements arrive as r_evs), merge, store; the arrays are handed over *)
Definition fill_P123 (folder : string) (r : crun) : proc (list elem) :=
  let sp := r_sp r in
  let Np := Z.of_nat (sp_Np V sp) in let Nq := Z.of_nat (sp_Nq V sp) in
  bindp (lift (head_JP (sp_pw V sp))) (fun '(J, P) =>
  let name_of t k := subarray_file_name folder J P Np Nq (r_J2 r) (Z.of_nat t) (Z.of_nat k) in
  bindp (elements_p name_of sp (r_B r) (r_T r) (r_buf0 r) (r_evs r)) (fun tfc =>
  bindp (merge_p name_of sp (r_srt r) (Z.of_nat (length (sp_pw V sp) * sp_Nq V sp * sp_Np V sp)) tfc) (fun res =>
  bindp (store_p res (length res) sp (P123_file_name folder J P Np Nq (r_J2 r))) (fun _ => Ret (Ok res))))).
(* ... with calculate_and_store_P123 = false, solve_faddeev = true (l.1383-1400) *)
Definition fetch_P123 (folder : string) (sp : space V) (J2 : Z) : proc (list elem) :=
  bindp (lift (head_JP (sp_pw V sp))) (fun '(J, P) =>
  read_p sp (P123_file_name folder J P (Z.of_nat (sp_Np V sp)) (Z.of_nat (sp_Nq V sp)) J2)).

(* A history: sessions one after the other, each a set of simultaneous computing runs and the order in which they take
   their steps.  The log lists every run and what became of it. *)
Fixpoint play (folder : string) (fs : fsys) (h : list (list crun * list nat)) : fsys * list (crun * proc (list elem)) :=
  match h with
  | [] => (fs, [])
  | (rs, sched) :: h' =>
      let st := interleave sched (map (fill_P123 folder) rs, fs) in
      let rest := play folder (snd st) h' in
      (fst rest, combine rs (fst st) ++ snd rest)%list
  end.
(* a process run alone to its end *)
Fixpoint run {A} (p : proc A) (fs : fsys) : outcome A * fsys :=
  match p with
  | Ret o => (o, fs)
  | Write n f k => run k (fs_write V fs n f)
  | Look n k => run (k (fs n)) fs
  end.
End Run.
Arguments Ret {V A} _. Arguments Write {V A} _ _ _. Arguments Look {V A} _ _.
