(* The file of Neumann terms the iterative solver leaves behind (C98, C99).
   solve_faddeev.cpp: pade_method_solve l.492-493, 529, 813-858, 907-916, 1136-1167, 1222-1235; disk_io_routines.cpp:
   open_file l.16-31, store_complex_vector_with_comments l.147-178.  store_neumann_terms is true and store_An_arrays is false
   wherever the program sets them.
   The run of the solver is that of FaddeevModel; what is added is the array neumann_store_array, carried along, and the list
   of the blocks written, each with its number n and the contents of that array at the time.
   Simplified: opening the file succeeds. *)
From Coq Require Import Reals String Ascii.
From Verif Require Import Common ArrayLib NameModel PWModel SwpModel ResolventModel FaddeevModel TextModel ParamsModel.
Open Scope nat_scope.

(* l.1136-1167: as extract_terms, into neumann_store_array, which has one place per element *)
Definition store_terms (s : fsys) (conv : list bool) (cur : rows2) (l : list elt) (store : list cdouble) : outcome (list cdouble) :=
  ofold (fun b e =>
      do c <- aread conv (e_idx e);
      if c then Ok b else
      do x <- aread (fst cur) (e_row e * s_D s + e_col e);
      do y <- aread (snd cur) (e_row e * s_D s + e_col e);
      awrite b (e_idx e) (x, y)) l store.
(* l.836-858: n = 0 *)
Definition first_store (s : fsys) (prev_re : list R) (l : list elt) (store : list cdouble) : outcome (list cdouble) :=
  ofold (fun b e => do x <- aread prev_re (e_row e * s_D s + e_col e); awrite b (e_idx e) (x, 0%R)) l store.

Notation blocks := (list (nat * list cdouble)).
Record traced := mktraced { t_v : solver; t_store : list cdouble; t_blocks : blocks }.
(* l.919-1387, with l.1222-1235 at the end of each n *)
Definition term_step (s : fsys) (nc nch : nat) (conv convbu : list bool) (st : nst * list cdouble * blocks) (n : nat)
  : outcome (nst * list cdouble * blocks) :=
  do st' <- neumann_step s nc nch conv convbu (fst (fst st)) n;
  do store <- store_terms s conv (n_cur st') (el_elts s) (snd (fst st));
  Ok (st', store, (snd st ++ [(n, store)])%list).
Definition nm_step_t (det : list cdouble -> nat -> cdouble) (mem : strays) (s : fsys) (nc nch : nat) (t : traced) (NM : nat) : outcome traced :=
  let v := t_v t in
  if v_count v =? s_nd s * s_nd s * s_nq s then Ok t else
  do '(n, store, bl) <- ofold (term_step s nc nch (p_conv (v_el v)) (p_conv (v_bu v))) (ns NM) (v_n v, t_store t, t_blocks t);
  do '(el, cnt) <- pade_order det (fst mem) NM (n_a n) (el_elts s) (v_el v, v_count v);
  do '(bu, cnt) <- pade_order det (snd mem) NM (n_abu n) (bu_elts s) (v_bu v, cnt);
  Ok (mktraced (mksolver n el bu cnt) store bl).
Definition pade_run_t det (mem : strays) (s : fsys) (nc nch : nat) : outcome traced :=
  do n <- neumann_init s;
  do store <- first_store s (fst (n_prev n)) (el_elts s) (repeat c0 (s_nd s * s_nd s * s_nq s));     (* l.492 *)
  ofold (nm_step_t det mem s nc nch) (seq 0 (NM_max + 1))
    (mktraced (mksolver n (fresh_pst (s_nd s * s_nd s * s_nq s)) (fresh_pst (if s_breakup s then s_nd s * s_nBU s else 0)) 0)
       store [(0, store)]).
(* the whole of pade_method_solve: the amplitudes, and the blocks written *)
Definition pade_method_traced det (mem : strays) (s : fsys) (U UBU : list cdouble) : outcome (list cdouble * list cdouble * blocks) :=
  do '(nc, nch) <- chunking (zn (s_D s));
  do t <- pade_run_t det mem s (Z.to_nat nc) (Z.to_nat nch);
  do U <- report (v_el (t_v t)) (el_elts s) U;
  do UBU <- report (v_bu (t_v t)) (bu_elts s) UBU;
  Ok (U, UBU, t_blocks t).

(* ---------- the text ---------- *)
Open Scope string_scope.
Definition TAB : string := String "009"%char EmptyString.
Definition zstr (n : nat) : string := to_string (Z.of_nat n).
(* l.813-834 *)
Definition index_comment (wave_row wave_col q : nat) : string :=
  TAB ++ "#" ++ TAB ++ " alpha'-idx=" ++ zstr wave_row ++ TAB ++ " alpha-idx=" ++ zstr wave_col ++ TAB ++ " q-idx=" ++ zstr q.
Definition comment_array (s : fsys) : outcome (list string) :=
  ofold (fun b (i : nat * nat * nat) => let '(dr, dc, k) := i in
      do a' <- aread (s_d s) dr; do a <- aread (s_d s) dc; do q <- aread (s_q s) k;
      awrite b (dr * s_nd s * s_nq s + dc * s_nq s + k)%nat (index_comment a' a q))
    (flat_map (fun dr => flat_map (fun dc => map (fun k => (dr, dc, k)) (seq 0 (s_nq s))) (seq 0 (s_nd s))) (seq 0 (s_nd s)))
    (repeat EmptyString (s_nd s * s_nd s * s_nq s)).

Section Text.
Variables (re im : cdouble -> double).          (* the doubles in memory *)
(* store_complex_vector_with_comments l.147-178: what it appends to the file *)
Definition number_line (v : cdouble) (c : string) : string := sci_pos 17 (re v) ++ " " ++ sci_pos 17 (im v) ++ " " ++ c.
Definition block_text (comments : list string) (b : nat * list cdouble) : string :=
  unlines ((("# " ++ "n = " ++ zstr (fst b))%string :: map (fun vc => number_line (fst vc) (snd vc)) (combine (snd b) comments)) ++ [""])%list.
(* open_file l.16-31: overwrite (rewrite_file = true) or append *)
Definition put_text (rewrite : bool) (name text : string) (fs : file_system) : file_system :=
  fun f => if String.eqb f name then Some (match rewrite, fs name with false, Some old => old ++ text | _, _ => text end) else fs f.
(* l.907-916: the first block overwrites, l.1222-1235: the others are appended *)
Definition put_blocks (name : string) (comments : list string) (bl : blocks) (fs : file_system) : file_system :=
  match bl with
  | [] => fs
  | b :: bl => fold_left (fun fs b => put_text false name (block_text comments b) fs) bl (put_text true name (block_text comments b) fs)
  end.
End Text.
(* l.529, with file_identification from main.cpp l.403-407 *)
Definition neumann_file_name (folder id : string) : string := folder ++ "/neumann_terms" ++ id ++ ".txt".
