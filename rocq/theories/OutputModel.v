(* Result files: store_U_matrix_elements_txt (disk_io_routines.cpp l.759-913) and restructure_breakup_data (l.341-564).
   What is modelled is the sequence of cells (text fields) and headers, not the number formatting or the comment lines. *)
From Coq Require Import String Ascii.
From Verif Require Import Common ArrayLib NameModel PWModel SwpModel ResolventModel.
Open Scope string_scope.
Open Scope list_scope.
Open Scope nat_scope.

Definition str_of_nat (n : nat) : string := to_string (Z.of_nat n).

Section Output.
Variable V : Type.       (* numbers *)

(* ---------- elastic ---------- *)
(* one line of table 1, l.842-853: Name, row-idx, col-idx, l', 2*j', l, 2*j *)
Record t1_line := mkt1 { t1_name : string; t1_row : nat; t1_col : nat; t1_lp : Z; t1_jp : Z; t1_l : Z; t1_j : Z }.
(* l.829-856 *)
Definition table1 (states : list pw) (deut : list nat) : outcome (list t1_line) :=
  let nd := length deut in
  ofold (fun acc r =>
      do ar <- aread deut r; do sr <- aread states ar;
      ofold (fun acc c =>
          do ac <- aread deut c; do sc <- aread states ac;
          Ok (acc ++ [mkt1 ("U" ++ str_of_nat r ++ str_of_nat c)%string r c (L_1N sr) (two_J_1N sr) (L_1N sc) (two_J_1N sc)]))
        (seq 0 nd) acc)
    (seq 0 nd) [].
(* l.859-862 *)
Definition headers2 : list string :=
  ["Tlab [MeV]"; "Ecm [MeV]"; "q_idx"; "U00 [MeV]"; "U01 [MeV]"; "U02 [MeV]"; "U10 [MeV]"; "U11 [MeV]"; "U12 [MeV]"; "U20 [MeV]"; "U21 [MeV]"; "U22 [MeV]"]%string.
(* one line of table 2 *)
Record t2_line := mkt2 { t2_T : V; t2_E : V; t2_q : nat; t2_U : list V }.
(* l.877-906 *)
Definition table2 (nd nq : nat) (U T E : list V) (q_com_idx : list nat) : outcome (list t2_line) :=
  ofold (fun acc q =>
      do qi <- aread q_com_idx q; do t <- aread T q; do e <- aread E q;
      do us <- ofold (fun us r => ofold (fun us c => do u <- aread U (r * nd * nq + c * nq + q); Ok (us ++ [u])) (seq 0 nd) us) (seq 0 nd) [];
      Ok (acc ++ [mkt2 t e qi us]))
    (seq 0 nq) [].
(* the parity check l.791-794 *)
Definition store_U (states : list pw) (deut : list nat) (nq : nat) (U T E : list V) (q_com_idx : list nat)
  : outcome (list t1_line * list string * list t2_line) :=
  do s0 <- aread states 0;
  if negb ((P_3N s0 =? 1) || (P_3N s0 =? -1))%Z then Err else
  do t1 <- table1 states deut;
  do t2 <- table2 (length deut) nq U T E q_com_idx;
  Ok (t1, headers2, t2).

(* ---------- breakup ---------- *)
(* std::map<int,int>; int overflow of the keys is not modelled *)
Definition fmap := list (nat * nat).
Definition fget (m : fmap) (k : nat) : option nat :=
  match find (fun e => fst e =? k) m with Some e => Some (snd e) | None => None end.
Definition fset (m : fmap) (k v : nat) : fmap := (k, v) :: filter (fun e => negb (fst e =? k)) m.
(* operator[] on an absent key inserts 0 *)
Definition fget0 (m : fmap) (k : nat) : nat := match fget m k with Some v => v | None => 0 end.

(* l.420 *)
Definition bu_label (col row : pw) : string :=
  ("<" ++ to_string (L_2N col) ++ "," ++ to_string (S_2N col) ++ "," ++ to_string (J_2N col) ++ "," ++ to_string (L_1N col) ++ ","
   ++ to_string (two_J_1N col) ++ "|U|" ++ to_string (L_1N row) ++ "," ++ to_string (two_J_1N row) ++ ">")%string.

(* headers as (kind, text), l.387-391 and l.425-430 *)
Definition bu_headers0 : list (string * string) :=
  [("real", "Tlab [MeV]"); ("real", "Ecm [MeV]"); ("real", "qcm [MeV] (init.)"); ("real", "qlo [MeV] (init.)"); ("real", "qup [MeV] (init.)")]%string.
Definition bu_headers_chn (label : string) : list (string * string) :=
  [("comp", label); ("real", "qlo [MeV]"); ("real", "qup [MeV]"); ("real", "plo [MeV]"); ("real", "pup [MeV]")]%string.

Record pass1 := mkp1 { p_alpha : fmap; p_count : nat; p_row : fmap; p_head : list (string * string) }.

Variable states : list pw.
Variable deut : list nat.                    (* deuteron_idx_array *)
Variable cells : list (Z * Z * Z).           (* alphapq_idx_array *)
Variable ends : list nat.                    (* q_com_BU_idx_array *)
Let Nalpha := length states.
Let nd := length deut.

(* the (deuteron channel, breakup cell) pairs of energy q in loop order, l.405-411 *)
Definition bu_items (b e : nat) : list (nat * nat) := flat_map (fun d => map (fun bu => (d, bu)) (seq b (e - b))) (seq 0 nd).

(* l.411-447: one pair; [rn] is row_num_map, [base] num_rows_vec[q_idx] *)
Definition pass1_item (base : nat) (st : pass1 * fmap) (it : nat * nat) : outcome (pass1 * fmap) :=
  let '(p, rn) := st in let '(d, bu) := it in
  do arow <- aread deut d; do srow <- aread states arow;
  do cell <- aread cells bu;
  let acol := fst (fst cell) in
  do scol <- zread states acol;
  let key_alpha := Z.to_nat acol * Nalpha + arow in
  let key_row := bu * Nalpha + arow in
  let p := match fget (p_alpha p) key_alpha with
           | Some _ => p
           | None => mkp1 (fset (p_alpha p) key_alpha (p_count p)) (p_count p + 1) (p_row p) (p_head p ++ bu_headers_chn (bu_label scol srow))
           end in
  match fget rn key_alpha with
  | None => Ok (mkp1 (p_alpha p) (p_count p) (fset (p_row p) key_row base) (p_head p), fset rn key_alpha (base + 1))
  | Some n => Ok (mkp1 (p_alpha p) (p_count p) (fset (p_row p) key_row n) (p_head p), fset rn key_alpha (n + 1))
  end.
(* l.450-457 *)
Definition longest (rn : fmap) : nat := fold_left (fun m e => if m <? snd e then snd e else m) rn 0.
(* l.399-458 *)
Definition pass1_q (st : pass1 * list nat) (q : nat) : outcome (pass1 * list nat) :=
  let '(p, nrv) := st in
  do b <- aread ends q; do e <- aread ends (q + 1);
  do base <- aread nrv q;
  do '(p, rn) <- ofold (pass1_item base) (bu_items b e) (p, []);
  Ok (p, nrv ++ [longest rn]).
Definition pass1_all (nq : nat) : outcome (pass1 * list nat) :=
  ofold pass1_q (seq 0 nq) (mkp1 [] 0 [] bu_headers0, [0]).

(* second pass, l.470-563 *)
Variable zero : V.
Variable pmom : V -> V.                      (* com_energy_to_com_p_momentum *)
Variables U T E qcm : list V.
Variable q_com_idx : list nat.
Variable qWP e_unco e_coup : list V.
Variables tensor iso : bool.
Variable Np : nat.

(* l.483-489: the writes of one row, as (index, value) *)
Definition row_writes (cols : nat) (t e k lo hi : V) (row : nat) : list (nat * V) :=
  [(row * cols + 0, t); (row * cols + 1, e); (row * cols + 2, k); (row * cols + 3, lo); (row * cols + 4, hi)].
(* l.495-561: the writes of one pair; e_block is the pointer selection l.503-541 (ResolventModel.v) *)
Definition item_writes (p : pass1) (cols : nat) (it : nat * nat) : outcome (list (nat * V)) :=
  let '(d, bu) := it in
  do arow <- aread deut d; do cell <- aread cells bu;
  let '(acol, iq, ip) := cell in
  do scol <- zread states acol;
  do '(coup, off) <- e_block tensor iso (Z.of_nat Np) scol;
  let ep := if coup then e_coup else e_unco in
  do ql <- zread qWP iq; do qu <- zread qWP (iq + 1);
  do el <- zread ep (off + ip); do eu <- zread ep (off + ip + 1);
  do u <- aread U (d * length cells + bu);
  let c := 5 * fget0 (p_alpha p) (Z.to_nat acol * Nalpha + arow) + 5 in
  let r := fget0 (p_row p) (bu * Nalpha + arow) in
  Ok [(r * cols + c + 0, u); (r * cols + c + 1, ql); (r * cols + c + 2, qu); (r * cols + c + 3, pmom el); (r * cols + c + 4, pmom eu)].
Definition q_writes (p : pass1) (nrv : list nat) (cols q : nat) : outcome (list (nat * V)) :=
  do qi <- aread q_com_idx q; do b <- aread ends q; do e <- aread ends (q + 1);
  do t <- aread T q; do ec <- aread E q; do k <- aread qcm q; do lo <- aread qWP qi; do hi <- aread qWP (qi + 1);
  do r0 <- aread nrv q; do r1 <- aread nrv (q + 1);
  do w <- ofold (fun acc it => do x <- item_writes p cols it; Ok (acc ++ x)) (bu_items b e) [];
  Ok (flat_map (row_writes cols t ec k lo hi) (seq r0 (r1 - r0)) ++ w).
(* Nothing of data_mat is read, so the second pass is: its writes, in order. *)
Definition restructure_breakup_data (nq : nat) : outcome (list (string * string) * list V * nat * nat) :=
  do '(p, nrv) <- pass1_all nq;
  do rows <- aread nrv (length nrv - 1);
  let cols := length (p_head p) in
  do w <- ofold (fun acc q => do x <- q_writes p nrv cols q; Ok (acc ++ x)) (seq 0 nq) [];
  do data <- ofold (fun a x => awrite a (fst x) (snd x)) w (repeat zero (cols * rows));
  Ok (p_head p, data, rows, cols).
End Output.
