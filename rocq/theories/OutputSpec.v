(* Small specification for the result files (C46, C56). *)
From Coq Require Import String.
From Verif Require Import Common NameModel PWModel OutputModel.
Open Scope string_scope.
Open Scope list_scope.
Open Scope nat_scope.

(* in a line of the elastic table the value printed under header h (the first three columns are Tlab, Ecm, q_idx) *)
Definition printed_under {V} (headers : list string) (line : t2_line V) (h : string) (v : V) : Prop :=
  exists k, nth_error headers (3 + k) = Some h /\ nth_error (t2_U V line) k = Some v.
(* amplitude from deuteron channel j to i at energy number q, as the solver stores it *)
Definition amplitude {V} (nd nq : nat) (U : list V) (i j q : nat) : option V := nth_error U ((i * nd + j) * nq + q).
Definition U_header (i j : nat) : string := "U" ++ str_of_nat i ++ str_of_nat j ++ " [MeV]".

(* breakup table: five columns for the energy, then five per final state c and deuteron channel r, titled
   <pair l,s,j, spectator l,2j | U | spectator l,2j of the deuteron channel> *)
Definition breakup_title (c r : pw) : string :=
  ("<" ++ String.concat "," (map to_string [L_2N c; S_2N c; J_2N c; L_1N c; two_J_1N c]) ++ "|U|"
      ++ String.concat "," (map to_string [L_1N r; two_J_1N r]) ++ ">")%string.
Definition energy_columns : list (string * string) :=
  [("real", "Tlab [MeV]"); ("real", "Ecm [MeV]"); ("real", "qcm [MeV] (init.)"); ("real", "qlo [MeV] (init.)"); ("real", "qup [MeV] (init.)")].
Definition state_columns (c r : pw) : list (string * string) :=
  [("comp", breakup_title c r); ("real", "qlo [MeV]"); ("real", "qup [MeV]"); ("real", "plo [MeV]"); ("real", "pup [MeV]")].

(* breakup table: row r, column c *)
Definition entry {V} (data : list V) (cols r c : nat) : option V := if c <? cols then nth_error data (r * cols + c) else None.
(* spectator bin [ql,qu] and pair-energy bin [el,eu] of a breakup cell (state, q bin, p bin); e_block says where the pair energies of a
   state are (C33/C54 relate it to the two-nucleon channel) *)
Definition bins_of {V} (states : list pw) (qWP e_unco e_coup : list V) (tensor iso : bool) (Np : nat) (t : Z * Z * Z) (ql qu el eu : V) : Prop :=
  let '(a, iq, ip) := t in
  exists s coup off, SwpModel.zread states a = Ok s /\ ResolventModel.e_block tensor iso (Z.of_nat Np) s = Ok (coup, off) /\
    SwpModel.zread qWP iq = Ok ql /\ SwpModel.zread qWP (iq + 1) = Ok qu /\
    SwpModel.zread (if coup then e_coup else e_unco) (off + ip) = Ok el /\ SwpModel.zread (if coup then e_coup else e_unco) (off + ip + 1) = Ok eu.
(* breakup cells per energy: ends q .. ends (q+1) - 1 belong to energy q; energies without cells come first *)
Definition per_energy (nq ncells : nat) (ends : list nat) : Prop :=
  length ends = nq + 1 /\ nth 0 ends 0 = 0 /\ nth nq ends 0 = ncells /\
  (forall q, q < nq -> nth q ends 0 <= nth (q + 1) ends 0) /\
  (forall q q', q <= q' -> q' < nq -> nth q ends 0 < nth (q + 1) ends 0 -> nth q' ends 0 < nth (q' + 1) ends 0).
