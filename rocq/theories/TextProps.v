(* C83, C86: the result files can be read back without loss. *)
From Coq Require Import String Ascii Reals Psatz.
From Flocq Require Import Core.
From Verif Require Import Common NameModel PWModel SwpModel OutputModel OutputSpec TextModel TextSpec TextFinal.
Open Scope string_scope.
Open Scope list_scope.
Open Scope nat_scope.

(* C83.  A reader that skips comment and blank lines, splits at blanks and reads numbers (Python: numpy.loadtxt, float(), complex())
   recovers from the elastic file the list of amplitudes with their quantum numbers and, per energy, every amplitude: the two doubles
   behind a field are the only doubles that round to the printed 17 digits. *)
Theorem C83_partial states deut nq (U : list (double * double)) (T E : list double) qi twoJ P model Np Nq Eb : let nd := length deut in
  (exists s0, nth_error states 0 = Some s0 /\ (P_3N s0 = 1 \/ P_3N s0 = -1)%Z) -> (forall k, In k deut -> k < length states) ->
  length U = nd * nd * nq -> length T = nq -> length E = nq -> length qi = nq ->
  (Z.of_nat nd <= 10000)%Z -> (forall s, In s states -> (- 10 ^ 8 < L_1N s < 10 ^ 8)%Z /\ (- 10 ^ 8 < two_J_1N s < 10 ^ 8)%Z) ->
  (forall k, In k qi -> (- 10 ^ 8 < Z.of_nat k < 10 ^ 8)%Z) ->
  Forall nonnegative T -> Forall nonnegative E -> Forall (fun u => no_minus_zero (fst u) /\ no_minus_zero (snd u)) U -> one_line model -> one_line Eb ->
  exists t1 h t2, store_U (double * double) states deut nq U (map creal T) (map creal E) qi = Ok (t1, h, t2) /\
   let tab := table (elastic_file (double * double) fst snd twoJ P model Np Nq Eb t1 h t2) in
   length tab = nd * nd + nq /\
   (forall i j, i < nd -> j < nd -> exists row si sj, nth_error tab (i * nd + j) = Some row /\ length row = 7 /\
      nth_error states (nth i deut 0) = Some si /\ nth_error states (nth j deut 0) = Some sj /\
      nth_error row 0 = Some ("U" ++ str_of_nat i ++ str_of_nat j)%string /\
      shows_int (nth_error row 1) (Z.of_nat i) /\ shows_int (nth_error row 2) (Z.of_nat j) /\
      shows_int (nth_error row 3) (L_1N si) /\ shows_int (nth_error row 4) (two_J_1N si) /\
      shows_int (nth_error row 5) (L_1N sj) /\ shows_int (nth_error row 6) (two_J_1N sj)) /\
   (forall q, q < nq -> exists row t e k, nth_error tab (nd * nd + q) = Some row /\ length row = 3 + nd * nd /\
      nth_error T q = Some t /\ nth_error E q = Some e /\ nth_error qi q = Some k /\
      shows_real (nth_error row 0) t /\ shows_real (nth_error row 1) e /\ shows_int (nth_error row 2) (Z.of_nat k) /\
      (forall i j, i < nd -> j < nd -> exists u, amplitude nd nq U i j q = Some u /\ shows_complex (nth_error row (3 + (i * nd + j))) u)).
Proof. exact (elastic_readable states deut nq U T E qi twoJ P model Np Nq Eb). Qed.
Print Assumptions C83_partial.

Definition ex_state (l j : Z) : pw := mkpw 0 1 1 0 l j 1 1 1.
Definition one : double := Fin false 4503599627370496 (-52).           (* 1.0 *)
Definition tenth : double := Fin true 7205759403792794 (-56).          (* -0.1 *)
Definition ex_file (U : list (double * double)) : option (list (list string)) :=
  match store_U (double * double) [ex_state 0 1; ex_state 2 3] [0] 1 U (map creal [one]) (map creal [one]) [7] with
  | Ok (t1, h, t2) => Some (table (elastic_file (double * double) fst snd 1 1 "LO_internal" 30 30 "-2.2" t1 h t2))
  | _ => None
  end.
Example C83_example : ex_file [(one, tenth)] =
  Some [["U00"; "0"; "0"; "0"; "1"; "0"; "1"];
        ["1.0000000000000000e+00"; "1.0000000000000000e+00"; "7"; "+1.0000000000000000e+00-1.0000000000000001e-01j"]]
  /\ no_minus_zero one /\ no_minus_zero tenth /\ nonnegative one /\ one_line "LO_internal".
Proof.
  split; [ vm_compute; reflexivity | ]. split; [ | split; [ | split ] ].
  - split; [ cbn; lia | discriminate ].
  - split; [ cbn; lia | discriminate ].
  - split; [ cbn; lia | reflexivity ].
  - intros i c Hc. do 11 (destruct i as [|i]; [ injection Hc as <-; discriminate | ]). discriminate Hc.
Qed.
(* An amplitude with a part equal to -0.0 is printed as "+-0.00...": its field is not a complex number. *)
Theorem C83_refuted : ~ forall states deut nq (U : list (double * double)) (T E : list double) qi twoJ P model Np Nq Eb t1 h t2,
    Forall (fun u => finite (fst u) /\ finite (snd u)) U -> Forall nonnegative T -> Forall nonnegative E ->
    store_U (double * double) states deut nq U (map creal T) (map creal E) qi = Ok (t1, h, t2) ->
    let nd := length deut in let tab := table (elastic_file (double * double) fst snd twoJ P model Np Nq Eb t1 h t2) in
    forall q i j u row, q < nq -> i < nd -> j < nd -> amplitude nd nq U i j q = Some u -> nth_error tab (nd * nd + q) = Some row ->
      shows_complex (nth_error row (3 + (i * nd + j))) u.
Proof.
  intros H.
  destruct (store_U (double * double) [ex_state 0 1; ex_state 2 3] [0] 1 [(Zer true, Zer false)] (map creal [one]) (map creal [one]) [7]) as [[[t1 h] t2]| | |] eqn:ES;
    [ | vm_compute in ES; discriminate .. ].
  pose proof (fun A B => H _ _ _ _ _ _ _ 1%Z 1%Z "LO_internal" 30%Z 30%Z "-2.2" _ _ _ A B B ES 0 0 0 (Zer true, Zer false)) as K.
  vm_compute in ES. injection ES as <- <- <-.
  specialize (K (ltac:(repeat constructor)) (ltac:(repeat constructor; cbn; lia)) ["1.0000000000000000e+00"; "1.0000000000000000e+00"; "7"; "+-0.0000000000000000e+00+0.0000000000000000e+00j"] ltac:(cbn; lia) ltac:(cbn; lia) ltac:(cbn; lia) eq_refl).
  specialize (K ltac:(vm_compute; reflexivity)). destruct K as (s & v & w & Es & Er & _). cbn [nth_error Nat.mul Nat.add] in Es. injection Es as <-. vm_compute in Er. discriminate Er.
Qed.
Print Assumptions C83_refuted.
(* NaN has no sign in front, so the two parts run together *)
Example C83_nan : read_complex (complex_text (Nan false) (Nan false)) = None /\ complex_text one (Nan false) = "+1.0000000000000000e+00nanj".
Proof. split; vm_compute; reflexivity. Qed.

(* C86.  The same for the breakup file: every amplitude is in the line of its energy, in a column titled with its quantum numbers,
   followed by its bins; different amplitudes are in different fields. *)
Theorem C86_partial states deut cells ends nq (U : list (double * double)) (pm : double -> double) (T E qcm : list double) qidx (qWP e_unco e_coup : list double)
    tensor iso Np (twoJ P : Z) model (Npz Nqz : Z) Eb :
  NoDup deut -> (forall k, In k deut -> k < length states) -> per_energy nq (length cells) ends ->
  (forall t, In t cells -> exists ql qu el eu, bins_of states qWP e_unco e_coup tensor iso Np t ql qu el eu) ->
  length deut * length cells <= length U -> length T = nq -> length E = nq -> length qcm = nq -> length qidx = nq ->
  (forall i, In i qidx -> i + 1 < length qWP) ->
  Forall (fun u => no_minus_zero (fst u) /\ no_minus_zero (snd u)) U -> Forall nonnegative (T ++ E ++ qcm ++ qWP) ->
  Forall (fun x => nonnegative (pm x)) (e_unco ++ e_coup) -> one_line model -> one_line Eb ->
  exists headers data rows cols (row : nat -> nat -> nat) (col : nat -> nat -> nat) file,
   restructure_breakup_data (double * double) states deut cells ends (creal (Zer false)) (fun v => creal (pm (fst v))) U (map creal T) (map creal E) (map creal qcm) qidx
     (map creal qWP) (map creal e_unco) (map creal e_coup) tensor iso Np nq = Ok (headers, data, rows, cols) /\
   breakup_file (double * double) fst snd twoJ P model Npz Nqz Eb headers data rows cols = Ok file /\
   length (table file) = rows /\ (forall line, In line (table file) -> length line = cols) /\ length headers = cols /\
   (forall q d bu, q < nq -> d < length deut -> nth q ends 0 <= bu < nth (q + 1) ends 0 ->
      exists line t a iq ip sc sr ql qu el eu u, nth_error (table file) (row d bu) = Some line /\
        nth_error cells bu = Some t /\ t = (a, iq, ip) /\ zread states a = Ok sc /\ nth_error states (nth d deut 0) = Some sr /\
        bins_of states qWP e_unco e_coup tensor iso Np t ql qu el eu /\ nth_error U (d * length cells + bu) = Some u /\
        nth_error headers (col d bu) = Some ("comp", breakup_title sc sr) /\
        shows_complex (nth_error line (col d bu)) u /\
        shows_real (nth_error line (col d bu + 1)) ql /\ shows_real (nth_error line (col d bu + 2)) qu /\
        shows_real (nth_error line (col d bu + 3)) (pm el) /\ shows_real (nth_error line (col d bu + 4)) (pm eu) /\
        (exists x, nth_error T q = Some x /\ shows_real (nth_error line 0) x) /\
        (exists x, nth_error E q = Some x /\ shows_real (nth_error line 1) x) /\
        (exists x, nth_error qcm q = Some x /\ shows_real (nth_error line 2) x) /\
        (exists x, nth_error qWP (nth q qidx 0) = Some x /\ shows_real (nth_error line 3) x) /\
        (exists x, nth_error qWP (nth q qidx 0 + 1) = Some x /\ shows_real (nth_error line 4) x)) /\
   (forall d bu d' bu', d < length deut -> bu < length cells -> d' < length deut -> bu' < length cells ->
      row d bu = row d' bu' -> col d bu = col d' bu' -> d = d' /\ bu = bu').
Proof.
  intros H1 H2 H3 H4 H5 H6 H7 H8 H9 H10 H11 H12 H13 H14 H15.
  exact (breakup_readable states deut cells ends nq U pm T E qcm qidx qWP e_unco e_coup tensor iso Np H1 H2 H3 H4 H5 H6 H7 H8 H9 H10 H11 H12 H13 twoJ P model Npz Nqz Eb H14 H15).
Qed.
Print Assumptions C86_partial.
Definition ex_pair (T3 : Z) : pw := mkpw 0 0 0 1 0 1 1 T3 1.
Definition two : double := Fin false 4503599627370496 (-51).
Definition ex_breakup (u : double * double) : option (list (list string)) :=
  match restructure_breakup_data (double * double) [ex_state 0 1; ex_pair 1] [0] [(1, 0, 0)]%Z [0; 1] (creal (Zer false)) (fun v => creal (fst v)) [u]
     [creal one] [creal one] [creal one] [0] [creal one; creal two] (map creal [one; two; one; two]) (map creal [one; two; one; two]) true false 1 1 with
  | Ok (h, data, rows, cols) => match breakup_file (double * double) fst snd 1 1 "N2LOopt" 1 1 "-2.2" h data rows cols with Ok f => Some (table f) | _ => None end
  | _ => None
  end.
Example C86_example : ex_breakup (one, tenth) =
  Some [["1.0000000000000000e+00"; "1.0000000000000000e+00"; "1.0000000000000000e+00"; "1.0000000000000000e+00"; "2.0000000000000000e+00";
         "+1.0000000000000000e+00-1.0000000000000001e-01j"; "1.0000000000000000e+00"; "2.0000000000000000e+00"; "1.0000000000000000e+00"; "2.0000000000000000e+00"]].
Proof. vm_compute. reflexivity. Qed.
(* ... and with a part equal to -0.0 the amplitude's field is unreadable *)
Theorem C86_refuted : exists u line s, finite (fst u) /\ finite (snd u) /\ ex_breakup u = Some [line] /\ nth_error line 5 = Some s /\ read_complex s = None.
Proof.
  exists (one, Zer true). eexists. eexists. split; [ cbn; lia | ]. split; [ exact I | ]. split; [ vm_compute; reflexivity | ]. split; [ reflexivity | vm_compute; reflexivity ].
Qed.
Print Assumptions C86_refuted.
