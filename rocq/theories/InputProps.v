(* Property theorems about the text files the program reads (C17, C87-C90). *)
From Coq Require Import String Ascii Reals Lra.
From Flocq Require Import Core.
From Verif Require Import Common ArrayLib ParamsModel ParamsSpec SwpModel GridModel GridSpec OnShellModel OnShellSpec OnShellProofs OnShellPropsLemmas
  DriverModel DriverSpec TextSpec InputModel InputSpec InputProofs InputFinal OnShellWitness.
Open Scope string_scope.
Open Scope list_scope.
Open Scope Z_scope.

(* ---------- concrete numbers for the examples ---------- *)
Lemma whole_nearest z : Z.abs z < 2 ^ 53 -> nearest (IZR z) (IZR z).
Proof.
  intros H. split.
  - symmetry. apply round_generic; [ apply valid_rnd_N | ]. apply generic_format_FLT. exists (Float radix2 z 0); [ | exact H | cbn; lia ].
    unfold F2R. cbn. ring.
  - rewrite <- abs_IZR. apply Rlt_le_trans with (bpow radix2 53).
    + change (bpow radix2 53) with (IZR (2 ^ 53)). apply IZR_lt, H.
    + apply bpow_le. lia.
Qed.
Lemma digits1 c : isdigit c = true -> digits_of (String c "") 1 (digit_val c).
Proof. intros H. exact (Dsnoc "" 0 0 c Dnil H). Qed.
Lemma whole_text s n v : digits_of s (S n) v -> decimal_text s (IZR v).
Proof.
  intros H. exists "", false, s, (S n), v, "", O, 0, "", "", 0. split; [ cbn [append]; rewrite TextProofs.sapp_nil; reflexivity | ]. split; [ left; split; [ left; reflexivity | reflexivity ] | ].
  split; [ exact H | ]. split; [ exact Dnil | ]. split; [ left; split; reflexivity | ]. split; [ lia | ]. split; [ left; split; reflexivity | ].
  unfold ten. cbn [Z.of_nat Z.opp bpow]. ring.
Qed.
Lemma word10 : digits_of "10" 2 10. Proof. exact (Dsnoc "1" 1 1 "0"%char (digits1 "1"%char eq_refl) eq_refl). Qed.
Lemma word20 : digits_of "20" 2 20. Proof. exact (Dsnoc "2" 1 2 "0"%char (digits1 "2"%char eq_refl) eq_refl). Qed.
Lemma entry_whole s n v : digits_of s (S n) v -> 0 <= v < 2 ^ 53 -> entry_of s (IZR v).
Proof.
  intros D V. exists (IZR v). split; [ exact (whole_text s n v D) | ]. split; [ apply whole_nearest; lia | ].
  destruct (Z.eq_dec v 0) as [->|]; [ left; reflexivity | right ]. rewrite Rabs_pos_eq by (apply IZR_le; lia).
  apply Rle_trans with 1%R; [ | apply IZR_le; lia ]. change 1%R with (bpow radix2 0). apply bpow_le. lia.
Qed.
Lemma half_text : decimal_text "-1.25E+1" (-12.5).
Proof.
  exists "-", true, "1", 1%nat, 1, "25", 2%nat, 25, ".25", "E+1", 1. split; [ reflexivity | ]. split; [ right; split; reflexivity | ].
  split; [ exact (digits1 "1"%char eq_refl) | ]. split; [ exact (Dsnoc "2" 1 2 "5"%char (digits1 "2"%char eq_refl) eq_refl) | ].
  split; [ right; reflexivity | ]. split; [ lia | ]. split.
  - right. exists "E"%char, "+", false, "1", 1%nat, 1. repeat split; try reflexivity; [ right; reflexivity | left; split; [ right | ]; reflexivity | exact (digits1 "1"%char eq_refl) | lia ].
  - unfold ten. cbn. lra.
Qed.

(* ---------- C87: the energy file ---------- *)
(* What holds: a file of decimal numbers, however arranged in lines, gives exactly these numbers in order; whatever
   follows the first word that cannot start a number is dropped. *)
Theorem C87_partial fs path content numbers rest ys : ends_in path ".txt" -> fs path = Some content ->
  fields content = numbers ++ rest -> Forall2 (fun w y => exists x, decimal_text w x /\ nearest x y) numbers ys ->
  (rest = [] \/ exists c w more, rest = String c w :: more /\ not_numeric c) ->
  read_input_energies fs path = Ok ys.
Proof.
  intros P C E F B. apply (energies_prefix fs path content numbers ys rest P C E F). destruct B as [->|(c & w & more & -> & Hc)]; [ exact I | ].
  exists c, w. split; [ reflexivity | exact Hc ].
Qed.
Print Assumptions C87_partial.
(* The bins depend only on the set of numbers in the file. *)
Theorem C87_bins fs path path' content content' ys ys' Nq q Eb :
  ends_in path ".txt" -> fs path = Some content -> Forall2 (fun w y => exists x, decimal_text w x /\ nearest x y) (fields content) ys ->
  ends_in path' ".txt" -> fs path' = Some content' -> Forall2 (fun w y => exists x, decimal_text w x /\ nearest x y) (fields content') ys' ->
  (1 <= Nq)%nat -> partition_from_zero Nq q -> (- (Mn + Mp) < Eb)%R -> (forall y, In y ys <-> In y ys') ->
  bins_from_file fs path Nq q Eb = bins_from_file fs path' Nq q Eb /\ bins_from_file fs path Nq q Eb = elastic_bins Nq q Eb ys.
Proof.
  intros P C F P' C' F' HN (Lq & _) HE S. unfold bins_from_file.
  rewrite (C87_partial fs path content (fields content) [] ys P C (eq_sym (app_nil_r _)) F (or_introl eq_refl)).
  rewrite (C87_partial fs path' content' (fields content') [] ys' P' C' (eq_sym (app_nil_r _)) F' (or_introl eq_refl)).
  cbn [obind]. split; [ exact (elastic_same Nq q Eb ys ys' HN Lq HE S) | reflexivity ].
Qed.
Print Assumptions C87_bins.
Definition nl : string := String "010"%char "".
Example C87_example : ends_in "Input/E.txt" ".txt" /\
  fields ("10  -1.25E+1" ++ nl ++ nl ++ " 20" ++ nl)%string = ["10"; "-1.25E+1"; "20"] /\
  Forall2 (fun w y => exists x, decimal_text w x /\ nearest x y) ["10"; "-1.25E+1"; "20"] [10; -12.5; 20]%R.
Proof.
  split; [ exists "Input/E"; reflexivity | ]. split; [ reflexivity | ].
  constructor; [ exists 10%R; split; [ exact (whole_text "10" 1 10 word10) | apply whole_nearest; lia ] | ].
  constructor; [ exists (-12.5)%R; split; [ exact half_text | ] | ].
  - split.
    + symmetry. apply round_generic; [ apply valid_rnd_N | ]. apply generic_format_FLT. exists (Float radix2 (-25) (-1)); [ | cbn; lia | cbn; lia ].
      unfold F2R. cbn. lra.
    + rewrite Rabs_left by lra. apply Rlt_trans with (bpow radix2 4); [ cbn; lra | apply bpow_lt; lia ].
  - constructor; [ exists 20%R; split; [ exact (whole_text "20" 1 20 word20) | apply whole_nearest; lia ] | constructor ].
Qed.
(* C87 in full is false: in a file with a comment line the energies behind it are not used, and nothing is reported. *)
Theorem C87_refuted : ~ forall fs path content es w x, ends_in path ".txt" -> fs path = Some content ->
  read_input_energies fs path = Ok es -> In w (fields content) -> decimal_text w x -> nearest x x -> In x es.
Proof.
  intros H. pose (content := ("10" ++ nl ++ "# MeV" ++ nl ++ "20" ++ nl)%string).
  assert (E : read_input_energies (fun _ => Some content) "E.txt" = Ok [10%R]).
  { apply (C87_partial (fun _ => Some content) "E.txt" content ["10"] ["#"; "MeV"; "20"] [10%R]).
    - exists "E". reflexivity.
    - reflexivity.
    - reflexivity.
    - constructor; [ exists 10%R; split; [ exact (whole_text "10" 1 10 word10) | apply whole_nearest; lia ] | constructor ].
    - right. exists "#"%char, "", ["MeV"; "20"]. split; [ reflexivity | ]. repeat split; discriminate. }
  specialize (H (fun _ => Some content) "E.txt" content [10%R] "20" 20%R (ex_intro _ "E" eq_refl) eq_refl E).
  destruct H as [H|[]]; [ right; right; right; left; reflexivity | exact (whole_text "20" 1 20 word20) | apply whole_nearest; lia | lra ].
Qed.
Print Assumptions C87_refuted.

(* ---------- C88: the name of the energy file ---------- *)
(* The name is used as it stands, has to end in .txt, and a name of fewer than four characters throws. *)
Theorem C88_partial fs path :
  (forall es, read_input_energies fs path = Ok es -> ends_in path ".txt" /\ exists content, fs path = Some content) /\
  (ends_in path ".txt" -> (read_input_energies fs path = Err <-> fs path = None) /\ read_input_energies fs path <> Exc) /\
  (~ ends_in path ".txt" -> (4 <= String.length path)%nat -> read_input_energies fs path = Err) /\
  ((String.length path < 4)%nat -> read_input_energies fs path = Exc) /\
  (forall fs', fs' path = fs path -> read_input_energies fs' path = read_input_energies fs path) /\
  read_input_energies fs path <> UB.
Proof.
  destruct (read_energies_eq fs path) as (A & B & C & D).
  split; [ | split; [ | split; [ exact C | split; [ exact D | split ] ] ] ].
  - intros es H. destruct (le_lt_dec 4 (String.length path)) as [L|L]; [ | rewrite (D L) in H; discriminate ].
    destruct (string_dec (substring (String.length path - 4) 4 path) ".txt") as [E|E].
    + assert (P : ends_in path ".txt") by (apply suffix_ok; split; assumption). split; [ exact P | ].
      destruct (fs path) as [content|]; [ exists content; reflexivity | rewrite (B P eq_refl) in H; discriminate ].
    + rewrite C in H; [ discriminate | | exact L ]. intros P. apply suffix_ok in P. tauto.
  - intros P. destruct (fs path) as [content|] eqn:Ef.
    + rewrite (A P content eq_refl). split; [ split; discriminate | discriminate ].
    + rewrite (B P eq_refl). split; [ split; reflexivity | discriminate ].
  - intros fs' H. unfold read_input_energies. rewrite H. reflexivity.
  - unfold read_input_energies. destruct (_ <? 4)%nat; [ discriminate | ]. destruct (negb _); [ discriminate | ]. destruct (fs path); discriminate.
Qed.
Print Assumptions C88_partial.
(* C88 in full is false: the example of the help text (energy_input_file=Tlabs reads Tlabs.txt) is refused. *)
Theorem C88_refuted : ~ forall fs name content, fs (name ++ ".txt")%string = Some content -> exists es, read_input_energies fs name = Ok es.
Proof. intros H. destruct (H (fun _ => Some "10") "Tlabs" "10" eq_refl) as (es & E). discriminate E. Qed.
Print Assumptions C88_refuted.

(* ---------- C89: the layout of the parameter file ---------- *)
(* What holds: with single blanks between the numbers and no blank lines the table is read exactly; an empty line, a blank
   at the end of a line or two blanks in a row anywhere end the run with an uncaught exception. *)
Theorem C89_partial content lines : has_lines content lines ->
  (forall rows n, rows <> [] -> (1 <= n)%nat ->
     Forall2 (fun line row => exists words, line = String.concat " " words /\ Forall2 entry_of words row /\ length row = n) lines rows ->
     read_parameters (Some content) = Ok (concat rows, Z.of_nat n, Z.of_nat (length rows))) /\
  (forall line, In line lines -> stray_blank line -> read_parameters (Some content) = Exc).
Proof.
  intros HL. split; [ intros rows n Hr Hn F; exact (params_ok content lines rows n HL Hr Hn F) | ].
  intros line Hi Hs. apply (params_bad content line); [ rewrite (DriverProofs.has_lines_getlines _ _ HL); exact Hi | exact (stray_piece line Hs) ].
Qed.
Print Assumptions C89_partial.
Example C89_example : has_lines ("10 20" ++ nl ++ "20 10" ++ nl) ["10 20"; "20 10"] /\
  Forall2 (fun line row => exists words, line = String.concat " " words /\ Forall2 entry_of words row /\ length row = 2%nat)
    ["10 20"; "20 10"] [[10; 20]; [20; 10]]%R.
Proof.
  pose proof (entry_whole "10" 1 10 word10 ltac:(lia)) as A. pose proof (entry_whole "20" 1 20 word20 ltac:(lia)) as B.
  split; [ split; [ | left; reflexivity ] | ].
  - intros l [<-|[<-|[]]] H; vm_compute in H; repeat (destruct H as [H|H]; [ discriminate | ]); exact H.
  - constructor; [ exists ["10"; "20"] | constructor; [ exists ["20"; "10"] | constructor ] ]; (split; [ reflexivity | split; [ | reflexivity ] ]);
      (constructor; [ assumption | constructor; [ assumption | constructor ] ]).
Qed.
(* C89 in full is false: with a tab between the columns the second column is lost without a message; two blanks abort. *)
Lemma C89_behaviour :
  read_parameters (Some ("10" ++ String "009"%char "20" ++ nl)%string) = Ok ([10%R], 1, 1) /\
  read_parameters (Some ("10  20" ++ nl)%string) = Exc.
Proof.
  split.
  - assert (E : stod ("10" ++ String "009" "20") = Some 10%R).
    { apply (stod_prefix "10" (String "009" "20") 10%R (entry_whole "10" 1 10 word10 ltac:(lia))). repeat split; discriminate. }
    set (l := ("10" ++ String "009" "20")%string) in E. unfold read_parameters.
    apply (DriverProofs.read_ok stod ("10" ++ String "009" "20" ++ nl)%string [[10%R]] 1). split; [ discriminate | ]. split; [ lia | ].
    change (getlines ("10" ++ String "009" "20" ++ nl)) with [l]. constructor; [ | constructor ]. split; [ | reflexivity ].
    change (pieces l) with [l]. cbn [map]. rewrite E. reflexivity.
  - apply (params_bad _ "10  20"); [ left; reflexivity | ]. apply stray_piece. exists "10 ", " 20". split; [ reflexivity | ].
    split; right; [ exists "10"; reflexivity | exists "20"; reflexivity ].
Qed.
Theorem C89_refuted : ~ forall line line', fields line = fields line' -> ~ has_char newline line -> ~ has_char newline line' ->
  read_parameters (Some (line ++ nl)%string) = read_parameters (Some (line' ++ nl)%string).
Proof.
  intros H. specialize (H ("10" ++ String "009"%char "20")%string "10  20" eq_refl).
  assert (N : forall l, getlines (l ++ nl) = [l] -> ~ has_char newline l).
  { clear H. intros l. unfold getlines. assert (G : forall l cur, getlines_acc (l ++ nl) cur = [append cur l] -> ~ has_char newline l).
    2: exact (G l "").
    clear l. induction l as [|c l IH]; intros cur E; [ intros [] | ]. cbn [append getlines_acc] in E. destruct (Ascii.eqb_spec c (ascii_of_nat 10)) as [->|Hc].
    - exfalso. assert (NE : forall l, getlines_acc (l ++ nl) "" <> []).
      { clear. intros l. generalize "". induction l as [|c l IH]; intros cur; [ discriminate | ]. cbn [append getlines_acc]. destruct (Ascii.eqb c _); [ discriminate | apply IH ]. }
      apply (NE l). congruence.
    - intros [Hn|Hn]; [ apply Hc; exact Hn | ]. apply (IH (cur ++ String c "")%string); [ | exact Hn ]. rewrite E. rewrite TextProofs.sapp_assoc. reflexivity. }
  specialize (H (N ("10" ++ String "009"%char "20")%string eq_refl) (N "10  20" eq_refl)). destruct C89_behaviour as [A B]. rewrite TextProofs.sapp_assoc in H. rewrite B in H.
  change ("10" ++ String "009" "20" ++ nl)%string with ("10" ++ (String "009" "20" ++ nl))%string in H. rewrite A in H. discriminate.
Qed.
Print Assumptions C89_refuted.

(* ---------- C17, C90: custom momentum grids ---------- *)
(* C17 from the text of the file: one number at the start of each line (anything behind it on the line is ignored). *)
Theorem C17_text content lines vals N b : has_lines content lines -> Forall2 begins_with lines vals -> length b = (N + 1)%nat ->
  (length lines = (N + 1)%nat -> read_boundary_file (Some content) b N = Ok vals) /\
  ((length lines < N + 1)%nat -> read_boundary_file (Some content) b N = Err) /\
  ((N + 1 < length lines)%nat -> read_boundary_file (Some content) b N = UB).
Proof. exact (boundaries_text content lines vals N b). Qed.
Print Assumptions C17_text.
(* A line without a number among those the program looks at stops it. *)
Theorem C17_bad_line content good bad more vals N b : has_lines content (good ++ bad :: more) -> Forall2 begins_with good vals ->
  length b = (N + 1)%nat -> (length good <= N + 1)%nat -> no_number bad -> read_boundary_file (Some content) b N = Err.
Proof. exact (boundaries_bad content good bad more vals N b). Qed.
Print Assumptions C17_bad_line.
Lemma begins20 : begins_with " 20 MeV" 20.
Proof.
  exists " ", "20", " MeV", 20%R. split; [ reflexivity | ]. split; [ intros [|i] c H; cbn in H; [ injection H as <-; reflexivity | destruct i; discriminate ] | ].
  split; [ exact (whole_text "20" 1 20 word20) | ]. split; [ apply whole_nearest; lia | ]. right. exists " "%char, "MeV". split; reflexivity.
Qed.
Lemma begins10 : begins_with "10" 10.
Proof.
  exists "", "10", "", 10%R. split; [ reflexivity | ]. split; [ intros [|i] c H; discriminate | ].
  split; [ exact (whole_text "10" 1 10 word10) | ]. split; [ apply whole_nearest; lia | ]. left. reflexivity.
Qed.
Lemma ex_lines : has_lines ("10" ++ nl ++ " 20 MeV" ++ nl) ["10"; " 20 MeV"].
Proof. split; [ | left; reflexivity ]. intros l [<-|[<-|[]]] H; vm_compute in H; repeat (destruct H as [H|H]; [ discriminate | ]); exact H. Qed.
Example C17_text_example : has_lines ("10" ++ nl ++ " 20 MeV" ++ nl) ["10"; " 20 MeV"] /\ Forall2 begins_with ["10"; " 20 MeV"] [10; 20]%R.
Proof. split; [ exact ex_lines | ]. constructor; [ exact begins10 | constructor; [ exact begins20 | constructor ] ]. Qed.

Example C17_bad_example : no_number " MeV 20" /\ no_number " ".
Proof. split; [ right; exists "M"%char, "eV", ["20"]; split; [ reflexivity | repeat split; discriminate ] | left; reflexivity ]. Qed.

(* C90, what holds: a custom grid is accepted exactly when it has the right number of lines, so it is a partition from zero
   exactly when the numbers in the file are one. *)
Theorem C90_partial content lines vals N b r : has_lines content lines -> Forall2 begins_with lines vals -> length b = (N + 1)%nat ->
  read_boundary_file (Some content) b N = Ok r -> r = vals /\ (partition_from_zero N r <-> partition_from_zero N vals).
Proof.
  intros H F L E. destruct (boundaries_text content lines vals N b H F L) as (A & B & C).
  destruct (lt_eq_lt_dec (length lines) (N + 1)) as [[Hl|Hl]|Hl].
  - rewrite (B Hl) in E. discriminate.
  - rewrite (A Hl) in E. assert (r = vals) by congruence. subst r. split; [ reflexivity | tauto ].
  - rewrite (C Hl) in E. discriminate.
Qed.
Print Assumptions C90_partial.
(* C90 in full is false: boundaries that do not start at zero, or decrease, are accepted. *)
Theorem C90_refuted : ~ forall content b N r, length b = (N + 1)%nat -> read_boundary_file (Some content) b N = Ok r ->
  partition_from_zero N r.
Proof.
  intros H. assert (E : read_boundary_file (Some ("10" ++ nl ++ " 20 MeV" ++ nl)%string) [0%R; 0%R] 1 = Ok [10; 20]%R).
  { apply (proj1 (boundaries_text _ _ [10; 20]%R 1 [0%R; 0%R] ex_lines ltac:(constructor; [ exact begins10 | constructor; [ exact begins20 | constructor ] ]) eq_refl)). reflexivity. }
  destruct (H _ [0%R; 0%R] 1%nat _ eq_refl E) as (_ & H0 & _). cbn in H0. lra.
Qed.
Print Assumptions C90_refuted.
