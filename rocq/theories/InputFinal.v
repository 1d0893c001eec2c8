(* The files read as text: statements. *)
From Coq Require Import String Ascii Reals Lra Psatz.
From Flocq Require Import Core.
From Verif Require Import Common ArrayLib ParamsModel ParamsSpec SwpModel GridModel GridSpec GridProofs OnShellModel OnShellSpec OnShellProofs
  DriverModel DriverSpec DriverProofs TextModel TextSpec TextProofs TextLines InputModel InputSpec InputProofs.
Open Scope string_scope.
Open Scope list_scope.
Open Scope Z_scope.

Lemma decimal_clean w x : decimal_text w x -> clean w /\ w <> "".
Proof.
  intros (sg & neg & ip & n & a & fp & m & b & frac & ex & k & -> & S & I & F & FR & N & EX & ->).
  assert (SC : forall sg neg, sign_of sg neg -> clean sg) by (intros s1 b1 [[[-> | ->] _]|[-> _]]; reflexivity).
  assert (DC : forall s n v, digits_of s n v -> clean s) by (intros s1 n1 v1 D; apply (allc_impl isdigit); [ exact digit_nonblank | exact (digits_allc _ _ _ D) ]).
  split.
  - apply clean_app. split; [ exact (SC _ _ S) | ]. apply clean_app. split; [ exact (DC _ _ _ I) | ]. apply clean_app. split.
    + destruct FR as [[-> _]| ->]; [ reflexivity | ]. apply clean_app. split; [ reflexivity | exact (DC _ _ _ F) ].
    + destruct EX as [[-> _]|(c & sg' & neg' & ds & n' & v' & -> & Hc & S' & D & _)]; [ reflexivity | ].
      change (String c sg' ++ ds)%string with (String c "" ++ (sg' ++ ds))%string. apply clean_app. split; [ destruct Hc as [-> | ->]; reflexivity | ].
      apply clean_app. split; [ exact (SC _ _ S') | exact (DC _ _ _ D) ].
  - intros E. apply (f_equal String.length) in E. rewrite !slength_app in E. cbn [String.length] in E.
    assert (LD : forall s n v, digits_of s n v -> String.length s = n).
    { clear. induction 1 as [|s n v c H IH Hc]; [ reflexivity | ]. rewrite slength_app, IH. cbn [String.length]. lia. }
    pose proof (LD _ _ _ I). pose proof (LD _ _ _ F). destruct FR as [[-> ->]| ->]; [ cbn [String.length] in *; lia | ].
    rewrite slength_app in E. cbn [String.length] in E. lia.
Qed.
Lemma skip_clean w t : clean w -> w <> "" -> skip_ws (w ++ t) = (w ++ t)%string.
Proof.
  destruct w as [|c w]; [ congruence | ]. intros C _. unfold clean in C. cbn [allc] in C. apply andb_true_iff in C. destruct C as [C _].
  unfold nonblank in C. apply negb_true_iff in C. cbn [append skip_ws]. rewrite C. reflexivity.
Qed.

#[local] Instance flt_valid : Valid_exp (FLT_exp (-1074) 53).
Proof. apply FLT_exp_valid. unfold Prec_gt_0. lia. Qed.
Lemma normal_no_underflow x : normal x -> underflows x = false.
Proof.
  intros [->|H]; unfold underflows.
  - unfold to_double. rewrite round_0 by apply valid_rnd_N. replace (Rleb 0 0) with true by (symmetry; apply Rleb_true; lra). cbn [andb negb]. apply andb_false_r.
  - assert (G : (bpow radix2 (-1022) <= Rabs (to_double x))%R).
    { unfold to_double. apply abs_round_ge_generic; [ exact flt_valid | apply valid_rnd_N | | exact H ].
      apply generic_format_bpow. unfold FLT_exp. lia. }
    replace (Rltb (Rabs (to_double x)) (bpow radix2 (-1022))) with false; [ reflexivity | ]. symmetry. unfold Rltb. destruct (Rlt_dec _ _); [ lra | reflexivity ].
Qed.
Lemma stod_prefix w t y : entry_of w y -> number_end t -> stod (w ++ t) = Some y.
Proof.
  intros (x & D & Hn & Hnorm) T. destruct (decimal_clean w x D) as [C N]. destruct (scan_number w x t D T) as (neg & a & k & Hx & _ & E).
  unfold stod. rewrite (E (skip_clean w t C N)). cbv zeta. rewrite Hx. destruct (nearest_range x y Hn) as [-> ->].
  rewrite (normal_no_underflow x Hnorm). reflexivity.
Qed.
Lemma stod_word w y : entry_of w y -> stod w = Some y.
Proof. intros H. rewrite <- (sapp_nil w). exact (stod_prefix w "" y H I). Qed.

(* ---------- parameter file ---------- *)
Lemma clean_noblank w : clean w -> ~ has_char " "%char w.
Proof.
  unfold has_char, clean. intros C. induction w as [|c w IH]; [ intros [] | ]. cbn [allc] in C. apply andb_true_iff in C. destruct C as [C1 C2].
  intros [H|H]; [ subst c; discriminate C1 | exact (IH C2 H) ].
Qed.
Lemma params_ok content lines rows n : has_lines content lines -> rows <> [] -> (1 <= n)%nat ->
  Forall2 (fun line row => exists words, line = String.concat " " words /\ Forall2 entry_of words row /\ length row = n) lines rows ->
  read_parameters (Some content) = Ok (concat rows, Z.of_nat n, Z.of_nat (length rows)).
Proof.
  intros HL Hne Hn F. unfold read_parameters. apply read_ok, table_parsed. split; [ exact Hne | ]. split; [ exact Hn | ].
  exists lines. split; [ exact HL | ]. clear HL Hne. induction F as [|line row lines rows (words & -> & Fw & L) F IH]; constructor; [ | exact IH ].
  exists words. split; [ reflexivity | ]. split; [ | split; [ | exact L ] ].
  - intros w Hw. clear L F IH. induction Fw as [|w' y ws ys (x & D & _) Fw IH]; [ destruct Hw | ]. destruct Hw as [<-|Hw]; [ | exact (IH Hw) ].
    apply clean_noblank. exact (proj1 (decimal_clean w' x D)).
  - clear L F IH. induction Fw as [|w' y ws ys Hy Fw IH]; [ reflexivity | ]. cbn [map]. rewrite IH, (stod_word w' y Hy). reflexivity.
Qed.

Lemma pieces_split a : forall r cur, pieces_acc (a ++ String " " r) cur = pieces_acc a cur ++ pieces_acc r "".
Proof. induction a as [|c a IH]; intros r cur; [ reflexivity | ]. cbn [append pieces_acc]. destruct (Ascii.eqb c " "); cbn [app]; rewrite IH; reflexivity. Qed.
Lemma stray_piece line : stray_blank line -> In "" (pieces line).
Proof.
  unfold pieces. intros (a & b & -> & A & B).
  assert (HB : In "" (pieces_acc b "")). { destruct B as [->|(b' & ->)]; left; reflexivity. }
  destruct A as [->|(a' & ->)]; [ exact HB | ]. rewrite sapp_assoc. change (" " ++ b)%string with (String " " b). rewrite pieces_split.
  apply in_or_app. right. exact HB.
Qed.
Lemma stod_empty : stod "" = None. Proof. reflexivity. Qed.
Lemma read_numbers_total l : read_numbers R stod l = Exc \/ exists v, read_numbers R stod l = Ok v.
Proof.
  unfold read_numbers. assert (G : forall l acc, (exists v, fold_left (fun r s => do v <- r; match stod s with Some d => Ok (v ++ [d]) | None => Exc end) l (Ok acc) = Ok v) \/
     fold_left (fun r s => do v <- r; match stod s with Some d => Ok (v ++ [d]) | None => Exc end) l (Ok acc) = Exc).
  { clear. induction l as [|s l IH]; intros acc; [ left; eexists; reflexivity | ]. cbn [fold_left obind]. destruct (stod s); [ apply IH | right ].
    apply (fold_stuck _ Exc). reflexivity. }
  destruct (G l []); tauto.
Qed.
Lemma read_numbers_bad l : In "" l -> read_numbers R stod l = Exc.
Proof.
  unfold read_numbers. assert (G : forall l acc, In "" l -> fold_left (fun r s => do v <- r; match stod s with Some d => Ok (v ++ [d]) | None => Exc end) l (Ok acc) = Exc); [ | exact (G l []) ].
  clear. induction l as [|s l IH]; intros acc H; [ destruct H | ]. cbn [fold_left obind]. destruct H as [->|H].
  - rewrite stod_empty. apply (fold_stuck _ Exc). reflexivity.
  - destruct (stod s); [ exact (IH _ H) | apply (fold_stuck _ Exc); reflexivity ].
Qed.
Lemma params_bad content line : In line (getlines content) -> In "" (pieces line) -> read_parameters (Some content) = Exc.
Proof.
  intros HI HP. unfold read_parameters, read_parameter_sample_list. destruct (getlines content) as [|first rest]; [ destruct HI | ].
  set (step := fun r line => do v <- r; do w <- read_numbers R stod (pieces line); Ok (v ++ w)).
  destruct HI as [->|HI].
  - rewrite (read_numbers_bad _ HP). reflexivity.
  - destruct (read_numbers_total (pieces first)) as [->|(v1 & ->)]; [ reflexivity | ]. cbn [obind].
    assert (G : forall rest acc, In line rest -> fold_left step rest (Ok acc) = Exc).
    { clear -HP. induction rest as [|l rest IH]; intros acc H; [ destruct H | ]. cbn [fold_left]. unfold step at 2. cbn [obind]. destruct H as [->|H].
      - rewrite (read_numbers_bad _ HP). cbn [obind]. apply (fold_stuck _ Exc). reflexivity.
      - destruct (read_numbers_total (pieces l)) as [->|(w & ->)]; cbn [obind]; [ apply (fold_stuck _ Exc); reflexivity | exact (IH _ H) ]. }
    rewrite (G rest v1 HI). reflexivity.
Qed.

(* ---------- boundary file ---------- *)
Lemma skip_blanks bl s : (forall i c, String.get i bl = Some c -> isspace c = true) -> skip_ws (bl ++ s) = skip_ws s.
Proof.
  induction bl as [|c bl IH]; intros H; [ reflexivity | ]. cbn [append skip_ws]. rewrite (H 0%nat c eq_refl). apply IH. intros i d Hd. exact (H (S i) d Hd).
Qed.
Lemma line_value line y : begins_with line y -> parse_line line = Some y.
Proof.
  intros (bl & w & t & x & -> & B & D & Hn & T). unfold parse_line. rewrite (skip_blanks bl _ B).
  destruct (decimal_clean w x D) as [C N]. rewrite (skip_clean w t C N).
  destruct (scan_number w x t D) as (neg & a & k & Hx & E & _). { apply blank_end. destruct T as [->|(c & t' & -> & Hc)]; [ exact I | exact Hc ]. }
  rewrite E, Hx. destruct (nearest_range x y Hn) as [-> ->]. reflexivity.
Qed.
Lemma boundaries_text content lines vals N b : has_lines content lines -> Forall2 begins_with lines vals -> length b = (N + 1)%nat ->
  (length lines = (N + 1)%nat -> read_boundary_file (Some content) b N = Ok vals) /\
  ((length lines < N + 1)%nat -> read_boundary_file (Some content) b N = Err) /\
  ((N + 1 < length lines)%nat -> read_boundary_file (Some content) b N = UB).
Proof.
  intros HL F Lb. pose proof (read_spec (fun _ => getlines content) parse_line b N "" Lb) as (S1 & S2 & S3). cbv zeta in *.
  rewrite (has_lines_getlines _ _ HL) in *. unfold read_boundary_file. rewrite (has_lines_getlines _ _ HL).
  assert (M : map parse_line lines = map Some vals). { clear -F. induction F as [|l y ls ys H F IH]; [ reflexivity | ]. cbn [map]. rewrite IH, (line_value l y H). reflexivity. }
  assert (NN : forall l, In l lines -> parse_line l <> None).
  { clear -F. induction F as [|l y ls ys H F IH]; intros l0 [].
    - subst. rewrite (line_value l0 y H). discriminate.
    - exact (IH l0 H0). }
  split; [ | split ].
  - intros L. apply S1. split; assumption.
  - intros L. destruct (read_boundaries (fun _ => lines) parse_line b N "") as [r| | |] eqn:E; [ | reflexivity | congruence | ].
    + pose proof (proj1 (S1 r) eq_refl) as [? _]. lia.
    + assert (E' := proj1 S2 eq_refl). lia.
  - intros L. apply S2. split; [ lia | ]. intros l Hl. apply NN. rewrite <- (firstn_skipn (N + 2)). apply in_or_app. left. exact Hl.
Qed.
Lemma bad_line line : no_number line -> parse_line line = None.
Proof.
  unfold parse_line. destruct (word_split line) as [[E1 E2]|(w & t & E1 & C & N & T & E2 & _)].
  - intros _. rewrite E1. reflexivity.
  - rewrite E1. unfold no_number. rewrite E2. intros [H|(c & w' & more & H & Hc)]; [ discriminate | ]. assert (w = String c w') as -> by congruence.
    cbn [append]. rewrite (extract_bad c _ Hc). reflexivity.
Qed.
Lemma boundaries_bad content good bad more vals N b : has_lines content (good ++ bad :: more) -> Forall2 begins_with good vals -> length b = (N + 1)%nat ->
  (length good <= N + 1)%nat -> no_number bad -> read_boundary_file (Some content) b N = Err.
Proof.
  intros HL F Lb Lg Hb. pose proof (read_spec (fun _ => getlines content) parse_line b N "" Lb) as (S1 & S2 & S3). cbv zeta in *.
  rewrite (has_lines_getlines _ _ HL) in *. unfold read_boundary_file. rewrite (has_lines_getlines _ _ HL).
  destruct (read_boundaries (fun _ => good ++ bad :: more) parse_line b N "") as [r| | |]; [ | reflexivity | congruence | ].
  - destruct (proj1 (S1 r) eq_refl) as [_ M]. assert (In None (map Some r)) as H.
    { rewrite <- M, <- (bad_line bad Hb). apply in_map, in_or_app. right. left. reflexivity. }
    apply in_map_iff in H. destruct H as (x & Hx & _). discriminate.
  - destruct (proj1 S2 eq_refl) as [_ H]. exfalso. apply (H bad); [ | exact (bad_line bad Hb) ].
    rewrite firstn_app. apply in_or_app. right. destruct (N + 2 - length good)%nat eqn:E; [ lia | ]. left. reflexivity.
Qed.
