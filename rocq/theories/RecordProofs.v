From Coq Require Import String Ascii Reals Psatz Decimal DecimalPos DecimalFacts DecimalString.
From Flocq Require Import Core.
From Verif Require Import Common ArrayLib NameModel NameProofs SwpModel GridModel GridSpec GridProofs ParamsModel ParamsSpec ParamsProofs TextModel TextSpec TextNum TextProofs TextLines TextFileProofs TextFinal RecordModel RecordSpec.
Open Scope string_scope.
Open Scope list_scope.
Open Scope nat_scope.

(* ---------- reading decimal integers ---------- *)
Lemma take_uint u : forall s acc c, take_digits (NilEmpty.string_of_uint u ++ s) (Zpos acc) c = take_digits s (Zpos (Pos.of_uint_acc u acc)) (c + nb_digits u).
Proof.
  induction u; intros s acc c; cbn [NilEmpty.string_of_uint append Pos.of_uint_acc nb_digits]; [ f_equal; lia | .. ];
    cbn [take_digits]; match goal with |- (if isdigit ?x then _ else _) = _ => change (isdigit x) with true; cbv iota; let v := eval vm_compute in (digit_val x) in change (digit_val x) with v end;
    match goal with |- take_digits _ ?v _ = take_digits _ (Z.pos (Pos.of_uint_acc u ?a)) _ =>
      replace v with (Z.pos a) by lia; replace (c + S (nb_digits u)) with (S c + nb_digits u) by lia; apply IHu end.
Qed.
Lemma take_to_string z s : (0 <= z)%Z -> exists n, 0 < n /\ take_digits (to_string z ++ s) 0 0 = take_digits s z n.
Proof.
  intros Hz. unfold to_string. destruct z as [|p|p]; [ | | lia ]; cbn [Z.to_int NilZero.string_of_int].
  - exists 1. split; [ lia | reflexivity ].
  - pose proof (Unsigned.of_to p) as O. pose proof (Unsigned.to_uint_nonnil p) as NN. pose proof (to_uint_norm p) as NM.
    destruct (Pos.to_uint p) as [|l|l|l|l|l|l|l|l|l|l] eqn:EU; [ congruence | | exists (1 + nb_digits l); split; [ lia | ]; cbn [Pos.of_uint] in O; injection O as <-;
      cbn [NilZero.string_of_uint NilEmpty.string_of_uint append take_digits];
      match goal with |- (if isdigit ?x then _ else _) = _ => change (isdigit x) with true; cbv iota; let v := eval vm_compute in (10 * 0 + digit_val x)%Z in change (10 * 0 + digit_val x)%Z with v end;
      apply take_uint .. ].
    exfalso. unfold unorm in NM. cbn [nzhead] in NM. destruct (nzhead l) eqn:Hl; try discriminate NM.
    + injection NM as <-. cbn in O. discriminate O.
    + assert (Q : forall w, nzhead w <> D0 u) by (induction w; cbn; congruence). exact (Q _ Hl).
Qed.

(* ---------- fixed notation ---------- *)
Definition fixed_int (p : nat) (x : double) : Z := match x with Fin _ m e => scaled (numer m e) (denom e) (Z.of_nat p) | _ => 0%Z end.
Lemma fixed_finite p x : finite x -> fixed p x = (minus (sign_bit x) ++ fixed_text p (fixed_int p x))%string.
Proof. destruct x; try contradiction; reflexivity. Qed.
Lemma fixed_int_nonneg p x : (0 <= fixed_int p x)%Z.
Proof.
  destruct x as [s|s|s|s m e]; cbn [fixed_int]; try lia. pose proof (numer_pos m e). pose proof (denom_pos e).
  unfold scaled. assert (0 <= Z.of_nat p)%Z by lia. destruct (Z.leb_spec 0 (Z.of_nat p)); [ | lia ].
  apply rhe_nonneg; [ assumption | ]. apply Z.mul_nonneg_nonneg; [ lia | apply Z.pow_nonneg; lia ].
Qed.
Lemma fixed_int_ok p x : finite x -> to_decimals p (value x) (number (sign_bit x) (fixed_int p x) (- Z.of_nat p)).
Proof.
  intros F. assert (Hb : (0 < bpow r10 (- Z.of_nat p))%R) by apply bpow_gt_0.
  split; [ | exists (if sign_bit x then - fixed_int p x else fixed_int p x)%Z; reflexivity ].
  destruct x as [s|s|s|s m e]; try contradiction; cbn [fixed_int sign_bit value].
  - unfold number, F2R. cbn [Fnum Fexp]. replace (if s then - 0 else 0)%Z with 0%Z by (destruct s; reflexivity). rewrite Rmult_0_l, Rminus_0_r, Rabs_R0. change (Build_radix 10 eq_refl) with r10. lra.
  - pose proof (scaled_ok (numer m e) (denom e) (Z.of_nat p) (denom_pos e)) as S. rewrite quo_value in S. set (d := scaled _ _ _) in *.
    change (Build_radix 10 eq_refl) with r10. set (b := bpow r10 (- Z.of_nat p)) in *. set (x := F2R (Float radix2 (Zpos m) e)) in *.
    assert (Hi : (bpow r10 (Z.of_nat p) * b = 1)%R). { unfold b. rewrite <- bpow_plus. replace (Z.of_nat p + - Z.of_nat p)%Z with 0%Z by lia. reflexivity. }
    assert (A : (Rabs (IZR d * b - x) <= / 2 * b)%R).
    { replace (IZR d * b - x)%R with ((IZR d - x * bpow r10 (Z.of_nat p)) * b)%R.
      - rewrite Rabs_mult, (Rabs_pos_eq b) by lra. apply Rmult_le_compat_r; lra.
      - rewrite Rmult_minus_distr_r, Rmult_assoc, Hi. ring. }
    destruct s.
    + replace (F2R _) with (- x)%R by (unfold x; rewrite <- F2R_neg; reflexivity). unfold number, F2R. cbn [Fnum Fexp]. change (Build_radix 10 eq_refl) with r10. fold b. rewrite opp_IZR.
      replace (- IZR d * b - - x)%R with (- (IZR d * b - x))%R by ring. rewrite Rabs_Ropp. exact A.
    + unfold number. change (F2R (Float (Build_radix 10 eq_refl) d (- Z.of_nat p))) with (IZR d * b)%R. exact A.
Qed.
Lemma read_fixed_text p d s sg neg : 0 < p -> (0 <= d)%Z -> starts_digit s = false -> match s with String "e" _ => False | _ => True end ->
  (forall t, take_sign (sg ++ to_string (d / 10 ^ Z.of_nat p)%Z ++ t)%string = (neg, (to_string (d / 10 ^ Z.of_nat p)%Z ++ t)%string)) ->
  read_number ((sg ++ fixed_text p d) ++ s)%string = Some (neg, d, (- Z.of_nat p)%Z, s).
Proof.
  intros Hp Hd Hs He Hsg. unfold read_number, fixed_text, int_text.
  replace ((sg ++ to_string (d / 10 ^ Z.of_nat p)%Z ++ "." ++ digits p d) ++ s)%string
    with (sg ++ to_string (d / 10 ^ Z.of_nat p)%Z ++ String "." (digits p d ++ s))%string.
  2:{ rewrite !sapp_assoc. cbn [append]. rewrite ?sapp_assoc. reflexivity. }
  rewrite Hsg. assert (P : (0 < 10 ^ Z.of_nat p)%Z) by (apply Z.pow_pos_nonneg; lia).
  destruct (take_to_string (d / 10 ^ Z.of_nat p) (String "." (digits p d ++ s))) as (n & Hn & ->); [ apply Z.div_pos; lia | ].
  rewrite (take_digits_stop (String "." _)) by reflexivity. replace (n =? 0) with false by (symmetry; apply Nat.eqb_neq; lia). cbv iota beta.
  rewrite take_digits_app, (take_digits_stop s) by exact Hs. cbv iota beta.
  pose proof (Z.div_mod d (10 ^ Z.of_nat p) ltac:(lia)) as Hdm.
  replace (d / 10 ^ Z.of_nat p * 10 ^ Z.of_nat p + d mod 10 ^ Z.of_nat p)%Z with d by lia. cbn [Nat.add].
  destruct s as [|c s]; [ reflexivity | ]. destruct c as [b0 b1 b2 b3 b4 b5 b6 b7]. destruct b0, b1, b2, b3, b4, b5, b6, b7; try reflexivity; contradiction He.
Qed.
Lemma take_sign_int z t : (0 <= z)%Z -> take_sign (to_string z ++ t) = (false, (to_string z ++ t)%string).
Proof.
  intros Hz. unfold to_string. destruct z as [|p|p]; [ reflexivity | | lia ]. cbn [Z.to_int NilZero.string_of_int].
  destruct (Pos.to_uint p); reflexivity.
Qed.
Lemma read_fixed p x : 0 < p -> finite x -> read_real (fixed p x) = Some (number (sign_bit x) (fixed_int p x) (- Z.of_nat p)).
Proof.
  intros Hp F. unfold read_real. rewrite <- (sapp_nil (fixed p x)), (fixed_finite p x F).
  rewrite (read_fixed_text p _ "" (minus (sign_bit x)) (sign_bit x) Hp (fixed_int_nonneg p x) eq_refl I); [ reflexivity | ].
  intros t. destruct (sign_bit x); [ reflexivity | ]. apply take_sign_int. apply Z.div_pos; [ apply fixed_int_nonneg | apply Z.pow_pos_nonneg; lia ].
Qed.
Lemma read_fixed_pos p x : 0 < p -> finite x -> read_real (fixed_pos p x) = Some (number (sign_bit x) (fixed_int p x) (- Z.of_nat p)).
Proof.
  intros Hp F. unfold fixed_pos, plus. destruct (sign_bit x) eqn:S.
  - rewrite <- S. apply (read_fixed p x Hp F).
  - unfold read_real. rewrite (fixed_finite p x F), S. cbn [minus append]. rewrite <- (sapp_nil (String "+" (fixed_text p (fixed_int p x)))).
    change (String "+" (fixed_text p (fixed_int p x)) ++ "")%string with (("+" ++ fixed_text p (fixed_int p x)) ++ "")%string.
    rewrite (read_fixed_text p (fixed_int p x) "" "+" false Hp (fixed_int_nonneg p x) eq_refl I); [ reflexivity | ]. intros t. reflexivity.
Qed.
Lemma fixed_clean p x : clean (fixed p x).
Proof.
  assert (T : forall d, clean (fixed_text p d)).
  { intros d. unfold fixed_text, int_text. apply clean_app. split; [ apply to_string_clean | ]. apply clean_app. split; [ reflexivity | apply digits_clean ]. }
  destruct x as [s|s|s|s m e]; cbn [fixed]; (apply clean_app; split; [ apply minus_clean | ]); try reflexivity; apply T.
Qed.
Lemma fixed_pos_clean p x : clean (fixed_pos p x).
Proof. unfold fixed_pos. apply clean_app. split; [ unfold plus; destruct (sign_bit x); reflexivity | apply fixed_clean ]. Qed.

(* ---------- run_parameters.txt ---------- *)
Lemma type_to_string_oneline (c : config double) f : (forall g s, c g = VStr double s -> one_line s) -> oneline (type_to_string (c f)).
Proof.
  intros H. destruct (c f) as [z|d|b|s] eqn:E; cbn [type_to_string].
  - apply clean_oneline, to_string_clean.
  - apply clean_oneline, fixed_clean.
  - destruct b; reflexivity.
  - apply one_line_iff, (H f s E).
Qed.
Definition printed_lines (c : config double) : list string :=
  "Running program for:" :: map (fun lf => (fst lf ++ type_to_string (c (snd lf)))%string) (printout_of c).
Lemma printout_in c lf : In lf (printout_of c) -> In lf (printout ++ [(channel_label, F_channel_idx)]).
Proof. unfold printout_of. rewrite !in_app_iff. destruct (is_true _); cbn [In]; tauto. Qed.
Lemma run_file_lines c : (forall g s, c g = VStr double s -> one_line s) -> lines (run_parameters_file c) = printed_lines c.
Proof.
  intros H. unfold run_parameters_file, create_input_printout_string. apply lines_unlines. intros l Hl. destruct Hl as [<-|Hl]; [ reflexivity | ].
  apply in_map_iff in Hl. destruct Hl as (lf & <- & Hlf). apply oneline_app. split; [ | apply type_to_string_oneline, H ].
  apply printout_in in Hlf. assert (K : Forall (fun lf => oneline (fst lf)) (printout ++ [(channel_label, F_channel_idx)])) by (repeat (apply Forall_cons; [ reflexivity | ]); apply Forall_nil).
  rewrite Forall_forall in K. apply K, Hlf.
Qed.
Lemma after_app l s : after l (l ++ s) = Some s.
Proof. induction l as [|c l IH]; cbn; [ destruct s; reflexivity | ]. rewrite Ascii.eqb_refl. exact IH. Qed.
(* a label is not the beginning of another line's label *)
Definition differ (a b : string) : bool := negb (String.eqb (substring 0 33 a) (substring 0 33 b)).
Lemma after_differ a b : forall s, String.length a = String.length b -> a <> b -> after a (b ++ s) = None.
Proof.
  revert b; induction a as [|c a IH]; intros [|d b] s Hl N; cbn in *; try lia; [ congruence | ].
  destruct (Ascii.eqb_spec c d) as [->|]; [ | reflexivity ]. apply IH; [ lia | congruence ].
Qed.
Lemma entry_of (g : field -> string) l : (forall a, In a l -> String.length (fst a) = 33) -> NoDup (map fst l) ->
  forall lf, In lf l -> entry (fst lf) (map (fun lf => (fst lf ++ g (snd lf))%string) l) = Some (g (snd lf)).
Proof.
  induction l as [|a l IH]; intros HL HN lf Hi; [ contradiction | ]. cbn [map] in *. inversion HN as [|x y Hni HN']; subst. cbn [entry].
  destruct Hi as [<-|Hi].
  - rewrite after_app. reflexivity.
  - rewrite after_differ; [ apply IH; try assumption; intros; apply HL; now right | | ].
    + rewrite (HL a), (HL lf); [ reflexivity | now right | now left ].
    + intros E. apply Hni. rewrite <- E. apply in_map, Hi.
Qed.
Lemma labels_len a : In a (printout ++ [(channel_label, F_channel_idx)]) -> String.length (fst a) = 33.
Proof.
  assert (K : Forall (fun a => String.length (fst a) = 33) (printout ++ [(channel_label, F_channel_idx)])) by (repeat (apply Forall_cons; [ reflexivity | ]); apply Forall_nil).
  rewrite Forall_forall in K. apply K.
Qed.
Fixpoint nodupb (l : list string) : bool := match l with [] => true | a :: r => negb (existsb (String.eqb a) r) && nodupb r end.
Lemma nodupb_ok l : nodupb l = true -> NoDup l.
Proof.
  induction l as [|a l IH]; cbn; intros H; [ constructor | ]. apply andb_true_iff in H. destruct H as [H1 H2]. constructor; [ | apply IH, H2 ].
  intros Hi. apply negb_true_iff in H1. assert (existsb (String.eqb a) l = true); [ | congruence ]. apply existsb_exists. exists a. split; [ exact Hi | apply String.eqb_refl ].
Qed.
Lemma labels_nodup : NoDup (map fst (printout ++ [(channel_label, F_channel_idx)])).
Proof. apply nodupb_ok. vm_compute. reflexivity. Qed.
Lemma nodup_printout c : NoDup (map fst (printout_of c)).
Proof.
  unfold printout_of. destruct (is_true _); [ exact labels_nodup | ]. rewrite app_nil_r. pose proof labels_nodup as H. rewrite map_app in H. apply NoDup_remove_1 in H. rewrite app_nil_r in H. exact H.
Qed.
Theorem run_file_entry c lf : (forall g s, c g = VStr double s -> one_line s) -> In lf (printout_of c) ->
  entry (fst lf) (lines (run_parameters_file c)) = Some (type_to_string (c (snd lf))).
Proof.
  intros H Hi. rewrite run_file_lines by exact H. unfold printed_lines. cbn [entry].
  assert (A : after (fst lf) "Running program for:" = None).
  { assert (K : Forall (fun a => after (fst a) "Running program for:" = None) (printout ++ [(channel_label, F_channel_idx)])) by (repeat (apply Forall_cons; [ reflexivity | ]); apply Forall_nil).
    rewrite Forall_forall in K. apply K, (printout_in c), Hi. }
  rewrite A. apply (entry_of (fun f => type_to_string (c f))); [ | apply nodup_printout | exact Hi ].
  intros a Ha. apply labels_len, (printout_in c), Ha.
Qed.
(* two runs with the same file *)
Lemma show_inj k v w : typed_val double k v -> typed_val double k w -> type_to_string v = type_to_string w -> k <> KDbl -> v = w.
Proof.
  destruct k, v, w; cbn [typed_val type_to_string]; try contradiction; intros _ _ E N; try congruence.
  - f_equal. apply to_string_inj, E.
  - f_equal. destruct b, b0; congruence || discriminate E.
Qed.
Lemma show_dbl x y p : 0 < p -> finite x -> finite y -> fixed p x = fixed p y -> (Rabs (value x - value y) <= bpow r10 (- Z.of_nat p))%R.
Proof.
  intros Hp Fx Fy E. pose proof (read_fixed p x Hp Fx) as Rx. pose proof (read_fixed p y Hp Fy) as Ry. rewrite E, Ry in Rx. injection Rx as Rx.
  destruct (fixed_int_ok p x Fx) as [Ax _]. destruct (fixed_int_ok p y Fy) as [Ay _]. rewrite Rx in Ay.
  set (v := number (sign_bit x) (fixed_int p x) (- Z.of_nat p)) in *. change (Build_radix 10 eq_refl) with r10 in *.
  replace (value x - value y)%R with ((v - value y) - (v - value x))%R by ring. apply Rabs_le_inv in Ax, Ay. apply Rabs_le. lra.
Qed.
Lemma same_file c c' : (forall g s, c g = VStr double s -> one_line s) -> (forall g s, c' g = VStr double s -> one_line s) ->
  run_parameters_file c = run_parameters_file c' -> forall lf, In lf printout -> type_to_string (c (snd lf)) = type_to_string (c' (snd lf)).
Proof.
  intros H H' E lf Hi. pose proof (run_file_entry c lf H) as A. pose proof (run_file_entry c' lf H') as A'. rewrite E in A.
  assert (I1 : forall d, In lf (printout_of d)) by (intros d; unfold printout_of; apply in_or_app; now left).
  rewrite (A' (I1 c')) in A. specialize (A (I1 c)). congruence.
Qed.
Lemma same_file_channel c c' : (forall g s, c g = VStr double s -> one_line s) -> (forall g s, c' g = VStr double s -> one_line s) ->
  run_parameters_file c = run_parameters_file c' -> is_true (c F_parallel_run) = true -> is_true (c' F_parallel_run) = true -> type_to_string (c F_channel_idx) = type_to_string (c' F_channel_idx).
Proof.
  intros H H' E T T'. pose proof (run_file_entry c (channel_label, F_channel_idx) H) as A. pose proof (run_file_entry c' (channel_label, F_channel_idx) H') as A'. rewrite E in A.
  cbn [fst snd] in *. rewrite A' in A by (unfold printout_of; rewrite T'; apply in_or_app; right; now left).
  specialize (A ltac:(unfold printout_of; rewrite T; apply in_or_app; right; now left)). congruence.
Qed.
