From Coq Require Import String Ascii Reals Psatz Decimal DecimalString.
From Flocq Require Import Core.
From Verif Require Import Common ArrayLib NameModel SwpModel GridModel GridSpec GridProofs GridPropsLemmas OnShellSpec OnShellProofs ParamsModel ParamsSpec ParamsProofs
  TextModel TextSpec TextNum TextProofs TextLines TextFileProofs TextFinal RecordModel RecordSpec RecordProofs.
Open Scope string_scope.
Open Scope list_scope.
Open Scope nat_scope.

(* ---------- numbers in the kinematics file ---------- *)
Definition kdone (f : nat -> R) (n : nat) (a : list R) : Prop := forall i, i < n -> nth_error a i = Some (f i).
Lemma kdone_step (f : nat -> R) n (a : list R) v : kdone f n a -> n < length a -> v = f n -> exists a', awrite a n v = Ok a' /\ length a' = length a /\ kdone f (S n) a'.
Proof.
  intros H Hn ->. destruct (awrite_ok a n (f n) Hn) as (a' & E & L & W & O). exists a'. split; [ exact E | ]. split; [ exact L | ].
  intros i Hi. destruct (Nat.eq_dec i n) as [->|Ne]; [ exact W | ]. rewrite O by exact Ne. apply H. lia.
Qed.
Lemma kinematics_ok Nq (q : list R) Eb (junk : nat -> list R) : (- (Mn + Mp) < Eb)%R -> length q = Nq + 1 -> (forall n, length (junk n) = n) ->
  exists k, swp_kinematics Nq q Eb junk = Ok k /\ k_q k = q /\ length (k_E k) = Nq + 1 /\ length (k_T k) = Nq + 1 /\
    length (k_qmid k) = Nq /\ length (k_Emid k) = Nq /\ length (k_Tmid k) = Nq /\
    kdone (fun i => com_q_momentum_to_com_energy (nth i q 0%R)) (Nq + 1) (k_E k) /\
    kdone (fun i => com_momentum_to_lab_energy (nth i q 0%R) Eb) (Nq + 1) (k_T k) /\
    kdone (fun i => mid_momentum Eb (nth i q 0%R) (nth (i + 1) q 0%R)) Nq (k_qmid k) /\
    kdone (fun i => mid_E Eb (nth i q 0%R) (nth (i + 1) q 0%R)) Nq (k_Emid k) /\
    kdone (fun i => com_momentum_to_lab_energy (mid_momentum Eb (nth i q 0%R) (nth (i + 1) q 0%R)) Eb) Nq (k_Tmid k).
Proof.
  intros HEb HL HJ. unfold swp_kinematics.
  match goal with |- context [ofold ?f (seq 0 (Nq + 1)) ?s0] => destruct (ofold_inv (fun d (st : list R * list R) => length (fst st) = Nq + 1 /\ length (snd st) = Nq + 1 /\
     kdone (fun i => com_q_momentum_to_com_energy (nth i q 0%R)) (length d) (fst st) /\ kdone (fun i => com_momentum_to_lab_energy (nth i q 0%R) Eb) (length d) (snd st)) f (seq 0 (Nq + 1)) s0) as ([E T] & -> & H1) end.
  - cbn [fst snd length]. rewrite HJ. repeat split; intros i Hi; lia.
  - intros d i r [E T] Hs (L1 & L2 & D1 & D2). cbn [fst snd] in *.
    assert (Hi : i = length d /\ i < Nq + 1). { apply (f_equal (fun l => nth_error l (length d))) in Hs as Hn. rewrite nth_error_app2, Nat.sub_diag in Hn by lia. cbn [nth_error] in Hn.
      assert (length d < Nq + 1) by (apply (f_equal (@length _)) in Hs; rewrite seq_length, app_length in Hs; cbn [length] in Hs; lia).
      rewrite (nth_error_nth' _ 0) in Hn by (rewrite seq_length; assumption). rewrite seq_nth in Hn by assumption. injection Hn as Hn. cbn in Hn. lia. }
    destruct Hi as [-> Hi]. rewrite (aread_nth q _ 0%R) by lia. cbn [obind].
    destruct (kdone_step _ _ E _ D1 ltac:(lia) eq_refl) as (E' & -> & LE & DE). cbn [obind].
    destruct (kdone_step _ _ T _ D2 ltac:(lia) eq_refl) as (T' & -> & LT & DT). cbn [obind]. exists (E', T'). split; [ reflexivity | ].
    cbn [fst snd]. rewrite app_length. cbn [length]. replace (length d + 1) with (S (length d)) by lia. rewrite LE, LT. auto.
  - cbn [fst snd] in H1. rewrite seq_length in H1. destruct H1 as (L1 & L2 & D1 & D2). cbn [obind].
    match goal with |- context [ofold ?f (seq 0 Nq) ?s0] => destruct (ofold_inv (fun d (st : list R * list R * list R) => let '(a, b, c) := st in length a = Nq /\ length b = Nq /\ length c = Nq /\
       kdone (fun i => mid_momentum Eb (nth i q 0%R) (nth (i + 1) q 0%R)) (length d) a /\ kdone (fun i => mid_E Eb (nth i q 0%R) (nth (i + 1) q 0%R)) (length d) b /\
       kdone (fun i => com_momentum_to_lab_energy (mid_momentum Eb (nth i q 0%R) (nth (i + 1) q 0%R)) Eb) (length d) c) f (seq 0 Nq) s0) as ([[qm Em] Tm] & -> & H2) end.
    + rewrite HJ. cbn [length]. repeat split; intros i Hi; lia.
    + intros d i r [[a b] c] Hs (L3 & L4 & L5 & D3 & D4 & D5).
      assert (Hi : i = length d /\ i < Nq). { apply (f_equal (fun l => nth_error l (length d))) in Hs as Hn. rewrite nth_error_app2, Nat.sub_diag in Hn by lia. cbn [nth_error] in Hn.
        assert (length d < Nq) by (apply (f_equal (@length _)) in Hs; rewrite seq_length, app_length in Hs; cbn [length] in Hs; lia).
        rewrite (nth_error_nth' _ 0) in Hn by (rewrite seq_length; assumption). rewrite seq_nth in Hn by assumption. injection Hn as Hn. cbn in Hn. lia. }
      destruct Hi as [-> Hi]. rewrite (aread_nth q (length d) 0%R) by lia. cbn [obind]. rewrite (aread_nth q (length d + 1) 0%R) by lia. cbn [obind]. cbv zeta.
      assert (EM : com_energy_to_com_q_momentum (mid_E Eb (nth (length d) q 0%R) (nth (length d + 1) q 0%R)) = mid_momentum Eb (nth (length d) q 0%R) (nth (length d + 1) q 0%R)) by (apply mid_energy_momentum, HEb).
      destruct (kdone_step _ _ a _ D3 ltac:(lia) EM) as (a' & -> & La & Da). cbn [obind].
      destruct (kdone_step _ _ b _ D4 ltac:(lia) eq_refl) as (b' & -> & Lb & Db). cbn [obind].
      rewrite (aread_some a' _ _ (Da (length d) ltac:(lia))). cbn [obind].
      destruct (kdone_step _ _ c _ D5 ltac:(lia) eq_refl) as (c' & -> & Lc & Dc). cbn [obind]. exists (a', b', c'). split; [ reflexivity | ].
      rewrite app_length. cbn [length]. replace (length d + 1) with (S (length d)) by lia. rewrite La, Lb, Lc. auto 10.
    + rewrite seq_length in H2. destruct H2 as (L3 & L4 & L5 & D3 & D4 & D5). cbn [obind]. eexists. split; [ reflexivity | ]. cbn [k_q k_E k_T k_qmid k_Emid k_Tmid]. auto 12.
Qed.
Lemma mid_E_ratio Eb ql qu : (- (Mn + Mp) < Eb)%R -> mid_E Eb ql qu = (mass_ratio Eb * ((com_q_momentum_to_com_energy ql + com_q_momentum_to_com_energy qu) / 2))%R.
Proof.
  intros H. unfold mid_E, mass_ratio, com_q_momentum_to_com_energy. change (kin_mu1 Eb) with (reduced_mass Mn (Mn + Mp + Eb)). pose proof (red_pos Eb H) as Hr.
  generalize dependent (reduced_mass Mn (Mn + Mp + Eb)). intros m Hm. assert (HM : (0 < MN)%R) by (unfold MN, Mn, Mp; lra). generalize dependent MN. intros M HM.
  replace 0.5%R with (/ 2)%R by lra. field. split; lra.
Qed.
Lemma mid_consistent Eb ql qu : (- (Mn + Mp) < Eb)%R -> com_q_momentum_to_com_energy (mid_momentum Eb ql qu) = mid_E Eb ql qu.
Proof.
  intros H. rewrite mid_E_ratio by exact H. unfold com_q_momentum_to_com_energy. rewrite Rmult_assoc, (mid_k_sq Eb H).
  assert (HM : (0 < MN)%R) by (unfold MN, Mn, Mp; lra). generalize dependent MN. intros M HM. generalize (mass_ratio Eb). intros r. field. lra.
Qed.
Lemma ratio_lt1 Eb : (-2.5 <= Eb <= 0)%R -> (mass_ratio Eb < 1)%R.
Proof.
  intros [H1 H2]. assert (H0 : (- (Mn + Mp) < Eb)%R) by (unfold Mn, Mp; lra). unfold mass_ratio. pose proof (red_pos Eb H0) as Hr. apply (Rmult_lt_reg_r (reduced_mass Mn (Mn + Mp + Eb)) _ _ Hr).
  unfold Rdiv. rewrite Rmult_assoc, Rinv_l by lra. rewrite Rmult_1_l, Rmult_1_r. clear Hr.
  unfold reduced_mass. apply (Rmult_lt_reg_r (Mn + (Mn + Mp + Eb))); [ unfold Mn, Mp in *; lra | ].
  unfold Rdiv. rewrite (Rmult_assoc (Mn * (Mn + Mp + Eb))), Rinv_l by (unfold Mn, Mp in *; lra). unfold MN. replace 0.5%R with (/ 2)%R by lra. unfold Mn, Mp in *. lra.
Qed.

(* ---------- its text ---------- *)
Lemma kin_line_ok i a b c : fields (kin_line i a b c) = [to_string (Z.of_nat i); sci_pos 8 a; sci_pos 8 b; sci_pos 8 c] /\ comment (kin_line i a b c) = false /\ oneline (kin_line i a b c).
Proof.
  assert (SC : forall x, clean (sci_pos 8 x) /\ sci_pos 8 x <> EmptyString).
  { intros x. unfold sci_pos. split; [ apply clean_app; split; [ unfold plus; destruct (sign_bit x); reflexivity | apply sci_clean ] | ].
    destruct x as [s|s|s|s m e]; unfold plus, sci; cbn [sign_bit]; destruct s; try discriminate; destruct (decimal _ _ _); discriminate. }
  assert (NE : to_string (Z.of_nat i) <> EmptyString).
  { unfold to_string. destruct (Z.of_nat i) as [|p|p]; [ discriminate | | discriminate ]. cbn [Z.to_int NilZero.string_of_int]. destruct (Pos.to_uint p); discriminate. }
  assert (KL : kin_line i a b c = (setw 7 (to_string (Z.of_nat i)) ++ setw 10 " " ++ sci_pos 8 a ++ setw 10 " " ++ sci_pos 8 b ++ setw 10 " " ++ sci_pos 8 c)%string).
  { unfold kin_line. cbn [map]. unfold cat. cbn [fold_right]. rewrite sapp_nil, !sapp_assoc. reflexivity. }
  rewrite KL. split; [ | split ].
  - unfold setw at 1. rewrite sapp_assoc, fields_blanks. rewrite fields_word; [ | apply to_string_clean | exact NE | reflexivity ]. f_equal.
    change (setw 10 " ") with (blanks 10). rewrite fields_blanks. rewrite fields_word; [ | apply SC | apply SC | reflexivity ]. f_equal.
    rewrite fields_blanks. rewrite fields_word; [ | apply SC | apply SC | reflexivity ]. f_equal.
    rewrite fields_blanks. rewrite <- (sapp_nil (sci_pos 8 c)). rewrite fields_word; [ rewrite sapp_nil; reflexivity | apply SC | apply SC | reflexivity ].
  - unfold setw at 1. destruct (7 - String.length (to_string (Z.of_nat i))); [ | reflexivity ]. cbn [blanks append].
    pose proof (to_string_clean (Z.of_nat i)). unfold to_string in *. destruct (Z.of_nat i) as [|p|p]; [ reflexivity | | reflexivity ]. cbn [Z.to_int NilZero.string_of_int]. destruct (Pos.to_uint p); reflexivity.
  - assert (SO : forall x, oneline (sci_pos 8 x)) by (intros; apply clean_oneline, SC).
    apply oneline_app. split; [ apply setw_oneline, clean_oneline, to_string_clean | ].
    apply oneline_app. split; [ reflexivity | ]. apply oneline_app. split; [ apply SO | ].
    apply oneline_app. split; [ reflexivity | ]. apply oneline_app. split; [ apply SO | ].
    apply oneline_app. split; [ reflexivity | apply SO ].
Qed.
Lemma kin_rows_ok n q E T (z : double) : n <= length q -> n <= length E -> n <= length T ->
  kin_rows n q E T = Ok (map (fun i => kin_line i (nth i q z) (nth i E z) (nth i T z)) (seq 0 n)).
Proof.
  intros H1 H2 H3. unfold kin_rows.
  match goal with |- ofold ?f (seq 0 n) [] = _ => destruct (ofold_inv (fun d acc => acc = map (fun i => kin_line i (nth i q z) (nth i E z) (nth i T z)) d) f (seq 0 n) []) as (r & -> & ->) end; [ reflexivity | | reflexivity ].
  intros d i r acc Hs ->. assert (Hi : i < n). { assert (In i (seq 0 n)) as X by (rewrite Hs, in_app_iff; right; now left). apply in_seq in X. lia. }
  rewrite (aread_nth q i z), (aread_nth E i z), (aread_nth T i z) by lia. cbn [obind]. eexists. split; [ reflexivity | ]. rewrite map_app. reflexivity.
Qed.
Lemma shows_pos p x : finite x -> shows p (Some (sci_pos p x)) x.
Proof.
  intros F. destruct (magnitude p x) as [d k] eqn:E. exists (sci_pos p x), (number (sign_bit x) d (k - Z.of_nat p)). split; [ reflexivity | ]. split; [ | apply number_rounded; assumption ].
  destruct (sign_bit x) eqn:S.
  - unfold sci_pos, plus. rewrite S. cbn [append]. unfold read_real. rewrite <- (sapp_nil (sci p x)), (read_sci_real p x d k "" F E eq_refl), S. reflexivity.
  - assert (P : plain x) by (split; [ exact F | intros ->; discriminate S ]).
    assert (W : sci_pos p x = with_sign p x). { unfold sci_pos, with_sign, plus. rewrite S, (ge0_plain x P), S. reflexivity. }
    rewrite W. unfold read_real. rewrite <- (sapp_nil (with_sign p x)), (read_with_sign p x d k "" P E eq_refl), S. reflexivity.
Qed.
Lemma table_lines L : (forall l, In l L -> oneline l) -> table (unlines L) = filter (fun r => match r with [] => false | _ => true end) (map fields (filter (fun l => negb (comment l)) L)).
Proof. intros H. unfold table. rewrite lines_unlines by exact H. reflexivity. Qed.
Definition kin_row (q E T : list double) (z : double) (i : nat) : list string := [to_string (Z.of_nat i); sci_pos 8 (nth i q z); sci_pos 8 (nth i E z); sci_pos 8 (nth i T z)].
Lemma kin_table Nq q E T qm Em Tm (z : double) : length q = Nq + 1 -> length E = Nq + 1 -> length T = Nq + 1 -> length qm = Nq -> length Em = Nq -> length Tm = Nq ->
  exists file, kin_file Nq q E T qm Em Tm = Ok file /\ table file = map (kin_row q E T z) (seq 0 (Nq + 1)) ++ map (kin_row qm Em Tm z) (seq 0 Nq).
Proof.
  intros H1 H2 H3 H4 H5 H6. unfold kin_file. rewrite (kin_rows_ok (Nq + 1) q E T z), (kin_rows_ok Nq qm Em Tm z) by lia. cbn [obind]. eexists. split; [ reflexivity | ].
  assert (RO : forall a b c n l, In l (map (fun i => kin_line i (nth i a z) (nth i b z) (nth i c z)) (seq 0 n)) -> oneline l).
  { intros a b c n l Hl. apply in_map_iff in Hl. destruct Hl as (i & <- & _). apply kin_line_ok. }
  rewrite table_lines.
  - rewrite !filter_app.
    change (filter (fun l => negb (comment l)) kin_comments) with (@nil string). change (filter (fun l => negb (comment l)) [kin_header]) with (@nil string).
    change (filter (fun l => negb (comment l)) ["# "; "# BIN MID-POINTS: "; "# "; kin_header]) with (@nil string). change (filter (fun l => negb (comment l)) [""]) with [""].
    cbn [app]. assert (FK : forall a b c n, filter (fun l => negb (comment l)) (map (fun i => kin_line i (nth i a z) (nth i b z) (nth i c z)) (seq 0 n)) = map (fun i => kin_line i (nth i a z) (nth i b z) (nth i c z)) (seq 0 n)).
    { intros. apply filter_keep. intros l Hl. apply in_map_iff in Hl. destruct Hl as (i & <- & _). destruct (kin_line_ok i (nth i a z) (nth i b z) (nth i c z)) as (_ & -> & _). reflexivity. }
    rewrite !FK, !map_app, !map_map. assert (FF : forall a b c n, map (fun i => fields (kin_line i (nth i a z) (nth i b z) (nth i c z))) (seq 0 n) = map (kin_row a b c z) (seq 0 n)).
    { intros. apply map_ext. intros i. apply kin_line_ok. }
    rewrite !FF, !filter_app. cbn [map fields filter]. rewrite app_nil_r.
    f_equal; apply filter_keep; intros l Hl; apply in_map_iff in Hl; destruct Hl as (i & <- & _); reflexivity.
  - intros l Hl. rewrite !in_app_iff in Hl. destruct Hl as [Hl|[Hl|[Hl|[Hl|[Hl|Hl]]]]].
    + repeat (destruct Hl as [<-|Hl]; [ reflexivity | ]). destruct Hl.
    + destruct Hl as [<-|[]]. reflexivity.
    + exact (RO _ _ _ _ _ Hl).
    + repeat (destruct Hl as [<-|Hl]; [ reflexivity | ]). destruct Hl.
    + exact (RO _ _ _ _ _ Hl).
    + destruct Hl as [<-|[]]. reflexivity.
Qed.
Definition kin_shows (row : list string) (i : nat) (q E T : double) : Prop :=
  length row = 4 /\ nth_error row 0 = index_field i /\ shows 8 (nth_error row 1) q /\ shows 8 (nth_error row 2) E /\ shows 8 (nth_error row 3) T.
Lemma kin_readable Nq q E T qm Em Tm : length q = Nq + 1 -> length E = Nq + 1 -> length T = Nq + 1 -> length qm = Nq -> length Em = Nq -> length Tm = Nq ->
  Forall finite (q ++ E ++ T ++ qm ++ Em ++ Tm) ->
  exists file, kin_file Nq q E T qm Em Tm = Ok file /\ length (table file) = (Nq + 1) + Nq /\
    (forall i a b c, nth_error q i = Some a -> nth_error E i = Some b -> nth_error T i = Some c -> exists row, nth_error (table file) i = Some row /\ kin_shows row i a b c) /\
    (forall i a b c, nth_error qm i = Some a -> nth_error Em i = Some b -> nth_error Tm i = Some c -> exists row, nth_error (table file) (Nq + 1 + i) = Some row /\ kin_shows row i a b c).
Proof.
  intros H1 H2 H3 H4 H5 H6 F. destruct (kin_table Nq q E T qm Em Tm (Zer false) H1 H2 H3 H4 H5 H6) as (file & E0 & ET). exists file. split; [ exact E0 | ]. rewrite ET.
  split; [ rewrite app_length, !map_length, !seq_length; reflexivity | ].
  assert (K : forall (A B C : list double) i a b c, nth_error A i = Some a -> nth_error B i = Some b -> nth_error C i = Some c -> finite a -> finite b -> finite c -> kin_shows (kin_row A B C (Zer false) i) i a b c).
  { intros A B C i a b c Ha Hb Hc Fa Fb Fc. unfold kin_shows, kin_row. rewrite (nth_error_nth _ _ _ Ha), (nth_error_nth _ _ _ Hb), (nth_error_nth _ _ _ Hc). cbn [length nth_error].
    split; [ reflexivity | ]. split; [ reflexivity | ]. split; [ | split ]; apply shows_pos; assumption. }
  assert (FI : forall x, In x (q ++ E ++ T ++ qm ++ Em ++ Tm) -> finite x) by (apply Forall_forall, F).
  split; intros i a b c Ha Hb Hc.
  - assert (i < Nq + 1) by (rewrite <- H1; apply nth_error_Some; congruence). eexists. split.
    + rewrite nth_error_app1 by (rewrite map_length, seq_length; assumption). rewrite nth_error_map, (nth_error_nth' (seq 0 (Nq + 1)) 0) by (rewrite seq_length; assumption). rewrite seq_nth by assumption. reflexivity.
    + apply K; try assumption; apply FI; rewrite !in_app_iff; apply nth_error_In in Ha, Hb, Hc; tauto.
  - assert (i < Nq) by (rewrite <- H4; apply nth_error_Some; congruence). eexists. split.
    + rewrite nth_error_app2 by (rewrite map_length, seq_length; lia). rewrite map_length, seq_length. replace (Nq + 1 + i - (Nq + 1)) with i by lia.
      rewrite nth_error_map, (nth_error_nth' (seq 0 Nq) 0) by (rewrite seq_length; assumption). rewrite seq_nth by assumption. reflexivity.
    + apply K; try assumption; apply FI; rewrite !in_app_iff; apply nth_error_In in Ha, Hb, Hc; tauto.
Qed.

(* ---------- csv ---------- *)
Lemma csv_rows Nq q (z : double) : length q = Nq + 1 -> csv_file Nq q = Ok (unlines (map (fixed_pos 8) q ++ [""])).
Proof.
  intros H. unfold csv_file.
  match goal with |- context [ofold ?f (seq 0 (Nq + 1)) []] => destruct (ofold_inv (fun d acc => acc = map (fun i => fixed_pos 8 (nth i q z)) d) f (seq 0 (Nq + 1)) []) as (r & -> & ->) end.
  - reflexivity.
  - intros d i r acc Hs ->. assert (Hi : i < Nq + 1). { assert (In i (seq 0 (Nq + 1))) as X by (rewrite Hs, in_app_iff; right; now left). apply in_seq in X. lia. }
    rewrite (aread_nth q i z) by lia. cbn [obind]. eexists. split; [ reflexivity | ]. rewrite map_app. reflexivity.
  - cbn [obind]. f_equal. f_equal. f_equal. rewrite <- (map_map (fun i => nth i q z) (fixed_pos 8)). f_equal. rewrite <- H. clear. induction q as [|x q IH]; [ reflexivity | ].
    cbn [length seq map nth]. f_equal. rewrite <- seq_shift, map_map. exact IH.
Qed.
Lemma csv_lines q : lines (unlines (map (fixed_pos 8) q ++ [""])) = map (fixed_pos 8) q ++ [""].
Proof.
  apply lines_unlines. intros l Hl. rewrite in_app_iff in Hl. destruct Hl as [Hl|[<-|[]]]; [ | reflexivity ]. apply in_map_iff in Hl. destruct Hl as (x & <- & _). apply clean_oneline, fixed_pos_clean.
Qed.

(* ---------- run_parameters.txt ---------- *)
Lemma label_in f l : label f = Some l -> In (padded l, f) (printout ++ [(channel_label, F_channel_idx)]).
Proof. destruct f; intros [= <-]; cbn; tauto. Qed.
Lemma label_printed c f l : label f = Some l -> f <> F_channel_idx \/ c F_parallel_run = VBool double true -> In (padded l, f) (printout_of c).
Proof.
  intros H HC. pose proof (label_in f l H) as Hi. unfold printout_of. rewrite in_app_iff in *. destruct Hi as [Hi|Hi]; [ now left | ].
  destruct Hi as [[= E1 <-]|[]]. destruct HC as [HC| ->]; [ congruence | ]. right. cbn [is_true]. left. congruence.
Qed.
Lemma type_text v : text_of v (type_to_string v).
Proof.
  destruct v as [z|d|b|s]; cbn [text_of type_to_string]; try reflexivity. intros F. eexists. split; [ apply read_fixed; [ lia | exact F ] | apply fixed_int_ok, F ].
Qed.
Lemma settings_strings c : settings c -> forall g s, c g = VStr double s -> one_line s.
Proof. intros H g s E. specialize (H g). rewrite E in H. destruct (kind_of g); cbn in H; try contradiction; exact H. Qed.
Lemma record_entry c f l : settings c -> label f = Some l -> f <> F_channel_idx \/ c F_parallel_run = VBool double true ->
  exists s, entry (padded l) (lines (run_parameters_file c)) = Some s /\ text_of (c f) s.
Proof.
  intros HS HL HC. exists (type_to_string (c f)). split; [ | apply type_text ].
  exact (run_file_entry c (padded l, f) (settings_strings c HS) (label_printed c f l HL HC)).
Qed.
Lemma record_determines c c' f l : settings c -> settings c' -> run_parameters_file c = run_parameters_file c' -> label f = Some l ->
  f <> F_channel_idx \/ c F_parallel_run = VBool double true -> type_to_string (c f) = type_to_string (c' f).
Proof.
  intros HS HS' E HL HC.
  assert (EP : c F_parallel_run = c' F_parallel_run).
  { pose proof (same_file c c' (settings_strings c HS) (settings_strings c' HS') E ("Parallel run:                    ", F_parallel_run)) as X. cbn [snd] in X.
    specialize (X ltac:(cbn; tauto)). pose proof (HS F_parallel_run) as K. pose proof (HS' F_parallel_run) as K'. cbn [kind_of] in *.
    destruct (c F_parallel_run) as [| |b|]; try contradiction. destruct (c' F_parallel_run) as [| |b'|]; try contradiction. destruct b, b'; try reflexivity; discriminate X. }
  pose proof (run_file_entry c (padded l, f) (settings_strings c HS) (label_printed c f l HL HC)) as A.
  assert (HC' : f <> F_channel_idx \/ c' F_parallel_run = VBool double true) by (rewrite <- EP; exact HC).
  pose proof (run_file_entry c' (padded l, f) (settings_strings c' HS') (label_printed c' f l HL HC')) as A'. rewrite E in A. cbn [fst snd] in *. congruence.
Qed.
Lemma record_same c c' : settings c -> settings c' -> run_parameters_file c = run_parameters_file c' ->
  (forall f, f <> F_output_folder -> f <> F_subfolder -> f <> F_chebyshev_t -> f <> F_chebyshev_s -> f <> F_channel_idx \/ c F_parallel_run = VBool double true -> c f = c' f) /\
  (forall f x x', f = F_chebyshev_t \/ f = F_chebyshev_s -> c f = VDbl double x -> c' f = VDbl double x' -> (Rabs (value x - value x') <= / 1000)%R).
Proof.
  intros HS HS' E. split.
  - intros f N1 N2 N3 N4 HC. destruct (label f) as [l|] eqn:HL; [ | destruct f; try discriminate HL; congruence ].
    pose proof (record_determines c c' f l HS HS' E HL HC) as X. pose proof (HS f) as K. pose proof (HS' f) as K'.
    assert (KD : kind_of f <> KDbl) by (destruct f; try discriminate; congruence).
    destruct (kind_of f); try congruence; destruct (c f) as [a|a|a|a]; try contradiction; destruct (c' f) as [b|b|b|b]; try contradiction; cbn [type_to_string] in X.
    + f_equal. apply NameProofs.to_string_inj, X.
    + f_equal. destruct a, b; try reflexivity; discriminate X.
    + congruence.
  - intros f x x' Hf Ex Ex'. assert (Fx : finite x). { pose proof (HS f) as K. rewrite Ex in K. destruct Hf as [-> | ->]; exact K. }
    assert (Fx' : finite x'). { pose proof (HS' f) as K. rewrite Ex' in K. destruct Hf as [-> | ->]; exact K. }
    assert (X : type_to_string (c f) = type_to_string (c' f)).
    { destruct Hf as [-> | ->]; (eapply record_determines; [ exact HS | exact HS' | exact E | reflexivity | left; discriminate ]). }
    rewrite Ex, Ex' in X. cbn [type_to_string] in X. pose proof (show_dbl x x' 3 ltac:(lia) Fx Fx' X) as B.
    replace (/ 1000)%R with (bpow r10 (- Z.of_nat 3)); [ exact B | ]. cbn. f_equal. 
Qed.
Lemma oneline_one s : oneline s -> one_line s.
Proof.
  unfold oneline, one_line. induction s as [|d s IH]; intros H i c Hc; [ destruct i; discriminate | ]. cbn [allc] in H. apply andb_true_iff in H. destruct H as [H1 H2].
  destruct i as [|i]; [ injection Hc as <-; intros ->; discriminate H1 | ]. exact (IH H2 i c Hc).
Qed.
