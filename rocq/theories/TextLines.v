(* Lines, fields, widths. *)
From Coq Require Import String Ascii Reals Psatz Decimal DecimalPos DecimalFacts DecimalString.
From Verif Require Import Common NameModel NameProofs ParamsModel OutputModel TextModel TextSpec TextNum TextProofs.
Open Scope string_scope.
Open Scope list_scope.
Open Scope nat_scope.

Definition nonblank (c : ascii) : bool := negb (isspace c).
Definition clean (s : string) : Prop := allc nonblank s = true.
Definition oneline (s : string) : Prop := allc (fun c => negb (Ascii.eqb c "010")) s = true.
Lemma clean_app a b : clean (a ++ b) <-> clean a /\ clean b.
Proof. unfold clean. rewrite allc_app, andb_true_iff. tauto. Qed.
Lemma oneline_app a b : oneline (a ++ b) <-> oneline a /\ oneline b.
Proof. unfold oneline. rewrite allc_app, andb_true_iff. tauto. Qed.
Lemma oneline_cat l : (forall s, In s l -> oneline s) -> oneline (cat l).
Proof. induction l as [|s l IH]; intros H; [ reflexivity | ]. cbn [cat fold_right]. apply oneline_app. split; [ apply H; now left | apply IH; intros; apply H; now right ]. Qed.
Lemma nonblank_nl c : nonblank c = true -> negb (Ascii.eqb c "010") = true.
Proof. destruct (Ascii.eqb_spec c "010") as [->|]; [ discriminate | reflexivity ]. Qed.
Lemma clean_oneline s : clean s -> oneline s.
Proof. apply allc_impl, nonblank_nl. Qed.

(* ---------- lines ---------- *)
Lemma lines_from_app l : oneline l -> forall r cur, lines_from (l ++ NL ++ r) cur = (cur ++ l)%string :: lines_from r "".
Proof.
  unfold oneline. induction l as [|c l IH]; intros H r cur; cbn [append].
  - cbn. rewrite sapp_nil. reflexivity.
  - cbn [allc] in H. apply andb_true_iff in H. destruct H as [Hc H]. apply negb_true_iff in Hc. cbn [lines_from]. rewrite Hc. rewrite (IH H), sapp_assoc. reflexivity.
Qed.
Lemma lines_unlines L : (forall l, In l L -> oneline l) -> lines (unlines L) = L.
Proof.
  unfold lines, unlines. induction L as [|l L IH]; intros H; [ reflexivity | ].
  cbn [map cat fold_right]. rewrite sapp_assoc. rewrite lines_from_app by (apply H; now left). f_equal.
  apply IH. intros; apply H; now right.
Qed.

(* ---------- fields ---------- *)
Definition starts_blank (s : string) : Prop := match s with EmptyString => True | String c _ => isspace c = true end.
Lemma fields_blanks n s : fields (blanks n ++ s) = fields s.
Proof. induction n as [|n IH]; [ reflexivity | ]. cbn [blanks append fields]. exact IH. Qed.
Lemma fields_word w s : clean w -> w <> EmptyString -> starts_blank s -> fields (w ++ s) = w :: fields s.
Proof.
  unfold clean. induction w as [|c w IH]; intros H N S; [ congruence | ]. cbn [allc] in H. apply andb_true_iff in H. destruct H as [Hc H].
  unfold nonblank in Hc. apply negb_true_iff in Hc. destruct w as [|d w].
  - cbn [append]. destruct s as [|x s]; cbn [fields]; rewrite Hc; [ reflexivity | ]. cbn [starts_blank] in S. rewrite S. reflexivity.
  - cbn [append] in *. cbn [fields] in *. rewrite Hc. cbn [allc] in H. assert (Hd : isspace d = false) by (apply andb_true_iff in H; destruct H as [H _]; unfold nonblank in H; apply negb_true_iff in H; exact H).
    rewrite Hd in *. specialize (IH H ltac:(discriminate) S). rewrite IH. reflexivity.
Qed.

Definition cell_ok (c : nat * string) : Prop := clean (snd c) /\ snd c <> EmptyString /\ String.length (snd c) < fst c.
Definition cells_text (L : list (nat * string)) : string := cat (map (fun c => setw (fst c) (snd c)) L).
Lemma cells_fields L : Forall cell_ok L -> fields (cells_text L) = map snd L /\ starts_blank (cells_text L).
Proof.
  unfold cells_text. induction 1 as [|[w s] L (C1 & C2 & C3) H [IH1 IH2]]; [ split; reflexivity | ]. cbn [fst snd] in *.
  cbn [map cat fold_right fst snd] in *. unfold setw at 1 3. split.
  - rewrite sapp_assoc, fields_blanks, fields_word by assumption. f_equal. exact IH1.
  - destruct (w - String.length s) as [|n] eqn:E; [ lia | ]. reflexivity.
Qed.
Lemma cells_oneline L : Forall cell_ok L -> oneline (cells_text L).
Proof.
  intros H. apply oneline_cat. intros s Hs. apply in_map_iff in Hs. destruct Hs as ([w t] & <- & Hi). cbn [fst snd]. unfold setw. apply oneline_app. split.
  - induction (w - String.length t) as [|n IH]; [ reflexivity | exact IH ].
  - apply clean_oneline. rewrite Forall_forall in H. apply (H (w, t) Hi).
Qed.
Lemma setw_oneline w s : oneline s -> oneline (setw w s).
Proof. intros H. unfold setw. apply oneline_app. split; [ | exact H ]. induction (w - String.length s) as [|n IH]; [ reflexivity | exact IH ]. Qed.

(* ---------- texts of numbers ---------- *)
Lemma digit_nonblank c : isdigit c = true -> nonblank c = true.
Proof. unfold isdigit, nonblank, isspace. generalize (nat_of_ascii c). intros n H. apply andb_true_iff in H. rewrite !Nat.leb_le in H. 
  apply negb_true_iff, orb_false_iff. split; [ apply andb_false_iff; right; apply Nat.leb_gt; lia | apply Nat.eqb_neq; lia ]. Qed.
Lemma digits_clean n v : clean (digits n v).
Proof. apply (allc_impl isdigit); [ exact digit_nonblank | apply digits_all ]. Qed.
Lemma exp_clean k : clean (exp_text k).
Proof. unfold exp_text. apply clean_app. split; [ destruct (k <? 0)%Z; reflexivity | destruct (_ <? 100)%Z; apply digits_clean ]. Qed.
Lemma sci_text_clean p d k : clean (sci_text p d k).
Proof.
  unfold sci_text. apply clean_app. split; [ apply digits_clean | ]. apply clean_app. split; [ reflexivity | ].
  apply clean_app. split; [ apply digits_clean | ]. apply clean_app. split; [ reflexivity | apply exp_clean ].
Qed.
Lemma minus_clean s : clean (minus s). Proof. destruct s; reflexivity. Qed.
Lemma sci_clean p x : clean (sci p x).
Proof.
  destruct x as [s|s|s|s m e]; cbn [sci]; try (apply clean_app; split; [ apply minus_clean | ]); try reflexivity; try apply sci_text_clean.
  destruct (decimal p (numer m e) (denom e)). apply clean_app. split; [ apply minus_clean | apply sci_text_clean ].
Qed.
Lemma with_sign_clean p x : clean (with_sign p x).
Proof. unfold with_sign. apply clean_app. split; [ destruct (ge0 x); reflexivity | apply sci_clean ]. Qed.
Lemma complex_clean a b : clean (complex_text a b).
Proof. unfold complex_text. apply clean_app. split; [ apply with_sign_clean | ]. apply clean_app. split; [ apply with_sign_clean | reflexivity ]. Qed.

Lemma sci_text_length p d k : String.length (sci_text p d k) <= p + 7 /\ 0 < String.length (sci_text p d k).
Proof.
  unfold sci_text, exp_text. rewrite !slength_app, !digits_length.
  assert (String.length (if (k <? 0)%Z then "-" else "+") = 1) by (destruct (k <? 0)%Z; reflexivity).
  rewrite H. cbn [String.length]. destruct (Z.abs k <? 100)%Z; rewrite digits_length; lia.
Qed.
Lemma sci_length p x : finite x -> 0 < String.length (sci p x) <= (if sign_bit x then 1 else 0) + p + 7.
Proof.
  intros F. destruct (magnitude p x) as [d k] eqn:E. rewrite (sci_finite p x d k F E), slength_app. pose proof (sci_text_length p d k).
  destruct (sign_bit x); cbn [minus String.length]; lia.
Qed.
(* neither a negative zero nor a NaN nor infinite *)
Definition plain (x : double) : Prop := finite x /\ x <> Zer true.
Lemma ge0_plain x : plain x -> ge0 x = negb (sign_bit x).
Proof. intros [F N]. destruct x as [s|s|s|s m e]; try contradiction; [ destruct s; [ congruence | reflexivity ] | reflexivity ]. Qed.
Lemma with_sign_text p x d k : plain x -> magnitude p x = (d, k) -> with_sign p x = ((if sign_bit x then "-" else "+") ++ sci_text p d k)%string.
Proof.
  intros P E. unfold with_sign. rewrite (ge0_plain x P), (sci_finite p x d k (proj1 P) E). destruct (sign_bit x); reflexivity.
Qed.
Lemma with_sign_length p x : plain x -> 0 < String.length (with_sign p x) <= p + 8.
Proof.
  intros P. destruct (magnitude p x) as [d k] eqn:E. rewrite (with_sign_text p x d k P E), slength_app. pose proof (sci_text_length p d k).
  destruct (sign_bit x); cbn [String.length]; lia.
Qed.
Lemma complex_length a b : plain a -> plain b -> 0 < String.length (complex_text a b) < 50.
Proof. intros A B. unfold complex_text. rewrite !slength_app. pose proof (with_sign_length 16 a A). pose proof (with_sign_length 16 b B). cbn [String.length]. lia. Qed.

(* reading back *)
Lemma read_with_sign p x d k s : plain x -> magnitude p x = (d, k) -> starts_digit s = false ->
  read_number (with_sign p x ++ s) = Some (sign_bit x, d, (k - Z.of_nat p)%Z, s).
Proof.
  intros P E Hs. rewrite (with_sign_text p x d k P E). destruct (mag_ok p x d k (proj1 P) E) as [Hd Hk]. apply read_sci; try assumption.
  intros t. destruct (sign_bit x); reflexivity.
Qed.
Lemma read_sci_real p x d k s : finite x -> magnitude p x = (d, k) -> starts_digit s = false ->
  read_number (sci p x ++ s) = Some (sign_bit x, d, (k - Z.of_nat p)%Z, s).
Proof.
  intros F E Hs. rewrite (sci_finite p x d k F E). destruct (mag_ok p x d k F E) as [Hd Hk]. apply read_sci; try assumption.
  intros t. destruct (sign_bit x); [ reflexivity | ]. cbn [minus append]. apply take_sign_digits. lia.
Qed.
Lemma read_real_sci p x : finite x -> exists v, read_real (sci p x) = Some v /\ rounded_to p (value x) v.
Proof.
  intros F. destruct (magnitude p x) as [d k] eqn:E. exists (number (sign_bit x) d (k - Z.of_nat p)). split; [ | apply number_rounded; assumption ].
  unfold read_real. rewrite <- (sapp_nil (sci p x)). rewrite (read_sci_real p x d k EmptyString F E eq_refl). reflexivity.
Qed.
Lemma read_complex_text a b : plain a -> plain b ->
  exists v w, read_complex (complex_text a b) = Some (v, w) /\ rounded_to 16 (value a) v /\ rounded_to 16 (value b) w.
Proof.
  intros A B. destruct (magnitude 16 a) as [d k] eqn:E. destruct (magnitude 16 b) as [d' k'] eqn:E'.
  exists (number (sign_bit a) d (k - Z.of_nat 16)), (number (sign_bit b) d' (k' - Z.of_nat 16)).
  split; [ | split; apply number_rounded; try assumption; [ apply A | apply B ] ].
  unfold read_complex, complex_text.
  assert (S : exists c r, with_sign 16 b = String c r /\ (Ascii.eqb c "+" || Ascii.eqb c "-")%bool = true /\ isdigit c = false).
  { rewrite (with_sign_text 16 b d' k' B E'). destruct (sign_bit b); cbn [append]; eexists; eexists; (split; [ reflexivity | split; reflexivity ]). }
  destruct S as (c & r & S1 & S2 & S3). rewrite (read_with_sign 16 a d k _ A E) by (rewrite S1; exact S3).
  pose proof (read_with_sign 16 b d' k' "j" B E' eq_refl) as R. rewrite S1 in R |- *. cbn [append] in R |- *. rewrite S2. rewrite R. reflexivity.
Qed.

(* ---------- integers ---------- *)
Lemma numeral_nonblank c : numeral_char c = true -> nonblank c = true.
Proof.
  intros H. unfold nonblank. apply negb_true_iff. destruct c as [b0 b1 b2 b3 b4 b5 b6 b7].
  destruct b0, b1, b2, b3, b4, b5, b6, b7; try reflexivity; discriminate H.
Qed.
Lemma uint_clean u : clean (NilEmpty.string_of_uint u).
Proof. induction u; try reflexivity; exact IHu. Qed.
Lemma zuint_clean u : clean (NilZero.string_of_uint u).
Proof. destruct u; try reflexivity; apply (uint_clean). Qed.
Lemma to_string_clean z : clean (to_string z).
Proof. unfold to_string. destruct (Z.to_int z); cbn [NilZero.string_of_int]; [ apply zuint_clean | apply (zuint_clean d) ]. Qed.
Lemma uint_length u : String.length (NilEmpty.string_of_uint u) = nb_digits u.
Proof. induction u; cbn; try reflexivity; now rewrite IHu. Qed.
Lemma zuint_length u : String.length (NilZero.string_of_uint u) <= Nat.max 1 (nb_digits u) /\ 0 < String.length (NilZero.string_of_uint u).
Proof. destruct u; cbn [NilZero.string_of_uint]; try (rewrite uint_length; cbn [nb_digits]; lia). cbn. lia. Qed.
Lemma acc_bound u : forall acc, (Zpos acc * 10 ^ Z.of_nat (nb_digits u) <= Zpos (Pos.of_uint_acc u acc))%Z.
Proof.
  induction u; intros acc; cbn [Pos.of_uint_acc nb_digits]; [ change (10 ^ Z.of_nat 0)%Z with 1%Z; lia | .. ];
    rewrite Nat2Z.inj_succ, Z.pow_succ_r by lia;
    (eapply Z.le_trans; [ | apply IHu ]); rewrite Z.mul_assoc; (apply Z.mul_le_mono_nonneg_r; [ apply Z.pow_nonneg; lia | lia ]).
Qed.
Lemma to_uint_norm p : unorm (Pos.to_uint p) = Pos.to_uint p.
Proof.
  assert (N : unorm (Pos.to_uint p) <> zero).
  { intros H. pose proof (Unsigned.of_uint_norm (Pos.to_uint p)) as E. rewrite H, Unsigned.of_to in E. discriminate E. }
  destruct (Unsigned.to_uint_pos_surj _ N) as [q Hq]. assert (q = p); [ | congruence ].
  pose proof (Unsigned.of_uint_norm (Pos.to_uint p)) as E. rewrite <- Hq, !Unsigned.of_to in E. congruence.
Qed.
Lemma pos_digits p : (10 ^ (Z.of_nat (nb_digits (Pos.to_uint p)) - 1) <= Zpos p)%Z.
Proof.
  pose proof (to_uint_norm p) as N. pose proof (Unsigned.of_to p) as O. pose proof (Unsigned.to_uint_nonnil p) as NN.
  assert (G : forall l a, Npos p = Npos (Pos.of_uint_acc l a) -> (10 ^ (Z.of_nat (S (nb_digits l)) - 1) <= Zpos p)%Z).
  { intros l a E. injection E as ->. eapply Z.le_trans; [ | apply acc_bound ]. rewrite Nat2Z.inj_succ. replace (Z.succ (Z.of_nat (nb_digits l)) - 1)%Z with (Z.of_nat (nb_digits l)) by lia.
    pose proof (Z.pow_nonneg 10 (Z.of_nat (nb_digits l))). nia. }
  destruct (Pos.to_uint p) as [|l|l|l|l|l|l|l|l|l|l]; [ congruence | | cbn [Pos.of_uint] in O; symmetry in O; exact (G _ _ O) .. ].
  (* a leading zero is not normal, except zero itself *)
  exfalso. cbn [unorm] in N. unfold unorm in N. cbn [nzhead] in N. destruct (nzhead l) eqn:Hl; try discriminate N.
  - injection N as <-. cbn in O. discriminate O.
  - pose proof (nb_digits_nzhead l) as B. rewrite Hl in B. injection N as <-. clear -B Hl. exfalso. cbn [nb_digits] in B.
    assert (Q : forall w, nzhead w <> D0 u). { induction w; cbn; congruence. } exact (Q _ Hl).
Qed.
Lemma to_string_length z n : (- 10 ^ Z.of_nat n < z < 10 ^ Z.of_nat n)%Z -> 0 < n -> 0 < String.length (to_string z) <= (if (z <? 0)%Z then 1 else 0) + n.
Proof.
  intros Hz Hn. assert (P : forall p, (Zpos p < 10 ^ Z.of_nat n)%Z -> nb_digits (Pos.to_uint p) <= n).
  { intros p Hp. pose proof (pos_digits p) as B. assert (H : (10 ^ (Z.of_nat (nb_digits (Pos.to_uint p)) - 1) < 10 ^ Z.of_nat n)%Z) by lia. apply Z.pow_lt_mono_r_iff in H; lia. }
  unfold to_string. destruct z as [|p|p]; cbn [Z.to_int NilZero.string_of_int].
  - cbn. lia.
  - pose proof (P p ltac:(lia)). pose proof (zuint_length (Pos.to_uint p)). cbn [Z.ltb Z.compare]. lia.
  - pose proof (P p ltac:(lia)). pose proof (zuint_length (Pos.to_uint p)). cbn [Z.ltb Z.compare String.length]. lia.
Qed.
