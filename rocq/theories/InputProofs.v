(* Reading decimal text. *)
From Coq Require Import String Ascii Reals Lra Sorted.
From Flocq Require Import Core.
From Verif Require Import Common ArrayLib ParamsModel ParamsSpec SwpModel GridModel GridSpec OnShellModel OnShellSpec OnShellProofs DriverModel
  TextModel TextSpec TextProofs TextLines InputModel InputSpec.
Open Scope string_scope.
Open Scope list_scope.
Open Scope Z_scope.

Lemma scan_digits_app s n v : digits_of s n v -> forall t acc c, scan_digits (s ++ t) acc c = scan_digits t (acc * 10 ^ Z.of_nat n + v) (c + n).
Proof.
  induction 1 as [|s n v c H IH Hc]; intros t acc m.
  - cbn [append]. rewrite Z.mul_1_r, Z.add_0_r, Nat.add_0_r. reflexivity.
  - rewrite sapp_assoc. rewrite IH. cbn [append scan_digits]. rewrite Hc. f_equal; [ | lia ].
    rewrite Nat2Z.inj_succ, Z.pow_succ_r by lia. ring.
Qed.
Definition no_digit (s : string) : Prop := match s with String c _ => isdigit c = false | EmptyString => True end.
Lemma scan_digits_stop s acc n : no_digit s -> scan_digits s acc n = (acc, n, s).
Proof. destruct s as [|c s]; [ reflexivity | ]. cbn [no_digit scan_digits]. intros ->. reflexivity. Qed.
Lemma digits_zero s v : digits_of s 0 v -> s = "" /\ v = 0.
Proof. inversion 1; split; reflexivity. Qed.
Lemma digits_head s n v : digits_of s (S n) v -> exists c r, s = String c r /\ isdigit c = true.
Proof.
  revert s v. induction n as [|n IH]; intros s v H; inversion H as [|s' n' v' c H' Hc]; subst.
  - apply digits_zero in H'. destruct H' as [-> _]. exists c, "". split; [ reflexivity | exact Hc ].
  - destruct (IH _ _ H') as (d & r & -> & Hd). exists d, (r ++ String c "")%string. split; [ reflexivity | exact Hd ].
Qed.
Lemma digits_allc s n v : digits_of s n v -> allc isdigit s = true.
Proof. induction 1 as [|s n v c H IH Hc]; [ reflexivity | ]. rewrite allc_app, IH. cbn [allc]. rewrite Hc. reflexivity. Qed.

Lemma digit_not c : isdigit c = true -> c <> "+"%char /\ c <> "-"%char /\ c <> "."%char /\ is_e c = false.
Proof.
  intros H. repeat split; try (intros ->; discriminate H). unfold is_e.
  destruct (Ascii.eqb_spec c "e") as [->|]; [ discriminate H | ]. destruct (Ascii.eqb_spec c "E") as [->|]; [ discriminate H | reflexivity ].
Qed.
Lemma scan_sign_other s : (forall r, s <> String "-" r) -> (forall r, s <> String "+" r) -> scan_sign s = (false, s).
Proof.
  intros A B. destruct s as [|c s]; [ reflexivity | ]. destruct (ascii_dec c "-") as [->|]; [ destruct (A s eq_refl) | ].
  destruct (ascii_dec c "+") as [->|]; [ destruct (B s eq_refl) | ]. destruct c as [[] [] [] [] [] [] [] []]; try reflexivity; congruence.
Qed.
(* the text after the sign starts with a digit or a point *)
Definition starts_number (s : string) : Prop := match s with String c _ => isdigit c = true \/ c = "."%char | EmptyString => False end.
Lemma scan_sign_ok sg neg s : sign_of sg neg -> starts_number s -> scan_sign (sg ++ s) = (neg, s).
Proof.
  intros [[[->| ->] ->]|[-> ->]] H; try reflexivity. cbn [append]. apply scan_sign_other; intros r ->; cbn in H; destruct H as [H|H]; discriminate H.
Qed.
Lemma point_dec c : {c = "."%char} + {c <> "."%char}. Proof. apply ascii_dec. Qed.
Lemma match_point {A} (c : ascii) (r : string) (x y : A) : c <> "."%char -> match c with "."%char => x | _ => y end = y.
Proof. intros H. destruct c as [[] [] [] [] [] [] [] []]; try reflexivity; congruence. Qed.
Lemma scan_mantissa_ok sg neg ip n a fp m b frac t : sign_of sg neg -> digits_of ip n a -> digits_of fp m b ->
  (frac = "" /\ fp = "" \/ frac = ("." ++ fp)%string) -> (0 < n + m)%nat -> no_digit t -> (forall r, t <> String "." r) ->
  scan_mantissa (sg ++ ip ++ frac ++ t) = (neg, a * 10 ^ Z.of_nat m + b, m, (n + m)%nat, t).
Proof.
  intros S I F FR N T P. unfold scan_mantissa. rewrite (scan_sign_ok sg neg).
  2: exact S.
  2: { destruct n as [|n].
       - apply digits_zero in I. destruct I as [-> ->]. destruct FR as [[-> ->]| ->]; [ | cbn; right; reflexivity ].
         inversion F as [E1 E2 E3|s' n' v' c H' Hc E1]; subst; [ lia | ]. destruct s'; discriminate.
       - destruct (digits_head _ _ _ I) as (c & r & -> & Hc). cbn. left. exact Hc. }
  rewrite (scan_digits_app ip n a I). rewrite Z.mul_0_l, Z.add_0_l, Nat.add_0_l.
  destruct FR as [[-> ->]| ->].
  - assert (m = 0%nat /\ b = 0) as [-> ->]. { inversion F as [E1 E2 E3|s' n' v' c H' Hc E1]; subst; [ split; reflexivity | destruct s'; discriminate ]. }
    change ("" ++ t)%string with t. rewrite (scan_digits_stop t a n T). replace (a * 10 ^ Z.of_nat 0 + 0) with a by (cbn; lia). rewrite Nat.add_0_r.
    destruct t as [|c t]; [ reflexivity | ]. apply (match_point c t). intros ->. exact (P t eq_refl).
  - change (("." ++ fp) ++ t)%string with (String "." (fp ++ t)). rewrite (scan_digits_stop (String "." (fp ++ t)) a n eq_refl). cbv iota beta.
    rewrite (scan_digits_app fp m b F), Nat.add_0_l. rewrite (scan_digits_stop t _ m T). reflexivity.
Qed.

(* what may follow a number *)
Definition number_end (t : string) : Prop := match t with EmptyString => True | String c _ => isdigit c = false /\ is_e c = false /\ c <> "."%char end.
Lemma blank_end t : starts_blank t -> number_end t.
Proof.
  destruct t as [|c t]; [ exact (fun _ => I) | ]. cbn [starts_blank number_end]. intros H.
  assert (isdigit c = false). { destruct (isdigit c) eqn:E; [ | reflexivity ]. apply digit_nonblank in E. unfold nonblank in E. rewrite H in E. discriminate. }
  split; [ assumption | ]. split; [ | intros ->; discriminate H ]. unfold is_e.
  destruct (Ascii.eqb_spec c "e") as [->|]; [ discriminate H | ]. destruct (Ascii.eqb_spec c "E") as [->|]; [ discriminate H | reflexivity ].
Qed.

Lemma sign_value (neg : bool) (x : Z) : IZR (if neg then - x else x) = ((if neg then -1 else 1) * IZR x)%R.
Proof. destruct neg; [ rewrite opp_IZR; ring | ring ]. Qed.
Lemma exact_value neg a m b k : 
  exact neg (a * 10 ^ Z.of_nat m + b) (k - Z.of_nat m) = ((if neg then -1 else 1) * (IZR a + IZR b * ten (- Z.of_nat m)) * ten k)%R.
Proof.
  unfold exact, F2R. cbn [Fnum Fexp]. rewrite sign_value, plus_IZR, mult_IZR. unfold ten.
  replace (IZR (10 ^ Z.of_nat m)) with (bpow (Build_radix 10 eq_refl) (Z.of_nat m)).
  2: { rewrite <- (IZR_Zpower (Build_radix 10 eq_refl)) by lia. reflexivity. }
  unfold Z.sub. rewrite bpow_plus, !bpow_opp. pose proof (bpow_gt_0 (Build_radix 10 eq_refl) (Z.of_nat m)) as G. field. lra.
Qed.

(* a decimal number in front of something that cannot continue it *)
Lemma scan_number w x t : decimal_text w x -> number_end t ->
  exists neg a k, exact neg a k = x /\ extract (w ++ t) = Some (neg, a, k, t) /\
    (skip_ws (w ++ t) = (w ++ t)%string -> strtod (w ++ t) = Some (neg, a, k, t)).
Proof.
  intros (sg & neg & ip & n & a & fp & m & b & frac & ex & k & -> & S & I & F & FR & N & EX & ->) T.
  exists neg, (a * 10 ^ Z.of_nat m + b), (k - Z.of_nat m). split; [ apply exact_value | ].
  rewrite !sapp_assoc.
  assert (M : scan_mantissa (sg ++ ip ++ frac ++ ex ++ t) = (neg, a * 10 ^ Z.of_nat m + b, m, (n + m)%nat, (ex ++ t)%string)).
  { apply (scan_mantissa_ok sg neg ip n a fp m b frac (ex ++ t) S I F FR N).
    - destruct EX as [[-> ->]|(c & sg' & neg' & ds & n' & v' & -> & [-> | ->] & _)]; [ | reflexivity | reflexivity ].
      cbn [append]. destruct t as [|c t]; [ exact Logic.I | ]. apply T.
    - destruct EX as [[-> ->]|(c & sg' & neg' & ds & n' & v' & -> & [-> | ->] & _)]; [ | discriminate | discriminate ].
      cbn [append]. intros r ->. apply (proj2 (proj2 T)). reflexivity. }
  assert (Nz : (n + m =? 0)%nat = false) by (apply Nat.eqb_neq; lia).
  assert (Q : exists r : option (bool * Z * Z * string), r = Some (neg, a * 10 ^ Z.of_nat m + b, k - Z.of_nat m, t) /\
     extract (sg ++ ip ++ frac ++ ex ++ t) = r /\ (skip_ws (sg ++ ip ++ frac ++ ex ++ t) = (sg ++ ip ++ frac ++ ex ++ t)%string -> strtod (sg ++ ip ++ frac ++ ex ++ t) = r)).
  { eexists. split; [ reflexivity | ]. unfold extract, strtod. split; [ | intros E; rewrite E ]; rewrite M, Nz; clear -EX T.
    all: destruct EX as [[-> ->]|(c & sg' & neg' & ds & n' & v' & -> & Hc & S & D & N & ->)].
    all: try (cbn [append]; destruct t as [|c t]; [ reflexivity | ]; destruct T as (_ & -> & _); reflexivity).
    all: assert (is_e c = true) as Ec by (destruct Hc as [-> | ->]; reflexivity).
    all: change ((String c sg' ++ ds) ++ t)%string with (String c ((sg' ++ ds) ++ t)); cbv iota; rewrite Ec, sapp_assoc.
    all: rewrite (scan_sign_ok sg' neg' (ds ++ t) S) by (destruct n' as [|n']; [ lia | ]; destruct (digits_head _ _ _ D) as (d & r & -> & Hd); cbn; left; exact Hd).
    all: rewrite (scan_digits_app ds n' v' D), (scan_digits_stop t) by (destruct t; [ exact Logic.I | apply T ]).
    all: cbn [Nat.add]; replace (n' =? 0)%nat with false by (symmetry; apply Nat.eqb_neq; lia); replace (0 * 10 ^ Z.of_nat n' + v') with v' by lia; reflexivity. }
  destruct Q as (r & -> & Q1 & Q2). split; assumption.
Qed.

(* ---------- words ---------- *)
Lemma word_split s : skip_ws s = "" /\ fields s = [] \/
  exists w t, skip_ws s = (w ++ t)%string /\ clean w /\ w <> "" /\ starts_blank t /\ fields s = w :: fields t /\
    (String.length t < String.length s)%nat.
Proof.
  induction s as [|c s IH]; [ left; split; reflexivity | ]. cbn [skip_ws fields]. destruct (isspace c) eqn:Ec.
  - destruct IH as [IH|(w & t & E1 & E2 & E3 & E4 & E5 & E6)]; [ left; exact IH | right ]. exists w, t. cbn [String.length]. repeat split; try assumption. lia.
  - right. clear IH. assert (G : forall s, exists w t, s = (w ++ t)%string /\ clean w /\ starts_blank t).
    { clear. induction s as [|c s (w & t & -> & C & B)]; [ exists "", ""; repeat split | ].
      destruct (isspace c) eqn:Ec; [ exists "", (String c (w ++ t)); repeat split; exact Ec | ].
      exists (String c w), t. repeat split; [ | exact B ]. unfold clean in *. cbn [allc]. rewrite C. unfold nonblank. rewrite Ec. reflexivity. }
    destruct (G s) as (w & t & -> & C & B). exists (String c w), t.
    assert (C' : clean (String c w)) by (unfold clean in *; cbn [allc]; rewrite C; unfold nonblank; rewrite Ec; reflexivity).
    split; [ reflexivity | ]. split; [ exact C' | ]. split; [ discriminate | ]. split; [ exact B | ]. split.
    + etransitivity; [ | exact (fields_word (String c w) t C' ltac:(discriminate) B) ]. cbn [append fields]. rewrite Ec. reflexivity.
    + cbn [String.length]. rewrite slength_app. lia.
Qed.

Lemma nearest_range x y : nearest x y -> overflows x = false /\ to_double x = y.
Proof. intros [-> H]. unfold overflows. split; [ | reflexivity ]. apply Rleb_false. exact H. Qed.

(* a word whose first character cannot start a number: extraction fails *)
Lemma extract_bad c r : not_numeric c -> extract (String c r) = None.
Proof.
  intros (A & B & C & D). unfold extract, scan_mantissa. rewrite scan_sign_other by congruence. cbn [scan_digits]. rewrite A.
  cbv zeta. rewrite (match_point c r) by exact D. reflexivity.
Qed.
Lemma extract_empty : extract "" = None. Proof. reflexivity. Qed.

Definition number_word (w : string) (y : R) : Prop := exists x, decimal_text w x /\ nearest x y.
Lemma extract_all_ok fuel : forall s ws ys rest, fields s = ws ++ rest -> (String.length s < fuel)%nat -> Forall2 number_word ws ys ->
  match rest with [] => True | w :: _ => exists c r, w = String c r /\ not_numeric c end ->
  extract_all fuel s = ys.
Proof.
  induction fuel as [|fuel IH]; intros s ws ys rest E L F B; [ lia | ]. cbn [extract_all].
  destruct (word_split s) as [[E1 E2]|(w & t & E1 & C & N & T & E2 & Lt)].
  - rewrite E2 in E. destruct ws; [ | discriminate ]. inversion F; subst. rewrite E1. reflexivity.
  - rewrite E1. rewrite E2 in E. destruct ws as [|w' ws].
    + inversion F; subst. cbn [app] in E. subst rest. destruct B as (c & r & -> & Hc). cbn [append]. rewrite (extract_bad c _ Hc). reflexivity.
    + cbn [app] in E. assert (w' = w /\ fields t = ws ++ rest) as [-> E'] by (split; congruence). inversion F as [|w0 y ws0 ys' Hy F' ]; subst.
      destruct Hy as (x & Hd & Hn). destruct (nearest_range x y Hn) as [Ho Hy].
      destruct (scan_number w x t Hd (blank_end t T)) as (neg & a & k & Hx & Ex & _). rewrite Ex, Hx, Ho, Hy. f_equal.
      apply (IH t ws ys' rest E'); [ lia | exact F' | exact B ].
Qed.

(* ---------- the energies file ---------- *)
Lemma substring_app a b : substring (String.length a) (String.length b) (a ++ b) = b.
Proof. induction a as [|c a IH]; [ cbn [append String.length]; induction b as [|d b IHb]; [ reflexivity | cbn; rewrite IHb; reflexivity ] | exact IH ]. Qed.
Lemma substring_tail n : forall s, (n <= String.length s)%nat -> exists a, s = (a ++ substring n (String.length s - n) s)%string /\ String.length a = n.
Proof.
  induction n as [|n IH]; intros s H.
  - exists "". rewrite Nat.sub_0_r. split; [ | reflexivity ]. cbn [append]. clear. induction s as [|c s IH]; [ reflexivity | cbn; rewrite <- IH; reflexivity ].
  - destruct s as [|c s]; [ cbn in H; lia | ]. cbn [String.length] in *. destruct (IH s) as (a & E & L); [ lia | ].
    exists (String c a). cbn [append substring Nat.sub String.length]. rewrite <- E, L. split; reflexivity.
Qed.
Lemma suffix_ok path : ends_in path ".txt" <-> (4 <= String.length path)%nat /\ substring (String.length path - 4) 4 path = ".txt".
Proof.
  split.
  - intros (a & ->). rewrite slength_app. change (String.length ".txt") with 4%nat. split; [ lia | ].
    replace (String.length a + 4 - 4)%nat with (String.length a) by lia. exact (substring_app a ".txt").
  - intros [H1 H2]. destruct (substring_tail (String.length path - 4) path) as (a & E & _); [ lia | ].
    replace (String.length path - (String.length path - 4))%nat with 4%nat in E by lia. rewrite H2 in E. exists a. exact E.
Qed.
Lemma read_energies_eq fs path : 
  (ends_in path ".txt" -> forall s, fs path = Some s -> read_input_energies fs path = Ok (extract_all (S (String.length s)) s)) /\
  (ends_in path ".txt" -> fs path = None -> read_input_energies fs path = Err) /\
  (~ ends_in path ".txt" -> (4 <= String.length path)%nat -> read_input_energies fs path = Err) /\
  ((String.length path < 4)%nat -> read_input_energies fs path = Exc).
Proof.
  unfold read_input_energies. destruct (String.length path <? 4)%nat eqn:E.
  - apply Nat.ltb_lt in E. split; [ | split; [ | split ] ].
    + intros H. apply suffix_ok in H. lia.
    + intros H. apply suffix_ok in H. lia.
    + intros _ H. lia.
    + reflexivity.
  - apply Nat.ltb_ge in E. split; [ | split; [ | split ] ].
    + intros H s Hs. apply suffix_ok in H. destruct H as [_ ->]. cbn [String.eqb negb]. rewrite Hs. reflexivity.
    + intros H Hs. apply suffix_ok in H. destruct H as [_ ->]. cbn [String.eqb negb]. rewrite Hs. reflexivity.
    + intros H _. destruct (String.eqb_spec (substring (String.length path - 4) 4 path) ".txt") as [H2|H2]; [ | reflexivity ].
      destruct H. apply suffix_ok. split; assumption.
    + lia.
Qed.
Lemma energies_prefix fs path content ws ys rest : ends_in path ".txt" -> fs path = Some content -> fields content = ws ++ rest ->
  Forall2 number_word ws ys -> match rest with [] => True | w :: _ => exists c r, w = String c r /\ not_numeric c end ->
  read_input_energies fs path = Ok ys.
Proof.
  intros P C E F B. rewrite (proj1 (read_energies_eq fs path) P content C). f_equal. apply (extract_all_ok _ content ws ys rest E); [ lia | exact F | exact B ].
Qed.

(* bins: only the set of energies matters *)
Lemma existsb_same {A} (f : A -> bool) l l' : (forall x, In x l <-> In x l') -> existsb f l = existsb f l'.
Proof.
  intros H. apply eq_true_iff_eq. rewrite !existsb_exists. split; intros (x & I & E); exists x; split; try assumption; apply H; assumption.
Qed.
Lemma selected_same Nq q Eb l l' : (forall x, In x l <-> In x l') -> selected Nq q Eb l = selected Nq q Eb l'.
Proof.
  intros H. unfold selected. apply filter_ext. intros i. unfold bin_marked.
  assert (P : forall j, pair_marked q Eb l j = pair_marked q Eb l' j) by (intros j; apply existsb_same, H).
  induction (seq 0 (Nq - 1)) as [|j r IH]; [ reflexivity | ]. cbn [existsb]. rewrite P, IH. reflexivity.
Qed.
Lemma elastic_same Nq q Eb l l' : (1 <= Nq)%nat -> length q = (Nq + 1)%nat -> (- (Mn + Mp) < Eb)%R -> (forall x, In x l <-> In x l') ->
  elastic_bins Nq q Eb l = elastic_bins Nq q Eb l'.
Proof.
  intros HN Lq HE H. rewrite (elastic_ok Nq q Eb l Lq HN HE), (elastic_ok Nq q Eb l' Lq HN HE), (selected_same Nq q Eb l l' H). reflexivity.
Qed.
