From Coq Require Import String Ascii.
From Verif Require Import Common ParamsModel ParamsSpec ParamsProofs.
Open Scope string_scope.
Open Scope Z_scope.

Lemma name_no_eq f : ~ has_char "="%char (member_name f).
Proof. destruct f; cbn; intros H; repeat (destruct H as [H|H]; [ discriminate H | ]); exact H. Qed.

Lemma name_len f : (2 <= String.length (member_name f))%nat.
Proof. destruct f; cbn; lia. Qed.

Lemma getlines_acc_line l cur rest :
  ~ has_char newline l ->
  getlines_acc (l ++ String newline rest) cur = (cur ++ l) :: getlines_acc rest "".
Proof.
  revert cur; induction l as [|c l IH]; intros cur H.
  - cbn. rewrite app_nil_s. reflexivity.
  - change ((String c l ++ String newline rest)) with (String c (l ++ String newline rest)).
    cbn [getlines_acc]. destruct (Ascii.eqb_spec c (ascii_of_nat 10)) as [->|Hc].
    + exfalso. apply H. left. reflexivity.
    + rewrite IH by (intros Hin; apply H; right; exact Hin). rewrite app_assoc_s. reflexivity.
Qed.

Lemma getlines_unlines ls : (forall l, In l ls -> ~ has_char newline l) -> getlines (unlines ls) = ls.
Proof.
  unfold getlines. induction ls as [|l ls IH]; intros H; [ reflexivity | ].
  cbn [unlines fold_right]. rewrite getlines_acc_line by (apply H; left; reflexivity).
  cbn [append]. f_equal. apply IH. intros l' Hl'. apply H. right; exact Hl'.
Qed.

Section WithDbl.
Variable dbl : Type.
Variable stod : string -> option dbl.
Notation config := (config dbl).
Notation do_arg := (do_arg dbl stod).
Notation do_args := (do_args dbl stod).
Notation convert := (convert dbl stod).
Notation rasp := (read_and_set_parameter dbl stod).
Notation use_input_list := (use_input_list dbl stod).
Notation do_line := (do_line dbl stod).
Notation assign1 := (assign1 dbl stod).

Lemma fail_fold {A} (f : outcome config -> A -> outcome config) l r :
  (forall x, f r x = r) -> fold_left f l r = r.
Proof. intros H. induction l as [|a l IH]; [ reflexivity | cbn; rewrite H; exact IH ]. Qed.

Lemma lines_assign ls r :
  (forall k v, In (k, v) (assignments ls) -> v <> "") ->
  fold_left do_line ls r = fold_left assign1 (assignments ls) r.
Proof.
  revert r; induction ls as [|l ls IH]; intros r H; [ reflexivity | ].
  cbn [fold_left assignments] in *.
  destruct (split_eq l) as [[k v]|] eqn:E.
  - destruct (all_blank v) eqn:Eb.
    + rewrite IH by exact H. f_equal. unfold ParamsModel.do_line. destruct r; cbn [obind]; rewrite ?E, ?Eb; reflexivity.
    + cbn [fold_left]. rewrite IH by (intros k' v' Hin; apply (H k' v'); right; exact Hin).
      f_equal. unfold ParamsModel.do_line, ParamsProofs.assign1. destruct r; cbn [obind fst snd]; rewrite ?E, ?Eb; [ | reflexivity.. ].
      destruct (string_dec (remove_ws v) "") as [Ev|_]; [ | reflexivity ].
      exfalso. apply (H k (remove_ws v)); [ left; reflexivity | exact Ev ].
  - rewrite IH by exact H. f_equal. unfold ParamsModel.do_line. destruct r; cbn [obind]; rewrite ?E; reflexivity.
Qed.

Lemma assignments_no_eq ls k v : In (k, v) (assignments ls) -> ~ has_char "="%char k.
Proof.
  induction ls as [|l ls IH]; [ intros [] | ]. cbn [assignments].
  destruct (split_eq l) as [[k' v']|] eqn:E; [ | exact IH ].
  destruct (all_blank v'); [ exact IH | ]. intros [H|H]; [ | apply IH, H ].
  injection H as -> _. apply split_eq_inv in E. tauto.
Qed.

Lemma file_as_args fs argc ls c :
  (forall k v, In (k, v) (assignments ls) ->
     v <> "" /\ ~ ends_in_txt (arg_of (k, v)) /\ (documented k \/ (4 <= String.length (arg_of (k, v)))%nat)) ->
  fold_left do_line ls (Ok c) = do_args fs argc (map arg_of (assignments ls)) c.
Proof.
  intros H. rewrite lines_assign by (intros k v Hin; apply (H k v Hin)).
  unfold ParamsModel.do_args.
  assert (Hn : forall k v, In (k, v) (assignments ls) -> ~ has_char "="%char k) by apply assignments_no_eq.
  revert c H Hn. generalize (assignments ls) as kvs. induction kvs as [|[k v] kvs IH]; intros c H Hn; [ reflexivity | ].
  cbn [fold_left map].
  destruct (H k v (or_introl eq_refl)) as (Hv & Ht & Hl).
  assert (Hl4 : (4 <= String.length (arg_of (k, v)))%nat).
  { destruct Hl as [[f <-]|Hl]; [ | exact Hl ]. unfold arg_of; cbn [fst snd]. rewrite length_app_s. cbn [append String.length].
    pose proof (name_len f). destruct v; [ congruence | ]. cbn [String.length]. lia. }
  rewrite (do_arg_assign dbl stod fs argc) by (try assumption; apply (Hn k v); left; reflexivity).
  destruct (assign1 (Ok c) (k, v)) as [c1 | | |].
  - apply IH; intros; [ apply H; right; assumption | apply (Hn k0 v0); right; assumption ].
  - rewrite !fail_fold by reflexivity. reflexivity.
  - rewrite !fail_fold by reflexivity. reflexivity.
  - rewrite !fail_fold by reflexivity. reflexivity.
Qed.

Lemma unknown_rasp c k v : ~ documented k -> rasp c k v = Ok (c, false).
Proof. intros Hd. unfold read_and_set_parameter. apply chain_none in Hd. rewrite Hd. reflexivity. Qed.

Lemma unknown_line c l k v : split_eq l = Some (k, v) -> ~ documented k -> do_line (Ok c) l = Ok c.
Proof.
  intros E Hd. unfold ParamsModel.do_line; cbn [obind]. rewrite E. destruct (all_blank v); [ reflexivity | ].
  unfold read_and_set_parameter. apply chain_none in Hd. rewrite Hd. reflexivity.
Qed.

Lemma blank_line c l k v : split_eq l = Some (k, v) -> all_blank v = true -> do_line (Ok c) l = Ok c.
Proof. intros E Hb. unfold ParamsModel.do_line; cbn [obind]. rewrite E, Hb. reflexivity. Qed.

Lemma no_eq_line c l : split_eq l = None -> do_line (Ok c) l = Ok c.
Proof. intros E. unfold ParamsModel.do_line; cbn [obind]. rewrite E. reflexivity. Qed.

Lemma unknown_arg fs argc c k v :
  ~ has_char "="%char k -> ~ documented k ->
  ~ ends_in_txt (arg_of (k, v)) -> (4 <= String.length (arg_of (k, v)))%nat ->
  do_arg fs argc (Ok c) (arg_of (k, v)) = Ok c.
Proof.
  intros Hk Hd Ht Hl. rewrite do_arg_assign by assumption. unfold ParamsProofs.assign1; cbn [obind fst snd].
  destruct (string_dec v ""); [ reflexivity | ].
  unfold read_and_set_parameter. apply chain_none in Hd. rewrite Hd. reflexivity.
Qed.

Lemma blank_arg fs argc c k :
  ~ has_char "="%char k -> (4 <= String.length (arg_of (k, "")))%nat ->
  do_arg fs argc (Ok c) (arg_of (k, "")) = Ok c.
Proof.
  intros Hk Hl. rewrite do_arg_assign; try assumption; [ reflexivity | ].
  unfold arg_of; cbn [fst snd]. intros [p Hp].
  assert (Hlast : forall a b x y, a ++ String x "" = b ++ String y "" -> x = y).
  { induction a as [|c0 a IH]; intros b x y E; destruct b as [|c1 b]; cbn in E.
    - congruence.
    - injection E as _ E. destruct b; discriminate.
    - injection E as _ E. destruct a; discriminate.
    - injection E as _ E. apply (IH b x y E). }
  change ("=" ++ "") with "=" in Hp.
  change (".txt") with (".tx" ++ "t") in Hp. rewrite <- (app_assoc_s p) in Hp.
  apply Hlast in Hp. discriminate.
Qed.

Lemma documented_arg fs argc c f v x :
  v <> "" -> ~ ends_in_txt (arg_of (member_name f, v)) -> convert (member_kind f) v = Ok x ->
  exists c', do_arg fs argc (Ok c) (arg_of (member_name f, v)) = Ok c' /\ c' f = x /\
             forall g, g <> f -> c' g = c g.
Proof.
  intros Hv Ht Hc.
  assert (Hl4 : (4 <= String.length (arg_of (member_name f, v)))%nat).
  { unfold arg_of; cbn [fst snd]. rewrite length_app_s. cbn [append String.length].
    pose proof (name_len f). destruct v; [ congruence | ]. cbn [String.length]. lia. }
  rewrite do_arg_assign by (try assumption; apply name_no_eq).
  unfold ParamsProofs.assign1; cbn [obind fst snd]. destruct (string_dec v ""); [ congruence | ].
  unfold read_and_set_parameter.
  assert (E : find_chain chain (member_name f) = Some (member_kind f, f)) by (apply chain_spec; auto).
  rewrite E, Hc. cbn [obind fst]. eexists; split; [ reflexivity | ]. unfold upd. rewrite field_beq_refl.
  split; [ reflexivity | ]. intros g Hg. destruct (field_beq f g) eqn:Eb; [ | reflexivity ].
  apply field_beq_spec in Eb. congruence.
Qed.

Lemma noneq_arg fs argc c a :
  split_eq a = None -> ~ ends_in_txt a -> (4 <= String.length a)%nat -> a <> "--help" ->
  do_arg fs argc (Ok c) a = Ok c.
Proof.
  intros E Ht Hl Hh. unfold ParamsModel.do_arg; cbn [obind].
  assert (a <> "-h") by (intros ->; cbn in Hl; lia).
  apply String.eqb_neq in Hh, H. rewrite Hh, H. cbn [orb].
  destruct (last4_ok _ Hl) as [e He]. rewrite He. cbn [obind].
  destruct (String.eqb_spec e ".txt") as [->|_]; [ exfalso; apply Ht, last4_txt, He | ].
  rewrite E. reflexivity.
Qed.

Lemma short_arg_crash fs argc c a :
  (String.length a < 4)%nat -> a <> "-h" -> do_arg fs argc (Ok c) a = Exc.
Proof.
  intros Hl Hh. unfold ParamsModel.do_arg; cbn [obind].
  assert (a <> "--help") by (intros ->; cbn in Hl; lia).
  apply String.eqb_neq in Hh, H. rewrite Hh, H. cbn [orb].
  unfold last4. destruct (Nat.ltb_spec (String.length a) 4); [ reflexivity | lia ].
Qed.

(* an option=value argument whose value ends in .txt is taken for an input file *)
Lemma txt_arg_swallowed fs argc c f v :
  ends_in_txt (arg_of (member_name f, v)) -> fs (arg_of (member_name f, v)) = None ->
  do_arg fs argc (Ok c) (arg_of (member_name f, v)) = Ok c.
Proof.
  intros Ht Hf. unfold ParamsModel.do_arg; cbn [obind].
  destruct (arg_not_help (member_name f) v) as [H1 H2]. apply String.eqb_neq in H1, H2. rewrite H1, H2. cbn [orb].
  apply last4_txt in Ht. rewrite Ht. cbn [obind]. unfold ParamsModel.use_input_list. rewrite Hf. reflexivity.
Qed.

End WithDbl.

(* ---------- stoi ---------- *)
Lemma isdigit_not_space c : isdigit c = true -> isspace c = false.
Proof.
  unfold isdigit, isspace. intros H. apply andb_prop in H. destruct H as [H1 H2].
  apply Nat.leb_le in H1, H2. destruct (Nat.leb_spec 9 (nat_of_ascii c)); destruct (Nat.leb_spec (nat_of_ascii c) 13);
  destruct (Nat.eqb_spec (nat_of_ascii c) 32); cbn; try reflexivity; lia.
Qed.
Lemma isdigit_not_sign c : isdigit c = true -> c <> "-"%char /\ c <> "+"%char.
Proof. intros H. split; intros ->; discriminate. Qed.

Lemma skip_ws_app w r : all_space w -> skip_ws (w ++ r) = skip_ws r.
Proof. induction w as [|c w IH]; cbn; [ reflexivity | ]. intros [H1 H2]. rewrite H1. auto. Qed.

Lemma skip_ws_digit s : starts_with_digit s -> skip_ws s = s.
Proof. destruct s; cbn; [ reflexivity | ]. intros H. rewrite isdigit_not_space by exact H. reflexivity. Qed.

Lemma skip_ws_split s : exists w, all_space w /\ s = w ++ skip_ws s /\
   match skip_ws s with EmptyString => True | String c _ => isspace c = false end.
Proof.
  induction s as [|c s (w & Hw & Hs & Hn)]; cbn.
  - exists ""; cbn; auto.
  - destruct (isspace c) eqn:E.
    + exists (String c w). cbn. repeat split; auto. rewrite Hs at 1. reflexivity.
    + exists "". cbn. auto.
Qed.

Lemma read_digits_app d t acc n : all_digits d -> ~ starts_with_digit t ->
  read_digits (d ++ t) acc n = ((n + String.length d)%nat, digits_value d acc).
Proof.
  revert acc n; induction d as [|c d IH]; intros acc n Hd Ht.
  - cbn [append String.length digits_value]. rewrite Nat.add_0_r.
    destruct t as [|c t]; [ reflexivity | ]. cbn in *. destruct (isdigit c); [ exfalso; apply Ht; reflexivity | reflexivity ].
  - destruct Hd as [H1 H2]. cbn [append read_digits String.length digits_value]. rewrite H1, IH by assumption.
    f_equal. lia.
Qed.

Lemma digits_split s : exists d t, s = d ++ t /\ all_digits d /\ ~ starts_with_digit t.
Proof.
  induction s as [|c s (d & t & Hs & Hd & Ht)].
  - exists "", "". cbn. auto.
  - destruct (isdigit c) eqn:E.
    + exists (String c d), t. cbn. rewrite Hs. auto.
    + exists "", (String c s). cbn. rewrite E. auto.
Qed.

Definition in_int (z : Z) := INT_MIN <= z <= INT_MAX.
Definition stoi_body (neg : bool) (s2 : string) : outcome Z :=
  let '(n, v) := read_digits s2 0 0 in
  if (n =? 0)%nat then Exc else
  let v := if neg then - v else v in
  if (v <? INT_MIN) || (INT_MAX <? v) then Exc else Ok v.

Lemma stoi_unfold s : stoi s =
  match skip_ws s with
  | String "-"%char r => stoi_body true r
  | String "+"%char r => stoi_body false r
  | s1 => stoi_body false s1
  end.
Proof.
  unfold stoi, stoi_body. destruct (skip_ws s) as [|[b1 b2 b3 b4 b5 b6 b7 b8] r]; [ reflexivity | ].
  destruct b1, b2, b3, b4, b5, b6, b7, b8; reflexivity.
Qed.

Lemma stoi_body_app neg d t : all_digits d -> d <> "" -> ~ starts_with_digit t ->
  stoi_body neg (d ++ t) =
  (let v := if neg then - digits_value d 0 else digits_value d 0 in
   if (v <? INT_MIN) || (INT_MAX <? v) then Exc else Ok v).
Proof.
  intros Hd Hne Ht. unfold stoi_body. rewrite read_digits_app by assumption. cbn [plus].
  destruct d; [ congruence | ]. reflexivity.
Qed.

Lemma stoi_body_inv neg s z : stoi_body neg s = Ok z ->
  exists d t, s = d ++ t /\ all_digits d /\ d <> "" /\ ~ starts_with_digit t /\
    z = (if neg then - digits_value d 0 else digits_value d 0) /\ in_int z.
Proof.
  destruct (digits_split s) as (d & t & Hs & Hd & Ht). intros H.
  assert (Hne : d <> "").
  { intros ->. cbn in Hs. subst s. unfold stoi_body in H.
    change t with ("" ++ t) in H. rewrite read_digits_app in H by assumption. discriminate. }
  exists d, t. repeat (split; [ assumption | ]).
  subst s. rewrite stoi_body_app in H by assumption. cbv zeta in H.
  destruct ((_ <? INT_MIN) || _) eqn:E; [ discriminate | ]. injection H as <-.
  split; [ reflexivity | ]. unfold in_int. apply Bool.orb_false_iff in E. destruct E as [E1 E2].
  apply Z.ltb_ge in E1, E2. split; assumption.
Qed.

Lemma digits_first s : all_digits s -> s <> "" -> starts_with_digit s.
Proof. destruct s; [ congruence | ]. cbn. tauto. Qed.

Lemma sd_app s t : starts_with_digit s -> starts_with_digit (s ++ t).
Proof. destruct s; [ intros [] | exact (fun x => x) ]. Qed.

Lemma stoi_digit_first s : starts_with_digit s -> stoi s = stoi_body false s.
Proof.
  intros H. rewrite stoi_unfold, skip_ws_digit by exact H.
  destruct s as [|[b1 b2 b3 b4 b5 b6 b7 b8] r]; [ destruct H | ].
  destruct b1, b2, b3, b4, b5, b6, b7, b8; first [ reflexivity | discriminate H ].
Qed.

Lemma stoi_accepts w s t z :
  all_space w -> integer_text s z -> ~ starts_with_digit t -> in_int z -> stoi (w ++ s ++ t) = Ok z.
Proof.
  intros Hw Hs Ht Hz.
  assert (Hskip : stoi (w ++ s ++ t) = stoi (s ++ t)).
  { rewrite (stoi_unfold (w ++ s ++ t)), (stoi_unfold (s ++ t)), skip_ws_app by exact Hw. reflexivity. }
  rewrite Hskip. unfold in_int in Hz.
  assert (Hr : forall v, INT_MIN <= v <= INT_MAX -> (v <? INT_MIN) || (INT_MAX <? v) = false).
  { intros v Hv. apply Bool.orb_false_iff. split; apply Z.ltb_ge; lia. }
  destruct Hs as [s Hd Hne | s Hd Hne | s Hd Hne].
  - rewrite stoi_digit_first by (apply sd_app, digits_first; assumption).
    rewrite stoi_body_app by assumption. cbv zeta. rewrite Hr by exact Hz. reflexivity.
  - rewrite stoi_unfold. change (stoi_body false (s ++ t) = Ok (digits_value s 0)).
    rewrite stoi_body_app by assumption. cbv zeta. rewrite Hr by exact Hz. reflexivity.
  - rewrite stoi_unfold. change (stoi_body true (s ++ t) = Ok (- digits_value s 0)).
    rewrite stoi_body_app by assumption. cbv zeta. rewrite Hr by exact Hz. reflexivity.
Qed.

Lemma stoi_inv s z : stoi s = Ok z ->
  exists w i t, s = w ++ i ++ t /\ all_space w /\ integer_text i z /\ ~ starts_with_digit t /\ in_int z.
Proof.
  rewrite stoi_unfold. destruct (skip_ws_split s) as (w & Hw & Hs & _).
  assert (Hplain : forall r, skip_ws s = r -> stoi_body false r = Ok z ->
     exists w i t, s = w ++ i ++ t /\ all_space w /\ integer_text i z /\ ~ starts_with_digit t /\ in_int z).
  { intros r Hr H. apply stoi_body_inv in H. destruct H as (d & t & -> & Hd & Hne & Ht & -> & Hz).
    exists w, d, t. rewrite Hr in Hs. repeat split; try assumption; try (apply Hz). constructor; assumption. }
  destruct (skip_ws s) as [|c r] eqn:E; [ intros H; apply (Hplain _ eq_refl H) | ].
  destruct (ascii_dec c "-"%char) as [->|Hm].
  - intros H. apply stoi_body_inv in H. destruct H as (d & t & -> & Hd & Hne & Ht & -> & Hz).
    exists w, (String "-"%char d), t. repeat split; try assumption; try (apply Hz). constructor; assumption.
  - destruct (ascii_dec c "+"%char) as [->|Hp].
    + intros H. apply stoi_body_inv in H. destruct H as (d & t & -> & Hd & Hne & Ht & -> & Hz).
      exists w, (String "+"%char d), t. repeat split; try assumption; try (apply Hz). constructor; assumption.
    + intros H. apply (Hplain (String c r) eq_refl).
      destruct c as [b1 b2 b3 b4 b5 b6 b7 b8].
      destruct b1, b2, b3, b4, b5, b6, b7, b8; first [ exact H | congruence ].
Qed.

Lemma getlines_acc_last l cur : ~ has_char newline l -> l <> "" -> getlines_acc l cur = [cur ++ l].
Proof.
  revert cur; induction l as [|c l IH]; intros cur H Hne; [ congruence | ].
  cbn [getlines_acc]. destruct (Ascii.eqb_spec c (ascii_of_nat 10)) as [->|Hc].
  { exfalso. apply H. left. reflexivity. }
  destruct l as [|c' l].
  - cbn [getlines_acc]. destruct cur; reflexivity.
  - rewrite IH; [ rewrite app_assoc_s; reflexivity | | discriminate ].
    intros Hin; apply H; right; exact Hin.
Qed.

Lemma getlines_unlines_last ls l :
  (forall x, In x ls -> ~ has_char newline x) -> ~ has_char newline l -> l <> "" ->
  getlines (unlines ls ++ l) = (ls ++ [l])%list.
Proof.
  unfold getlines. induction ls as [|x ls IH]; intros H Hl Hne.
  - cbn [unlines fold_right append app]. apply (getlines_acc_last l "" Hl Hne).
  - cbn [unlines fold_right]. rewrite app_assoc_s. cbn [append].
    rewrite getlines_acc_line by (apply H; left; reflexivity).
    cbn [append app]. f_equal. apply IH; try assumption. intros y Hy. apply H. right; exact Hy.
Qed.

Section Top.
Variable dbl : Type.
Variable stod : string -> option dbl.

Lemma run_last_wins fs omp d1 d100 args c :
  set_run_parameters dbl stod fs omp d1 d100 args = Ok c ->
  exists c0,
  (forall f, match last_value (member_name f) (flat_map (arg_assignments fs) args) with
             | Some v => convert dbl stod (member_kind f) v = Ok (c0 f)
             | None => c0 f = defaults dbl omp d1 d100 f
             end) /\
  (forall f, f <> F_P123_omp_num_threads -> c f = c0 f) /\
  (exists n q, c0 F_P123_omp_num_threads = VInt dbl n /\ c0 F_Nq_WP = VInt dbl q /\
               c F_P123_omp_num_threads = VInt dbl (Z.min n q)).
Proof.
  unfold set_run_parameters. destruct (do_args dbl stod fs _ args _) as [c0 | | |] eqn:E; cbn [obind]; try discriminate.
  intros H. exists c0. split; [ | split ].
  - apply do_args_set in E. apply (sets_last dbl stod _ _ _ E).
  - apply final_checks_spec in H; [ tauto | ].
    eapply do_args_typed; [ apply typed_defaults | exact E ].
  - apply final_checks_spec in H; [ | eapply do_args_typed; [ apply typed_defaults | exact E ] ].
    destruct H as [H1 (tJ & nt & nq & ch & nt0 & par & H2 & H3 & H4 & H5 & H6 & _)].
    exists nt0, nq. split; [ exact H2 | ]. split; [ rewrite <- H1 by discriminate; exact H6 | congruence ].
Qed.

Lemma run_legal fs omp d1 d100 args c :
  set_run_parameters dbl stod fs omp d1 d100 args = Ok c ->
  exists tJ nthr nq ch par,
    c F_two_J_3N_max = VInt dbl tJ /\ Z.Odd tJ /\ 0 < tJ /\
    c F_P123_omp_num_threads = VInt dbl nthr /\ c F_Nq_WP = VInt dbl nq /\ nthr <= nq /\
    c F_parallel_run = VBool dbl par /\ c F_channel_idx = VInt dbl ch /\ (par = true -> ch <> -1).
Proof.
  unfold set_run_parameters. destruct (do_args dbl stod fs _ args _) as [c0 | | |] eqn:E; cbn [obind]; try discriminate.
  intros H. apply final_checks_spec in H; [ | eapply do_args_typed; [ apply typed_defaults | exact E ] ].
  destruct H as [H1 (tJ & nt & nq & ch & nt0 & par & H2 & H3 & H4 & H5 & H6 & H7 & H8 & H9 & H10 & H11 & H12)].
  exists tJ, nt, nq, ch, par. tauto.
Qed.

Lemma file_missing fs c a : fs a = None -> use_input_list dbl stod fs c a = Ok c.
Proof. intros H. unfold use_input_list. rewrite H. reflexivity. Qed.

Lemma file_means_args fs argc c name content :
  fs name = Some content ->
  (forall k v, In (k, v) (assignments (getlines content)) ->
     v <> "" /\ ~ ends_in_txt (arg_of (k, v)) /\ (documented k \/ (4 <= String.length (arg_of (k, v)))%nat)) ->
  use_input_list dbl stod fs c name = do_args dbl stod fs argc (map arg_of (assignments (getlines content))) c.
Proof. intros H1 H2. unfold use_input_list. rewrite H1. apply file_as_args. exact H2. Qed.

Lemma int_option c f v :
  member_kind f = KInt ->
  (forall z, integer_text v z -> in_int z ->
     exists c', read_and_set_parameter dbl stod c (member_name f) v = Ok (c', true) /\ c' f = VInt dbl z) /\
  (forall r, read_and_set_parameter dbl stod c (member_name f) v = Ok r ->
     exists w i t z, v = w ++ i ++ t /\ all_space w /\ integer_text i z /\ ~ starts_with_digit t /\
       in_int z /\ fst r f = VInt dbl z) /\
  ((exists c', read_and_set_parameter dbl stod c (member_name f) v = Ok (c', true)) \/
   read_and_set_parameter dbl stod c (member_name f) v = Exc).
Proof.
  intros Hk. unfold read_and_set_parameter.
  assert (E : find_chain chain (member_name f) = Some (member_kind f, f)) by (apply chain_spec; auto).
  rewrite E, Hk. cbn [convert]. split; [ | split ].
  - intros z Hi Hz.
    pose proof (stoi_accepts "" v "" z I Hi (fun x => x) Hz) as Hs. rewrite app_nil_s in Hs. cbn [append] in Hs.
    rewrite Hs. cbn [obind]. eexists. split; [ reflexivity | ]. unfold upd. rewrite field_beq_refl. reflexivity.
  - intros r. destruct (stoi v) as [z | | |] eqn:Es; cbn [obind]; try discriminate. intros H; injection H as <-.
    apply stoi_inv in Es. destruct Es as (w & i & t & H1 & H2 & H3 & H4 & H5).
    exists w, i, t, z. repeat (split; [ assumption | ]). cbn [fst]. unfold upd. rewrite field_beq_refl. reflexivity.
  - destruct (stoi v) eqn:Es; cbn; [ left; eexists; reflexivity | | right; reflexivity | ].
    + exfalso. rewrite stoi_unfold in Es. unfold stoi_body in Es.
      destruct (skip_ws v) as [|[b1 b2 b3 b4 b5 b6 b7 b8] r].
      { discriminate Es. }
      repeat match type of Es with context[match ?x with _ => _ end] => destruct x end; discriminate Es.
    + exfalso. rewrite stoi_unfold in Es. unfold stoi_body in Es.
      destruct (skip_ws v) as [|[b1 b2 b3 b4 b5 b6 b7 b8] r].
      { discriminate Es. }
      repeat match type of Es with context[match ?x with _ => _ end] => destruct x end; discriminate Es.
Qed.
End Top.
