From Coq Require Import String Ascii.
From Verif Require Import Common ParamsModel ParamsSpec.
Open Scope string_scope.
Open Scope Z_scope.

Lemma field_beq_spec a b : field_beq a b = true <-> a = b.
Proof.
  split; [ apply internal_field_dec_bl | intros ->; apply internal_field_dec_lb; reflexivity ].
Qed.

Lemma field_beq_refl f : field_beq f f = true.
Proof. apply field_beq_spec; reflexivity. Qed.

Lemma chain_spec o k f : find_chain chain o = Some (k, f) <-> (member_name f = o /\ member_kind f = k).
Proof.
  split.
  - unfold chain. cbn [find_chain].
    repeat match goal with |- context[String.eqb o ?n] =>
      destruct (String.eqb_spec o n);
      [ subst o; intros H; injection H; intros; subst k f; split; reflexivity | ] end.
    discriminate.
  - intros [<- <-]. destruct f; reflexivity.
Qed.

Lemma chain_none o : find_chain chain o = None <-> ~ documented o.
Proof.
  split.
  - intros H [f Hf]. assert (E : find_chain chain o = Some (member_kind f, f)) by (apply chain_spec; auto).
    congruence.
  - intros H. destruct (find_chain chain o) as [[k f]|] eqn:E; [ | reflexivity ].
    apply chain_spec in E. exfalso. apply H. exists f. tauto.
Qed.

Lemma member_name_inj f g : member_name f = member_name g -> f = g.
Proof.
  intros H. assert (E : find_chain chain (member_name f) = Some (member_kind f, f)) by (apply chain_spec; auto).
  assert (E' : find_chain chain (member_name f) = Some (member_kind g, g)) by (apply chain_spec; auto).
  congruence.
Qed.

(* ---------- strings ---------- *)
Lemma app_assoc_s (a b c : string) : (a ++ b) ++ c = a ++ (b ++ c).
Proof. induction a as [|x a IH]; cbn; [ reflexivity | rewrite IH; reflexivity ]. Qed.

Lemma length_app_s (a b : string) : String.length (a ++ b) = (String.length a + String.length b)%nat.
Proof. induction a as [|x a IH]; cbn; [ reflexivity | rewrite IH; reflexivity ]. Qed.

Lemma app_nil_s (a : string) : a ++ "" = a.
Proof. induction a as [|x a IH]; cbn; [ reflexivity | rewrite IH; reflexivity ]. Qed.

Lemma substring_all (s : string) : substring 0 (String.length s) s = s.
Proof. induction s as [|c s IH]; cbn; [ reflexivity | rewrite IH; reflexivity ]. Qed.

Lemma substring_app_r (a b : string) n : substring (String.length a) n (a ++ b) = substring 0 n b.
Proof. induction a as [|x a IH]; [ reflexivity | cbn; exact IH ]. Qed.

Lemma string_split_len (s : string) n : (n <= String.length s)%nat ->
  exists p q, s = p ++ q /\ String.length p = n.
Proof.
  revert s; induction n as [|n IH]; intros s H; [ exists "", s; auto | ].
  destruct s as [|c s]; cbn in H; [ lia | ].
  destruct (IH s ltac:(lia)) as (p & q & -> & Hp). exists (String c p), q. cbn. rewrite Hp. auto.
Qed.

Lemma last4_txt s : last4 s = Ok ".txt" <-> ends_in_txt s.
Proof.
  unfold last4. split.
  - destruct (Nat.ltb_spec (String.length s) 4) as [H|H]; [ discriminate | ].
    intros E. injection E as E.
    destruct (string_split_len s (String.length s - 4) ltac:(lia)) as (p & q & Hs & Hp).
    exists p. subst s. rewrite length_app_s in *.
    rewrite <- Hp, substring_app_r in E.
    assert (Hq : String.length q = 4%nat) by lia. rewrite <- Hq, substring_all in E. congruence.
  - intros [p ->]. rewrite length_app_s. cbn [String.length].
    destruct (Nat.ltb_spec (String.length p + 4) 4) as [H|H]; [ lia | ].
    replace (String.length p + 4 - 4)%nat with (String.length p) by lia.
    rewrite substring_app_r. reflexivity.
Qed.

Lemma last4_ok s : (4 <= String.length s)%nat -> exists e, last4 s = Ok e.
Proof.
  intros H. unfold last4. destruct (Nat.ltb_spec (String.length s) 4); [ lia | ]. eexists; reflexivity.
Qed.

Lemma split_eq_app k v : ~ has_char "="%char k -> split_eq (k ++ "=" ++ v) = Some (k, v).
Proof.
  induction k as [|c k IH]; cbn; intros H; [ reflexivity | ].
  destruct (Ascii.eqb_spec c "="%char); [ exfalso; auto | ]. cbn in IH. rewrite IH by auto. reflexivity.
Qed.

Lemma split_eq_inv s k v : split_eq s = Some (k, v) -> s = k ++ "=" ++ v /\ ~ has_char "="%char k.
Proof.
  revert k; induction s as [|c s IH]; intros k; cbn; [ discriminate | ].
  destruct (Ascii.eqb_spec c "="%char) as [->|Hc].
  - intros H; injection H; intros; subst. split; [ reflexivity | intros [] ].
  - destruct (split_eq s) as [[a b]|] eqn:E; [ | discriminate ].
    intros H; injection H; intros; subst. destruct (IH a eq_refl) as [H1 H2]. split.
    + cbn. rewrite H1. reflexivity.
    + cbn. intros [?|?]; auto.
Qed.

Lemma arg_not_help k v : arg_of (k, v) <> "-h" /\ arg_of (k, v) <> "--help".
Proof.
  unfold arg_of; cbn [fst snd].
  assert (H : forall s, split_eq s = None -> k ++ "=" ++ v <> s).
  { intros s Hs E. subst s. clear -Hs. induction k as [|c k IH]; cbn in Hs; [ discriminate | ].
    destruct (Ascii.eqb c "="%char); [ discriminate | ]. cbn in IH.
    destruct (split_eq (k ++ String "="%char v)) as [[? ?]|]; [ discriminate | auto ]. }
  split; apply H; reflexivity.
Qed.

Section WithDbl.
Variable dbl : Type.
Variable stod : string -> option dbl.
Notation config := (config dbl).
Notation pval := (pval dbl).
Notation do_arg := (do_arg dbl stod).
Notation do_args := (do_args dbl stod).
Notation convert := (convert dbl stod).
Notation rasp := (read_and_set_parameter dbl stod).
Notation use_input_list := (use_input_list dbl stod).

(* effect of one assignment *)
Definition assign1 (r : outcome config) (kv : string * string) : outcome config :=
  do c <- r; if string_dec (snd kv) "" then Ok c else do p <- rasp c (fst kv) (snd kv); Ok (fst p).

Lemma do_arg_assign fs argc c k v :
  ~ has_char "="%char k -> ~ ends_in_txt (arg_of (k, v)) -> (4 <= String.length (arg_of (k, v)))%nat ->
  do_arg fs argc (Ok c) (arg_of (k, v)) = assign1 (Ok c) (k, v).
Proof.
  intros Hk Ht H4. unfold ParamsModel.do_arg, assign1. cbn [obind].
  destruct (arg_not_help k v) as [H1 H2].
  apply String.eqb_neq in H1, H2. rewrite H1, H2. cbn [orb].
  destruct (last4_ok _ H4) as [e He]. rewrite He. cbn [obind].
  destruct (String.eqb_spec e ".txt") as [->|_]; [ exfalso; apply Ht, last4_txt, He | ].
  unfold arg_of; cbn [fst snd]. rewrite split_eq_app by exact Hk.
  destruct (string_dec v "") as [E|E]; [ rewrite E; reflexivity | ].
  apply String.eqb_neq in E. rewrite E. reflexivity.
Qed.

Lemma do_arg_assign_ok fs argc c c' k v :
  ~ has_char "="%char k -> ~ ends_in_txt (arg_of (k, v)) ->
  do_arg fs argc (Ok c) (arg_of (k, v)) = Ok c' -> assign1 (Ok c) (k, v) = Ok c'.
Proof.
  intros Hk Ht H.
  destruct (Nat.ltb_spec (String.length (arg_of (k, v))) 4) as [Hl|Hl].
  - exfalso. revert H. unfold ParamsModel.do_arg. cbn [obind].
    destruct (arg_not_help k v) as [H1 H2]. apply String.eqb_neq in H1, H2. rewrite H1, H2. cbn [orb].
    unfold last4. destruct (Nat.ltb_spec (String.length (arg_of (k, v))) 4); [ | lia ]. cbn. discriminate.
  - rewrite <- (do_arg_assign fs argc) by assumption. exact H.
Qed.

Lemma do_args_fail fs argc args (r : outcome config) :
  (forall c, r <> Ok c) -> fold_left (do_arg fs argc) args r = r.
Proof.
  revert r; induction args as [|a args IH]; intros r Hr; [ reflexivity | ]. cbn [fold_left].
  assert (E : do_arg fs argc r a = r) by (destruct r as [c | | |]; [ destruct (Hr c eq_refl) | | | ]; reflexivity).
  rewrite E. apply IH. exact Hr.
Qed.

Lemma do_args_cons fs argc a args c c' :
  fold_left (do_arg fs argc) (a :: args) (Ok c) = Ok c' ->
  exists c1, do_arg fs argc (Ok c) a = Ok c1 /\ fold_left (do_arg fs argc) args (Ok c1) = Ok c'.
Proof.
  cbn [fold_left]. destruct (do_arg fs argc (Ok c) a) as [c1 | | |] eqn:E; intros H.
  - exists c1; auto.
  - rewrite do_args_fail in H by discriminate. discriminate.
  - rewrite do_args_fail in H by discriminate. discriminate.
  - rewrite do_args_fail in H by discriminate. discriminate.
Qed.

(* effect of one assignment that is carried out even when the value is empty (as in a file) *)
Definition set1 (r : outcome config) (kv : string * string) : outcome config :=
  do c <- r; do p <- rasp c (fst kv) (snd kv); Ok (fst p).

Lemma set1_effect c c' k v f :
  set1 (Ok c) (k, v) = Ok c' ->
  if string_dec k (member_name f) then convert (member_kind f) v = Ok (c' f) else c' f = c f.
Proof.
  unfold set1. cbn [obind fst snd].
  unfold read_and_set_parameter. destruct (find_chain chain k) as [[kd g]|] eqn:E.
  - apply chain_spec in E. destruct E as [Hn Hk].
    destruct (convert kd v) as [x | | |] eqn:Ec; cbn [obind fst]; try discriminate.
    intros H; injection H as <-. unfold upd.
    destruct (string_dec k (member_name f)) as [E|E].
    * assert (g = f) by (apply member_name_inj; congruence). subst g.
      rewrite field_beq_refl. congruence.
    * destruct (field_beq g f) eqn:Eb; [ apply field_beq_spec in Eb; congruence | reflexivity ].
  - cbn [obind fst]. intros H; injection H as <-.
    destruct (string_dec k (member_name f)) as [->|]; [ | reflexivity ].
    apply chain_none in E. exfalso. apply E. exists f; reflexivity.
Qed.

Lemma set_fail kvs (r : outcome config) : (forall c, r <> Ok c) -> fold_left set1 kvs r = r.
Proof.
  intros H. induction kvs as [|a kvs IH]; [ reflexivity | ]. cbn [fold_left].
  assert (E : set1 r a = r) by (destruct r as [c | | |]; [ destruct (H c eq_refl) | | | ]; reflexivity).
  rewrite E. exact IH.
Qed.

Lemma sets_last kvs : forall c c', fold_left set1 kvs (Ok c) = Ok c' ->
  forall f, match last_value (member_name f) kvs with
            | Some v => convert (member_kind f) v = Ok (c' f)
            | None => c' f = c f
            end.
Proof.
  induction kvs as [|[k v] kvs IH]; intros c c' H f.
  - cbn in H. injection H as <-. reflexivity.
  - cbn [fold_left] in H. destruct (set1 (Ok c) (k, v)) as [c1 | | |] eqn:E1;
      [ | rewrite set_fail in H by discriminate; discriminate .. ].
    pose proof (IH c1 c' H f) as Hf. pose proof (set1_effect _ _ _ _ f E1) as Hf1.
    cbn [last_value]. destruct (last_value (member_name f) kvs) as [w|]; [ exact Hf | ].
    destruct (string_dec k (member_name f)); rewrite Hf; exact Hf1.
Qed.

Lemma lines_set ls r : fold_left (do_line dbl stod) ls r = fold_left set1 (assignments ls) r.
Proof.
  revert r; induction ls as [|l ls IH]; intros r; [ reflexivity | ].
  cbn [fold_left assignments]. rewrite IH. unfold do_line at 1.
  destruct (split_eq l) as [[k v]|]; [ destruct (all_blank v) | ]; destruct r; reflexivity.
Qed.

Lemma do_arg_set fs argc c a c' :
  do_arg fs argc (Ok c) a = Ok c' -> fold_left set1 (arg_assignments fs a) (Ok c) = Ok c'.
Proof.
  unfold ParamsModel.do_arg, arg_assignments. cbn [obind].
  destruct (string_dec a "-h") as [->|N1].
  { cbn [String.eqb Ascii.eqb Bool.eqb orb]. destruct (argc =? 2); [ discriminate | exact (fun x => x) ]. }
  destruct (string_dec a "--help") as [->|N2].
  { cbn [String.eqb Ascii.eqb Bool.eqb orb]. destruct (argc =? 2); [ discriminate | exact (fun x => x) ]. }
  apply String.eqb_neq in N1, N2. rewrite N1, N2. cbn [orb]. unfold last4.
  destruct (Nat.ltb_spec (String.length a) 4); [ discriminate | ]. cbn [obind].
  destruct (String.eqb_spec (substring (String.length a - 4) 4 a) ".txt") as [E|E];
  destruct (string_dec (substring (String.length a - 4) 4 a) ".txt") as [E'|E']; try congruence.
  - unfold ParamsModel.use_input_list. destruct (fs a); [ rewrite lines_set | ]; exact (fun x => x).
  - destruct (split_eq a) as [[k v]|]; [ | exact (fun x => x) ].
    destruct (string_dec v "") as [E2|E2].
    + rewrite E2. exact (fun x => x).
    + apply String.eqb_neq in E2. rewrite E2. exact (fun x => x).
Qed.

Lemma do_args_set fs argc args : forall c c',
  do_args fs argc args c = Ok c' -> fold_left set1 (flat_map (arg_assignments fs) args) (Ok c) = Ok c'.
Proof.
  unfold ParamsModel.do_args. induction args as [|a args IH]; intros c c' H; [ exact H | ].
  apply do_args_cons in H. destruct H as (c1 & H1 & H2). cbn [flat_map].
  rewrite fold_left_app, (do_arg_set _ _ _ _ _ H1). apply IH. exact H2.
Qed.

(* types of the members *)
Definition typed_val (k : kind) (v : pval) : Prop :=
  match k, v with
  | KInt, VInt _ _ | KDbl, VDbl _ _ | KBool, VBool _ _ | KStr, VStr _ _ => True
  | _, _ => False
  end.
Definition typed (c : config) : Prop := forall f, typed_val (member_kind f) (c f).

Lemma typed_defaults omp d1 d100 : typed (defaults dbl omp d1 d100).
Proof. intros f. destruct f; exact I. Qed.

Lemma convert_typed k v x : convert k v = Ok x -> typed_val k x.
Proof.
  destruct k; cbn.
  - destruct (stoi v); cbn; intros H; try discriminate; injection H as <-; exact I.
  - destruct (stod v); intros H; try discriminate; injection H as <-; exact I.
  - destruct (_ || _); intros H; try discriminate; injection H as <-; exact I.
  - intros H; injection H as <-; exact I.
Qed.

Lemma rasp_typed c k v p : typed c -> rasp c k v = Ok p -> typed (fst p).
Proof.
  intros Hc. unfold read_and_set_parameter. destruct (find_chain chain k) as [[kd g]|] eqn:E.
  - apply chain_spec in E. destruct E as [Hn Hk].
    destruct (convert kd v) as [x | | |] eqn:Ec; cbn [obind]; intros H; try discriminate; injection H as <-.
    cbn [fst]. intros f. unfold upd. destruct (field_beq g f) eqn:Eb; [ | apply Hc ].
    apply field_beq_spec in Eb. subst g kd. apply convert_typed in Ec. exact Ec.
  - intros H; injection H as <-. exact Hc.
Qed.

Lemma do_line_typed c l c' : typed c -> do_line dbl stod (Ok c) l = Ok c' -> typed c'.
Proof.
  intros Hc. unfold do_line; cbn [obind]. destruct (split_eq l) as [[k v]|]; [ | intros H; injection H as <-; exact Hc ].
  destruct (all_blank v); [ intros H; injection H as <-; exact Hc | ].
  destruct (rasp c k (remove_ws v)) as [p | | |] eqn:E; cbn; intros H; try discriminate; injection H as <-.
  apply (rasp_typed _ _ _ _ Hc E).
Qed.

Lemma do_lines_typed ls : forall c c', typed c -> fold_left (do_line dbl stod) ls (Ok c) = Ok c' -> typed c'.
Proof.
  induction ls as [|l ls IH]; intros c c' Hc; [ intros H; injection H as <-; exact Hc | ].
  cbn [fold_left]. destruct (do_line dbl stod (Ok c) l) as [c1 | | |] eqn:E.
  - apply IH. apply (do_line_typed _ _ _ Hc E).
  - intros H. exfalso. clear -H. revert H; induction ls; cbn; [ discriminate | exact IHls ].
  - intros H. exfalso. clear -H. revert H; induction ls; cbn; [ discriminate | exact IHls ].
  - intros H. exfalso. clear -H. revert H; induction ls; cbn; [ discriminate | exact IHls ].
Qed.

Lemma do_arg_typed fs argc c a c' : typed c -> do_arg fs argc (Ok c) a = Ok c' -> typed c'.
Proof.
  intros Hc. unfold ParamsModel.do_arg; cbn [obind].
  destruct (_ || _); [ destruct (argc =? 2); intros H; try discriminate; injection H as <-; exact Hc | ].
  destruct (last4 a) as [e | | |]; cbn [obind]; try discriminate.
  destruct (String.eqb e ".txt").
  - unfold ParamsModel.use_input_list. destruct (fs a) as [content|]; [ apply do_lines_typed, Hc | ].
    intros H; injection H as <-; exact Hc.
  - destruct (split_eq a) as [[k v]|]; [ | intros H; injection H as <-; exact Hc ].
    destruct (String.eqb v ""); [ intros H; injection H as <-; exact Hc | ].
    destruct (rasp c k v) as [p | | |] eqn:E; cbn; intros H; try discriminate; injection H as <-.
    apply (rasp_typed _ _ _ _ Hc E).
Qed.

Lemma do_args_typed fs argc args : forall c c', typed c -> do_args fs argc args c = Ok c' -> typed c'.
Proof.
  unfold ParamsModel.do_args. induction args as [|a args IH]; intros c c' Hc H.
  - injection H as <-; exact Hc.
  - apply do_args_cons in H. destruct H as (c1 & H1 & H2). apply (IH c1 c'); [ | exact H2 ].
    apply (do_arg_typed _ _ _ _ _ Hc H1).
Qed.

Lemma final_checks_spec c c' : typed c -> final_checks dbl c = Ok c' ->
  (forall f, f <> F_P123_omp_num_threads -> c' f = c f) /\
  (exists tJ nthr nq ch nthr0 (par : bool),
     c F_P123_omp_num_threads = VInt dbl nthr0 /\ nthr = Z.min nthr0 nq /\
     c' F_two_J_3N_max = VInt dbl tJ /\ c' F_P123_omp_num_threads = VInt dbl nthr /\ c' F_Nq_WP = VInt dbl nq /\
     c' F_channel_idx = VInt dbl ch /\ c' F_parallel_run = VBool dbl par /\
     Z.Odd tJ /\ 0 < tJ /\ nthr <= nq /\ (par = true -> ch <> -1)).
Proof.
  intros Hc. unfold final_checks.
  pose proof (Hc F_two_J_3N_max) as H1. pose proof (Hc F_P123_omp_num_threads) as H2.
  pose proof (Hc F_Nq_WP) as H3. pose proof (Hc F_channel_idx) as H4. pose proof (Hc F_parallel_run) as H5.
  cbn [member_kind typed_val] in *.
  destruct (c F_two_J_3N_max) as [tJ| | |] eqn:E1; try contradiction.
  destruct (c F_P123_omp_num_threads) as [nt| | |] eqn:E2; try contradiction.
  destruct (c F_Nq_WP) as [nq| | |] eqn:E3; try contradiction.
  destruct (c F_channel_idx) as [ch| | |] eqn:E4; try contradiction.
  destruct (c F_parallel_run) as [|  |par |] eqn:E5; try contradiction.
  cbn [vint vbool].
  destruct (par && (ch =? -1)) eqn:Ep; [ discriminate | ].
  destruct (nt >? nq) eqn:Et; unfold upd; cbn [field_beq]; rewrite ?E1; cbn [vint];
  (destruct ((Z.rem tJ 2 =? 0) || (tJ <=? 0)) eqn:Eo; [ discriminate | ]); intros H; injection H as <-.
  all: apply Bool.orb_false_iff in Eo; destruct Eo as [Eo1 Eo2].
  all: assert (Hodd : Z.Odd tJ) by
    (apply Z.odd_spec; apply Z.eqb_neq in Eo1; apply Z.leb_gt in Eo2;
     rewrite Z.rem_mod_nonneg in Eo1 by lia; rewrite Zmod_odd in Eo1; destruct (Z.odd tJ); [ reflexivity | congruence ]).
  all: split; [ intros f Hf; try (destruct f; reflexivity || congruence) | ].
  - exists tJ, nq, nq, ch, nt, par. rewrite E1, E3, E4, E5.
    repeat split; try reflexivity; try assumption; try lia.
  - exists tJ, nt, nq, ch, nt, par. rewrite E1, E2, E3, E4, E5.
    repeat split; try reflexivity; try assumption; try lia.
Qed.

End WithDbl.
