(* When option processing succeeds, and the help flags. *)
From Coq Require Import String Ascii.
From Verif Require Import Common ParamsModel ParamsSpec ParamsProofs ParamsProofs2 ParamsText.
Open Scope string_scope.
Open Scope Z_scope.

Section Accept.
Variable dbl : Type.
Variable stod : string -> option dbl.

Definition is_help (a : string) : bool := if string_dec a "-h" then true else if string_dec a "--help" then true else false.

Lemma help_test a : (String.eqb a "-h" || String.eqb a "--help") = is_help a.
Proof.
  unfold is_help. destruct (string_dec a "-h") as [->|N1]; [ reflexivity | ].
  apply String.eqb_neq in N1. rewrite N1. destruct (string_dec a "--help") as [->|N2]; [ reflexivity | ].
  apply String.eqb_neq in N2. rewrite N2. reflexivity.
Qed.

Lemma do_arg_nohelp fs n m r a : is_help a = false -> do_arg dbl stod fs n r a = do_arg dbl stod fs m r a.
Proof. intros H. unfold do_arg. rewrite help_test, H. reflexivity. Qed.

Lemma do_arg_help fs n (c : outcome (config dbl)) a : is_help a = true -> n <> 2 -> do_arg dbl stod fs n c a = c.
Proof.
  intros H Hn. unfold do_arg. rewrite help_test, H. destruct c; cbn [obind]; try reflexivity.
  destruct (Z.eqb_spec n 2); [ contradiction | reflexivity ].
Qed.

Lemma help_only fs omp d1 d100 a : is_help a = true ->
  set_run_parameters dbl stod fs omp d1 d100 [a] = Err.
Proof.
  intros H. unfold set_run_parameters, do_args. cbn [length fold_left]. unfold do_arg. rewrite help_test, H. reflexivity.
Qed.

Lemma help_inert fs omp d1 d100 args : length args <> 1%nat ->
  set_run_parameters dbl stod fs omp d1 d100 args =
  set_run_parameters dbl stod fs omp d1 d100 (filter (fun a => negb (is_help a)) args).
Proof.
  intros Hn. unfold set_run_parameters, do_args.
  assert (H : forall n m r, n <> 2 ->
    fold_left (do_arg dbl stod fs n) args r =
    fold_left (do_arg dbl stod fs m) (filter (fun a => negb (is_help a)) args) r).
  { clear Hn. intros n m r Hm. revert r. induction args as [|a l IH]; intros r; [ reflexivity | ].
    cbn [fold_left filter]. destruct (is_help a) eqn:E; cbn [negb].
    - rewrite do_arg_help by assumption. apply IH.
    - cbn [fold_left]. rewrite (do_arg_nohelp fs n m r a E). apply IH. }
  rewrite (H _ (1 + Z.of_nat (length (filter (fun a => negb (is_help a)) args))) (Ok (defaults dbl omp d1 d100))) by lia.
  reflexivity.
Qed.

Lemma set1_ok c k v :
  (forall f, member_name f = k -> exists x, reads_as dbl stod (member_kind f) v x) ->
  exists c', set1 dbl stod (Ok c) (k, v) = Ok c'.
Proof.
  intros H. unfold set1, read_and_set_parameter. cbn [obind fst snd].
  destruct (find_chain chain k) as [[kd g]|] eqn:E; [ | eexists; reflexivity ].
  apply chain_spec in E. destruct E as [Hn Hk]. destruct (H g Hn) as [x Hx].
  apply convert_reads in Hx. subst kd. rewrite Hx. cbn [obind fst]. eexists; reflexivity.
Qed.

Lemma sets_ok kvs : forall c,
  (forall k v f, In (k, v) kvs -> member_name f = k -> exists x, reads_as dbl stod (member_kind f) v x) ->
  exists c', fold_left (set1 dbl stod) kvs (Ok c) = Ok c'.
Proof.
  induction kvs as [|[k v] kvs IH]; intros c H; [ eexists; reflexivity | ]. cbn [fold_left].
  destruct (set1_ok c k v) as [c1 E]; [ intros f; apply H; left; reflexivity | ].
  rewrite E. apply IH. intros k' v' f Hin. apply H. right. exact Hin.
Qed.

Lemma do_arg_as_sets fs n c a :
  is_help a = false -> (4 <= String.length a)%nat ->
  do_arg dbl stod fs n (Ok c) a = fold_left (set1 dbl stod) (arg_assignments fs a) (Ok c).
Proof.
  intros Hh Hl. unfold do_arg. rewrite help_test, Hh. cbn [obind]. unfold arg_assignments. unfold is_help in Hh.
  destruct (string_dec a "-h"); [ discriminate | ]. destruct (string_dec a "--help"); [ discriminate | ].
  unfold last4. destruct (Nat.ltb_spec (String.length a) 4); [ lia | ]. cbn [obind].
  destruct (String.eqb_spec (substring (String.length a - 4) 4 a) ".txt") as [E|E];
  destruct (string_dec (substring (String.length a - 4) 4 a) ".txt") as [E'|E']; try congruence.
  - unfold use_input_list. destruct (fs a); [ apply lines_set | reflexivity ].
  - destruct (split_eq a) as [[k v]|]; [ | reflexivity ].
    destruct (string_dec v "") as [E2|E2].
    + rewrite E2. reflexivity.
    + apply String.eqb_neq in E2. rewrite E2. reflexivity.
Qed.

Lemma do_args_as_sets fs n args : forall c,
  (forall a, In a args -> is_help a = false /\ (4 <= String.length a)%nat) ->
  (forall k v f, In (k, v) (flat_map (arg_assignments fs) args) -> member_name f = k ->
     exists x, reads_as dbl stod (member_kind f) v x) ->
  exists c', do_args dbl stod fs n args c = Ok c'.
Proof.
  unfold do_args. induction args as [|a args IH]; intros c Ha H; [ eexists; reflexivity | ]. cbn [fold_left].
  rewrite do_arg_as_sets by (apply Ha; left; reflexivity).
  destruct (sets_ok (arg_assignments fs a) c) as [c1 E].
  { intros k v f Hin. apply H. cbn [flat_map]. apply in_or_app. left. exact Hin. }
  rewrite E. apply IH.
  - intros b Hb. apply Ha. right. exact Hb.
  - intros k v f Hin. apply H. cbn [flat_map]. apply in_or_app. right. exact Hin.
Qed.

(* The configuration is legal. *)
Definition legal (c : config dbl) : Prop :=
  exists tJ ch par, c F_two_J_3N_max = VInt dbl tJ /\ c F_channel_idx = VInt dbl ch /\ c F_parallel_run = VBool dbl par /\
    Z.Odd tJ /\ 0 < tJ /\ (par = true -> ch <> -1).

Lemma final_legal c : typed dbl c -> legal c -> exists c', final_checks dbl c = Ok c'.
Proof.
  intros Hc (tJ & ch & par & E1 & E2 & E3 & Ho & Hp & Hpar). unfold final_checks. cbv zeta.
  rewrite E2, E3. cbn [vint vbool].
  assert (Eb : par && (ch =? -1) = false).
  { destruct par; [ | reflexivity ]. cbn. apply Z.eqb_neq. apply Hpar. reflexivity. }
  rewrite Eb.
  assert (Eo : (Z.rem tJ 2 =? 0) || (tJ <=? 0) = false).
  { apply Bool.orb_false_iff. split; [ | apply Z.leb_gt; exact Hp ]. apply Z.eqb_neq. rewrite Z.rem_mod_nonneg by lia.
    rewrite Zmod_odd. apply Z.odd_spec in Ho. rewrite Ho. discriminate. }
  destruct (vint dbl (c F_P123_omp_num_threads) >? vint dbl (c F_Nq_WP)); unfold upd; cbn [field_beq];
    rewrite E1; cbn [vint]; rewrite Eo; eexists; reflexivity.
Qed.

Lemma final_illegal c : typed dbl c -> ~ legal c -> final_checks dbl c = Err.
Proof.
  intros Hc Hl. destruct (final_checks dbl c) as [c'| | |] eqn:E; [ | reflexivity | | ].
  - exfalso. apply Hl. apply final_checks_spec in E; [ | exact Hc ].
    destruct E as [Hsame (tJ & nthr & nq & ch & n0 & par & _ & _ & E1 & _ & _ & E4 & E5 & Ho & Hp & _ & Hpar)].
    rewrite Hsame in E1, E4, E5 by discriminate. exists tJ, ch, par. auto 10.
  - unfold final_checks in E. cbv zeta in E. destruct (_ && _) in E; [ discriminate | ].
    destruct (_ || _) in E; discriminate.
  - unfold final_checks in E. cbv zeta in E. destruct (_ && _) in E; [ discriminate | ].
    destruct (_ || _) in E; discriminate.
Qed.

(* C64 *)
Lemma run_accepts fs omp d1 d100 args :
  (forall a, In a args -> a <> "-h" /\ a <> "--help" /\ (4 <= String.length a)%nat) ->
  (forall k v f, In (k, v) (flat_map (arg_assignments fs) args) -> member_name f = k ->
     exists x, reads_as dbl stod (member_kind f) v x) ->
  exists c0,
  (forall f, match last_value (member_name f) (flat_map (arg_assignments fs) args) with
             | Some v => reads_as dbl stod (member_kind f) v (c0 f)
             | None => reads_default dbl omp d1 d100 f (c0 f)
             end) /\
  (legal c0 -> exists c, set_run_parameters dbl stod fs omp d1 d100 args = Ok c) /\
  (~ legal c0 -> set_run_parameters dbl stod fs omp d1 d100 args = Err).
Proof.
  intros Ha H.
  destruct (do_args_as_sets fs (1 + Z.of_nat (length args)) args (defaults dbl omp d1 d100)) as [c0 E]; [ | exact H | ].
  { intros a Hin. destruct (Ha a Hin) as (H1 & H2 & H3). split; [ | exact H3 ]. unfold is_help.
    destruct (string_dec a "-h"); [ congruence | ]. destruct (string_dec a "--help"); [ congruence | reflexivity ]. }
  exists c0. assert (Ht : typed dbl c0) by (eapply do_args_typed; [ apply typed_defaults | exact E ]).
  split; [ | split ].
  - intros f. pose proof (do_args_set dbl stod _ _ _ _ _ E) as Es. pose proof (sets_last dbl stod _ _ _ Es f) as Hf.
    destruct (last_value _ _); [ apply convert_reads; exact Hf | rewrite Hf; apply defaults_are ].
  - intros Hl. unfold set_run_parameters. rewrite E. cbn [obind]. exact (final_legal c0 Ht Hl).
  - intros Hl. unfold set_run_parameters. rewrite E. cbn [obind]. exact (final_illegal c0 Ht Hl).
Qed.
End Accept.
