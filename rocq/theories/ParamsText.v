(* The vocabulary of the option specification tied to plain character sets, and the reading of values by kind. *)
From Coq Require Import String Ascii.
From Verif Require Import Common ParamsModel ParamsSpec ParamsProofs ParamsProofs2.
Open Scope string_scope.
Open Scope Z_scope.

Lemma digits_are c : isdigit c = true <-> exists n, (n < 10)%nat /\ String.get n "0123456789" = Some c /\ digit_val c = Z.of_nat n.
Proof.
  split.
  - intros H. exists (nat_of_ascii c - 48)%nat. destruct c as [[] [] [] [] [] [] [] []]; vm_compute in H; try discriminate H; vm_compute; repeat split; auto; repeat constructor.
  - intros (n & Hn & Hg & _). do 10 (destruct n as [|n]; [ injection Hg as <-; reflexivity | ]). lia.
Qed.

Lemma spaces_are c : isspace c = true <-> In (nat_of_ascii c) [9; 10; 11; 12; 13; 32]%nat.
Proof.
  unfold isspace. cbv zeta. generalize (nat_of_ascii c) as n. intros n.
  rewrite Bool.orb_true_iff, Bool.andb_true_iff, !Nat.leb_le, Nat.eqb_eq. cbn [In]. lia.
Qed.

Lemma strip_is s : remove_ws s = string_of_list_ascii (filter (fun c => negb (isspace c)) (list_ascii_of_string s)).
Proof.
  induction s as [|c s IH]; [ reflexivity | ]. cbn [remove_ws list_ascii_of_string filter].
  destruct (isspace c); cbn [negb string_of_list_ascii]; [ exact IH | rewrite IH; reflexivity ].
Qed.

Lemma blank_is s : all_blank s = true <-> (forall c, has_char c s -> c = " "%char).
Proof.
  induction s as [|c s IH]; cbn [all_blank has_char].
  - split; [ intros _ c [] | reflexivity ].
  - rewrite Bool.andb_true_iff, Ascii.eqb_eq, IH. split.
    + intros [-> H] c' [<- | H']; [ reflexivity | exact (H c' H') ].
    + intros H. split; [ apply H; left; reflexivity | intros c' H'; apply H; right; exact H' ].
Qed.

Lemma split_none s : split_eq s = None <-> ~ has_char "="%char s.
Proof.
  induction s as [|c s IH]; cbn [split_eq has_char]; [ tauto | ].
  destruct (Ascii.eqb_spec c "="%char) as [-> | Hc].
  - split; [ discriminate | tauto ].
  - destruct (split_eq s) as [[a b]|].
    + split; [ discriminate | ]. intros H. exfalso.
      assert (Hn : ~ has_char "="%char s) by tauto. apply IH in Hn. discriminate.
    + split; [ | reflexivity ]. intros _ [-> | H]; [ congruence | ]. apply IH in H; [ exact H | reflexivity ].
Qed.

Lemma split_some s k v : split_eq s = Some (k, v) <-> s = k ++ "=" ++ v /\ ~ has_char "="%char k.
Proof.
  revert k v. induction s as [|c s IH]; intros k v; cbn [split_eq].
  - split; [ discriminate | ]. intros [H _]. destruct k; discriminate.
  - destruct (Ascii.eqb_spec c "="%char) as [-> | Hc].
    + split.
      * intros H. injection H as <- <-. split; [ reflexivity | exact (fun x => x) ].
      * intros [H Hk]. destruct k as [|c k]; [ injection H as ->; reflexivity | ].
        injection H as <- _. cbn in Hk. tauto.
    + destruct (split_eq s) as [[a b]|] eqn:E.
      * split.
        -- intros H. injection H as <- <-. destruct (proj1 (IH a b) eq_refl) as [-> Hk].
           split; [ reflexivity | ]. cbn [has_char]. tauto.
        -- intros [H Hk]. destruct k as [|c' k]; [ injection H as -> _; congruence | ].
           injection H as <- H. cbn [has_char] in Hk.
           assert (Hx : Some (a, b) = Some (k, v)) by (apply IH; split; [ exact H | tauto ]).
           injection Hx as -> ->. reflexivity.
      * split; [ discriminate | ]. intros [H Hk]. destruct k as [|c' k]; [ injection H as -> _; congruence | ].
        injection H as <- H. cbn [has_char] in Hk.
        assert (Hx : None = Some (k, v)) by (apply IH; split; [ exact H | tauto ]). discriminate.
Qed.

Section Reads.
Variable dbl : Type.
Variable stod : string -> option dbl.

Lemma convert_reads k v x : convert dbl stod k v = Ok x <-> reads_as dbl stod k v x.
Proof.
  split.
  - destruct k; cbn [convert].
    + destruct (stoi v) as [z| | |] eqn:E; cbn [obind]; try discriminate. intros H. injection H as <-.
      apply stoi_inv in E. destruct E as (w & i & t & -> & Hw & Hi & Ht & Hz). constructor; assumption.
    + destruct (stod v) eqn:E; [ | discriminate ]. intros H. injection H as <-. constructor. exact E.
    + destruct (String.eqb_spec v "true") as [-> | Hn]; [ intros H; injection H as <-; constructor | ].
      destruct (String.eqb_spec v "false") as [-> | Hn2]; [ intros H; injection H as <-; constructor | discriminate ].
    + intros H. injection H as <-. constructor.
  - intros H. destruct H as [w i t z Hw Hi Ht Hz | v d E | | | v]; cbn [convert].
    + rewrite (stoi_accepts w i t z Hw Hi Ht Hz). reflexivity.
    + rewrite E. reflexivity.
    + reflexivity.
    + reflexivity.
    + reflexivity.
Qed.

(* What happens to a value that does not read: booleans stop with a message, numbers abort. *)
Lemma convert_refuses k v : (forall x, ~ reads_as dbl stod k v x) ->
  convert dbl stod k v = match k with KBool => Err | _ => Exc end.
Proof.
  intros H. destruct k.
  - destruct (convert dbl stod KInt v) as [x| | |] eqn:E; [ apply convert_reads in E; elim (H _ E) | | reflexivity | ].
    + exfalso. cbn [convert] in E. destruct (stoi v) eqn:Es; cbn [obind] in E; try discriminate.
      rewrite stoi_unfold in Es. unfold stoi_body in Es. destruct (skip_ws v) as [|[b1 b2 b3 b4 b5 b6 b7 b8] r]; [ discriminate Es | ].
      repeat match type of Es with context[match ?x with _ => _ end] => destruct x end; discriminate Es.
    + exfalso. cbn [convert] in E. destruct (stoi v) eqn:Es; cbn [obind] in E; try discriminate.
      rewrite stoi_unfold in Es. unfold stoi_body in Es. destruct (skip_ws v) as [|[b1 b2 b3 b4 b5 b6 b7 b8] r]; [ discriminate Es | ].
      repeat match type of Es with context[match ?x with _ => _ end] => destruct x end; discriminate Es.
  - cbn [convert]. destruct (stod v) eqn:E; [ elim (H (VDbl dbl d)); constructor; exact E | reflexivity ].
  - cbn [convert]. destruct (String.eqb_spec v "true") as [-> | Hn]; [ elim (H (VBool dbl true)); constructor | ].
    destruct (String.eqb_spec v "false") as [-> | Hn2]; [ elim (H (VBool dbl false)); constructor | reflexivity ].
  - elim (H (VStr dbl v)); constructor.
Qed.

Lemma rasp_bad c f v : (forall x, ~ reads_as dbl stod (member_kind f) v x) ->
  read_and_set_parameter dbl stod c (member_name f) v = match member_kind f with KBool => Err | _ => Exc end.
Proof.
  intros H. unfold read_and_set_parameter.
  assert (E : find_chain chain (member_name f) = Some (member_kind f, f)) by (apply chain_spec; auto).
  rewrite E, (convert_refuses _ _ H). destruct (member_kind f); reflexivity.
Qed.

Lemma rasp_total c f v :
  ((exists x c', reads_as dbl stod (member_kind f) v x /\
      read_and_set_parameter dbl stod c (member_name f) v = Ok (c', true) /\ c' f = x /\
      forall g, g <> f -> c' g = c g) \/
   ((forall x, ~ reads_as dbl stod (member_kind f) v x) /\
    read_and_set_parameter dbl stod c (member_name f) v = match member_kind f with KBool => Err | _ => Exc end)).
Proof.
  assert (E : find_chain chain (member_name f) = Some (member_kind f, f)) by (apply chain_spec; auto).
  destruct (convert dbl stod (member_kind f) v) as [x| | |] eqn:Ec.
  - left. exists x, (upd dbl c f x). split; [ apply convert_reads; exact Ec | ].
    unfold read_and_set_parameter. rewrite E, Ec. cbn [obind]. split; [ reflexivity | ].
    unfold upd. rewrite field_beq_refl. split; [ reflexivity | ]. intros g Hg.
    destruct (field_beq f g) eqn:Eg; [ apply internal_field_dec_bl in Eg; congruence | reflexivity ].
  - right. assert (Hn : forall x, ~ reads_as dbl stod (member_kind f) v x).
    { intros x Hx. apply convert_reads in Hx. congruence. } split; [ exact Hn | apply rasp_bad; exact Hn ].
  - right. assert (Hn : forall x, ~ reads_as dbl stod (member_kind f) v x).
    { intros x Hx. apply convert_reads in Hx. congruence. } split; [ exact Hn | apply rasp_bad; exact Hn ].
  - right. assert (Hn : forall x, ~ reads_as dbl stod (member_kind f) v x).
    { intros x Hx. apply convert_reads in Hx. congruence. } split; [ exact Hn | apply rasp_bad; exact Hn ].
Qed.

Lemma bool_reads v x :
  reads_as dbl stod KBool v x <-> (v = "true" /\ x = VBool dbl true) \/ (v = "false" /\ x = VBool dbl false).
Proof.
  split.
  - intros H. inversion H; subst; auto.
  - intros [[-> ->]|[-> ->]]; constructor.
Qed.

End Reads.

Section Reads2.
Variable dbl : Type.
Variable stod : string -> option dbl.

Lemma defaults_are omp d1 d100 f : reads_default dbl omp d1 d100 f (defaults dbl omp d1 d100 f).
Proof.
  destruct f; cbn [reads_default defaults]; try reflexivity;
    match goal with |- exists v, In (?n, v) _ /\ _ =>
      let r := eval vm_compute in (match last_value n default_text with Some v => v | None => ""%string end) in exists r end;
    (split; [ repeat (first [ left; reflexivity | right ]) | apply convert_reads; vm_compute; reflexivity ]).
Qed.

Lemma run_last_wins' fs omp d1 d100 args c :
  set_run_parameters dbl stod fs omp d1 d100 args = Ok c ->
  exists c0,
  (forall f, match last_value (member_name f) (flat_map (arg_assignments fs) args) with
             | Some v => reads_as dbl stod (member_kind f) v (c0 f)
             | None => reads_default dbl omp d1 d100 f (c0 f)
             end) /\
  (forall f, f <> F_P123_omp_num_threads -> c f = c0 f) /\
  (exists n q, c0 F_P123_omp_num_threads = VInt dbl n /\ c0 F_Nq_WP = VInt dbl q /\
               c F_P123_omp_num_threads = VInt dbl (Z.min n q)).
Proof.
  intros H. destruct (run_last_wins dbl stod fs omp d1 d100 args c H) as (c0 & H1 & H2 & H3).
  exists c0. split; [ | split; assumption ]. intros f. specialize (H1 f).
  destruct (last_value _ _); [ apply convert_reads; exact H1 | rewrite H1; apply defaults_are ].
Qed.

Lemma documented_arg' fs argc c :
  forall f v x, v <> "" -> ~ ends_in_txt (arg_of (member_name f, v)) -> reads_as dbl stod (member_kind f) v x ->
     exists c', do_arg dbl stod fs argc (Ok c) (arg_of (member_name f, v)) = Ok c' /\ c' f = x /\
                forall g, g <> f -> c' g = c g.
Proof. intros f v x H1 H2 H3. apply documented_arg; try assumption. apply convert_reads. exact H3. Qed.
End Reads2.
