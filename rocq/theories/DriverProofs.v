From Coq Require Import String Ascii.
From Verif Require Import Common ParamsModel ParamsSpec ParamsProofs ParamsProofs2 NameModel NameProofs DriverModel DriverSpec.
Open Scope Z_scope.
Open Scope list_scope.

Lemma collect_app {A} (l r : list (outcome A)) : collect (l ++ r) = do a <- collect l; do b <- collect r; Ok (a ++ b).
Proof.
  induction l as [|x l IH]; cbn; [ destruct (collect r); reflexivity | ].
  destruct x; cbn; try reflexivity. rewrite IH. destruct (collect l); cbn; try reflexivity. destruct (collect r); reflexivity.
Qed.
Lemma fold_stuck {A B} (f : outcome A -> B -> outcome A) (e : outcome A) l :
  (forall b, f e b = e) -> fold_left f l e = e.
Proof. intros H. induction l as [|b l IH]; cbn; [ reflexivity | rewrite H; exact IH ]. Qed.

Lemma sets_eq w : param_sets w = sets_of w.
Proof.
  unfold param_sets, sets_of, for_range. destruct (w_on w); [ | reflexivity ].
  replace ((w_stop w - w_start w + 1 - 1) / 1) with (w_stop w - w_start w) by (rewrite Z.div_1_r; lia).
  apply map_ext. intros k. lia.
Qed.
(* the words of a line *)
Lemma pieces_acc_word w cur : ~ has_char " "%char w -> pieces_acc w cur = [append cur w].
Proof.
  revert cur; induction w as [|c w IH]; intros cur H; cbn [pieces_acc has_char] in *; [ rewrite app_nil_s; reflexivity | ].
  destruct (Ascii.eqb_spec c " "%char) as [->|Hc]; [ tauto | ]. rewrite IH by tauto. rewrite str_app_assoc. reflexivity.
Qed.
Lemma pieces_acc_cons w cur rest : ~ has_char " "%char w -> pieces_acc (append w (String " "%char rest)) cur = append cur w :: pieces_acc rest EmptyString.
Proof.
  revert cur; induction w as [|c w IH]; intros cur H; cbn [append pieces_acc has_char] in *; [ cbn; rewrite app_nil_s; reflexivity | ].
  destruct (Ascii.eqb_spec c " "%char) as [->|Hc]; [ tauto | ]. rewrite IH by tauto. rewrite str_app_assoc. reflexivity.
Qed.
Lemma pieces_concat words : words <> [] -> (forall w, In w words -> ~ has_char " "%char w) -> pieces (String.concat " " words) = words.
Proof.
  unfold pieces. induction words as [|w words IH]; intros Hne H; [ contradiction | ]. destruct words as [|w' words].
  - cbn [String.concat]. rewrite pieces_acc_word by (apply H; left; reflexivity). reflexivity.
  - change (String.concat " " (w :: w' :: words)) with (append w (String " "%char (String.concat " " (w' :: words)))).
    rewrite pieces_acc_cons by (apply H; left; reflexivity). cbn [append]. f_equal. apply IH; [ discriminate | intros; apply H; right; assumption ].
Qed.
Lemma has_lines_getlines content lines : has_lines content lines -> getlines content = lines.
Proof.
  intros (H & [->|(init & l & -> & Hl & ->)]); [ apply getlines_unlines, H | ].
  apply getlines_unlines_last; [ intros; apply H, in_or_app; left; assumption | apply H, in_or_app; right; left; reflexivity | exact Hl ].
Qed.

Section D.
Context {dbl : Type} (stod : string -> option dbl).
(* what the reader makes of a table file *)
Definition parsed_table (content : string) (rows : list (list dbl)) (n : nat) : Prop :=
  rows <> [] /\ (1 <= n)%nat /\
  Forall2 (fun line row => map stod (pieces line) = map Some row /\ length row = n) (getlines content) rows.
Lemma table_parsed content rows n : table_file stod content rows n -> parsed_table content rows n.
Proof.
  intros (H0 & H1 & lines & HL & F). split; [ exact H0 | ]. split; [ exact H1 | ]. rewrite (has_lines_getlines _ _ HL).
  clear -F H1. induction F as [|line row lines rows (words & -> & Hb & Hm & Hn) F IH]; constructor; [ | exact IH ].
  rewrite pieces_concat; [ tauto | | exact Hb ]. intros ->. destruct row; [ cbn in Hn; lia | discriminate ].
Qed.

Lemma read_numbers_ok l row : map stod l = map Some row -> read_numbers dbl stod l = Ok row.
Proof.
  unfold read_numbers. assert (G : forall l row acc, map stod l = map Some row ->
    fold_left (fun r s => do v <- r; match stod s with Some d => Ok (v ++ [d]) | None => Exc end) l (Ok acc) = Ok (acc ++ row)); [ | apply (G l row []) ].
  clear. induction l as [|s l IH]; intros [|d row] acc H; try discriminate; cbn in *; [ rewrite app_nil_r; reflexivity | ].
  injection H as Hs H. rewrite Hs. cbn. rewrite (IH row (acc ++ [d]) H), <- app_assoc. reflexivity.
Qed.
Lemma read_ok content rows n : parsed_table content rows n ->
  read_parameter_sample_list dbl stod (Some content) = Ok (concat rows, Z.of_nat n, Z.of_nat (length rows)).
Proof.
  intros (Hne & Hn & F). unfold read_parameter_sample_list. destruct F as [|line row lines rows' [Hp Hl] F]; [ contradiction | ].
  rewrite (read_numbers_ok _ _ Hp). cbn [obind].
  assert (G : forall lines rows acc, Forall2 (fun line row => map stod (pieces line) = map Some row /\ length row = n) lines rows ->
     fold_left (fun r line => do v <- r; do w <- read_numbers dbl stod (pieces line); Ok (v ++ w)) lines (Ok acc) = Ok (acc ++ concat rows)).
  { clear -stod. intros lines rows acc F. revert acc. induction F as [|line row lines rows [Hp Hl] F IH]; intros acc; cbn; [ rewrite app_nil_r; reflexivity | ].
    rewrite (read_numbers_ok _ _ Hp). cbn. rewrite IH, <- app_assoc. reflexivity. }
  rewrite (G lines rows' row F). cbn [obind concat length].
  assert (Hc : length (concat rows') = (length rows' * n)%nat).
  { clear -F. induction F as [|line row lines rows [Hp Hl] F IH]; cbn; [ reflexivity | rewrite app_length, IH, Hl; reflexivity ]. }
  rewrite Hl. do 2 f_equal. rewrite app_length, Hc, Hl.
  replace (Z.of_nat (n + length rows' * n)) with (Z.of_nat (S (length rows')) * Z.of_nat n) by lia. apply Z.div_mul. lia.
Qed.
Lemma rows_len content rows n : parsed_table content rows n -> forall r, In r rows -> length r = n.
Proof. intros (_ & _ & F) r Hr. clear -F Hr. induction F as [|? ? ? ? [_ Hl] F IH]; [ destruct Hr | destruct Hr as [<-|Hr]; auto ]. Qed.
Lemma concat_len (rows : list (list dbl)) n : (forall r, In r rows -> length r = n) -> length (concat rows) = (length rows * n)%nat.
Proof. intros H. induction rows as [|r rows IH]; cbn; [ reflexivity | ]. rewrite app_length, IH, (H r) by (try (left; reflexivity); intros; apply H; right; assumption). reflexivity. Qed.
Lemma skip_concat (rows : list (list dbl)) n k : (forall r, In r rows -> length r = n) -> skipn (k * n) (concat rows) = concat (skipn k rows).
Proof.
  revert k; induction rows as [|r rows IH]; intros k H; [ rewrite !skipn_nil; reflexivity | ]. destruct k as [|k]; [ reflexivity | ].
  cbn [concat skipn Nat.mul]. rewrite skipn_app, (H r) by (left; reflexivity).
  rewrite skipn_all2 by (rewrite (H r) by (left; reflexivity); lia). cbn. replace (n + k * n - n)%nat with (k * n)%nat by lia.
  apply IH. intros; apply H; right; assumption.
Qed.
Lemma skipn_nth {A} (l : list A) k x : nth_error l k = Some x -> exists r, skipn k l = x :: r.
Proof. revert k; induction l as [|y l IH]; intros [|k] H; try discriminate; cbn in *; [ injection H as ->; eexists; reflexivity | apply IH, H ]. Qed.

(* the parameters in force for set psi *)
Definition in_force (m : potential) (w : walk) (rows : list (list dbl)) (preset : list dbl) (psi : Z) : list dbl :=
  if w_on w then match num_read m with O => preset | k => firstn k (nth (Z.to_nat psi) rows []) end else preset.

Lemma update_ok m content rows n psi cur : parsed_table content rows n -> (num_read m <= n)%nat -> 0 <= psi < Z.of_nat (length rows) ->
  update_parameters dbl m (concat rows) (psi * Z.of_nat n) cur =
  Ok (match num_read m with O => cur | k => firstn k (nth (Z.to_nat psi) rows []) end).
Proof.
  intros T Hk Hp. pose proof (rows_len _ _ _ T) as L. pose proof T as (_ & Hn & _). unfold update_parameters. rewrite (concat_len _ _ L).
  assert (psi * Z.of_nat n + Z.of_nat n <= Z.of_nat (length rows * n)) by nia.
  destruct (orb_false_intro (psi * Z.of_nat n <? 0) (Z.of_nat (length rows * n) <=? psi * Z.of_nat n)) as [];
    [ apply Z.ltb_ge; nia | apply Z.leb_gt; lia | ].
  replace ((psi * Z.of_nat n <? 0) || (Z.of_nat (length rows * n) <=? psi * Z.of_nat n)) with false
    by (symmetry; apply orb_false_intro; [ apply Z.ltb_ge; nia | apply Z.leb_gt; lia ]).
  destruct (num_read m) as [|k] eqn:E; [ reflexivity | ].
  replace (Z.of_nat (length rows * n) <? psi * Z.of_nat n + Z.of_nat (S k)) with false by (symmetry; apply Z.ltb_ge; lia).
  replace (Z.to_nat (psi * Z.of_nat n)) with (Z.to_nat psi * n)%nat by nia. rewrite skip_concat by exact L.
  destruct (nth_error rows (Z.to_nat psi)) as [row|] eqn:En; [ | apply nth_error_None in En; lia ].
  destruct (skipn_nth _ _ _ En) as (r & ->). rewrite (nth_error_nth _ _ [] En). cbn [concat]. rewrite firstn_app.
  rewrite (L row) by (eapply nth_error_In; exact En). replace (S k - n)%nat with 0%nat by lia. cbn [firstn]. rewrite app_nil_r. reflexivity.
Qed.

Context {result : Type} (solve : nat -> list dbl -> outcome result).

(* ---------- one channel, any state that agrees with the preset when nothing is read ---------- *)
Definition chan_step (m : potential) (w : walk) (v : list dbl) (nmp : Z) (chn : nat) (r : outcome (list dbl * list (nat * Z * result))) (psi : Z) :=
  do '(cur, out) <- r;
  do cur <- (if w_on w then update_parameters dbl m v (psi * nmp) cur else Ok cur);
  do res <- solve chn cur; Ok (cur, out ++ [(chn, psi, res)]).

(* does the state survive into the next set? *)
Definition keeps (m : potential) (w : walk) : bool := negb (w_on w) || match num_read m with O => true | _ => false end.

Lemma update_indep m v k cur cur' : keeps m (mkwalk true 0 0) = false -> update_parameters dbl m v k cur = update_parameters dbl m v k cur'.
Proof. unfold keeps, update_parameters. cbn. destruct (num_read m); [ discriminate | reflexivity ]. Qed.
Lemma update_keeps m v k cur r : keeps m (mkwalk true 0 0) = true -> update_parameters dbl m v k cur = Ok r -> r = cur.
Proof. unfold keeps, update_parameters. cbn. destruct (num_read m); [ | discriminate ]. destruct (_ || _); congruence. Qed.

Definition same_state (m : potential) (w : walk) (a b : list dbl) : Prop := keeps m w = true -> a = b.

(* outputs are appended and do not depend on the incoming state, up to same_state *)
Lemma chan_fold_gen m w v nmp chn preset l : forall cur out, same_state m w cur preset ->
  match fold_left (chan_step m w v nmp chn) l (Ok (cur, out)), fold_left (chan_step m w v nmp chn) l (Ok (preset, [])) with
  | Ok (c1, o1), Ok (c2, o2) => o1 = out ++ o2 /\ same_state m w c1 preset
  | Err, Err => True | Exc, Exc => True | UB, UB => True | _, _ => False
  end.
Proof.
  assert (G : forall l cur1 out1 cur2 out2 pre, same_state m w cur1 preset -> same_state m w cur2 preset -> out1 = pre ++ out2 ->
    match fold_left (chan_step m w v nmp chn) l (Ok (cur1, out1)), fold_left (chan_step m w v nmp chn) l (Ok (cur2, out2)) with
    | Ok (c1, o1), Ok (c2, o2) => o1 = pre ++ o2 /\ same_state m w c1 preset
    | Err, Err => True | Exc, Exc => True | UB, UB => True | _, _ => False
    end).
  { clear l. induction l as [|psi l IH]; intros cur1 out1 cur2 out2 pre H1 H2 Ho; [ cbn; tauto | ]. cbn [fold_left].
    assert (Hstep : match chan_step m w v nmp chn (Ok (cur1, out1)) psi, chan_step m w v nmp chn (Ok (cur2, out2)) psi with
      | Ok (c1, o1), Ok (c2, o2) => same_state m w c1 preset /\ same_state m w c2 preset /\ o1 = pre ++ o2
      | Err, Err => True | Exc, Exc => True | UB, UB => True | _, _ => False end).
    { unfold chan_step. cbn [obind].
      assert (Hu : (if w_on w then update_parameters dbl m v (psi * nmp) cur1 else Ok cur1) = (if w_on w then update_parameters dbl m v (psi * nmp) cur2 else Ok cur2)
        /\ forall c, (if w_on w then update_parameters dbl m v (psi * nmp) cur2 else Ok cur2) = Ok c -> same_state m w c preset).
      { unfold same_state in *. unfold keeps in *. destruct (w_on w) eqn:Ew; cbn [negb orb] in *.
        - destruct (num_read m) eqn:En.
          + rewrite H1, H2 by reflexivity. split; [ reflexivity | ]. intros c Hc _. apply (update_keeps m v (psi * nmp)); [ unfold keeps; rewrite En; reflexivity | exact Hc ].
          + split; [ apply update_indep; unfold keeps; rewrite En; reflexivity | discriminate ].
        - rewrite H1, H2 by reflexivity. split; [ reflexivity | congruence ]. }
      destruct Hu as [-> Hu]. destruct (if w_on w then update_parameters dbl m v (psi * nmp) cur2 else Ok cur2) as [c| | |]; cbn [obind]; try exact I.
      destruct (solve chn c); cbn [obind]; try exact I. repeat split; try (apply Hu; reflexivity). rewrite Ho, app_assoc. reflexivity. }
    destruct (chan_step m w v nmp chn (Ok (cur1, out1)) psi) as [[c1 o1]| | |], (chan_step m w v nmp chn (Ok (cur2, out2)) psi) as [[c2 o2]| | |]; try contradiction;
      [ destruct Hstep as (A & B & C); apply IH; assumption | .. ].
    all: rewrite ?fold_stuck by (intros; reflexivity); exact I. }
  intros cur out H. apply (G l cur out preset [] out H); [ intros _; reflexivity | rewrite app_nil_r; reflexivity ].
Qed.

Definition chan_out (m : potential) (w : walk) (v : list dbl) (nmp : Z) (preset : list dbl) (chn : nat) : outcome (list (nat * Z * result)) :=
  do '(_, o) <- fold_left (chan_step m w v nmp chn) (param_sets w) (Ok (preset, [])); Ok o.

Lemma body_fold m w v nmp chn st : channel_body dbl result solve m w v nmp chn st = fold_left (chan_step m w v nmp chn) (param_sets w) (Ok st).
Proof. reflexivity. Qed.

Lemma loop_gen m w v nmp par idx preset l : forall cur out, same_state m w cur preset ->
  (do '(_, o) <- fold_left (fun r chn => do st <- r; if par && negb (Z.of_nat chn =? idx) then Ok st else channel_body dbl result solve m w v nmp chn st)
     l (Ok (cur, out)); Ok o)
  = do ls <- collect (map (fun c => if par && negb (Z.of_nat c =? idx) then Ok [] else chan_out m w v nmp preset c) l); Ok (out ++ concat ls).
Proof.
  induction l as [|c l IH]; intros cur out H; [ cbn; rewrite app_nil_r; reflexivity | ]. cbn [fold_left map collect obind].
  destruct (par && negb (Z.of_nat c =? idx)) eqn:Ep.
  - cbn [obind]. rewrite (IH cur out H). destruct (collect _); reflexivity.
  - rewrite body_fold. unfold chan_out at 1. pose proof (chan_fold_gen m w v nmp c preset (param_sets w) cur out H) as G.
    destruct (fold_left (chan_step m w v nmp c) (param_sets w) (Ok (cur, out))) as [[c1 o1]| | |];
    destruct (fold_left (chan_step m w v nmp c) (param_sets w) (Ok (preset, []))) as [[c2 o2]| | |]; try contradiction; cbn [obind];
      [ destruct G as [-> G]; rewrite (IH c1 (out ++ o2) G); destruct (collect _); cbn; try reflexivity; rewrite app_assoc; reflexivity | .. ].
    all: rewrite fold_stuck by (intros; reflexivity); reflexivity.
Qed.

Lemma loop_ok m w v nmp par idx N preset :
  (do '(_, o) <- channel_loop dbl result solve m w v nmp par idx N preset; Ok o)
  = do ls <- collect (map (fun c => if par && negb (Z.of_nat c =? idx) then Ok [] else chan_out m w v nmp preset c) (seq 0 N)); Ok (concat ls).
Proof. exact (loop_gen m w v nmp par idx preset (seq 0 N) preset [] (fun _ => eq_refl)). Qed.

Lemma collect_one (f : nat -> outcome (list (nat * Z * result))) N c : (c < N)%nat ->
  (do ls <- collect (map (fun k => if true && negb (Z.of_nat k =? Z.of_nat c) then Ok [] else f k) (seq 0 N)); Ok (concat ls)) = f c.
Proof.
  intros Hc. cbn [andb].
  assert (G : forall a n, (do ls <- collect (map (fun k => if negb (Z.of_nat k =? Z.of_nat c) then Ok [] else f k) (seq a n)); Ok (concat ls)) =
     if (a <=? c)%nat && (c <? a + n)%nat then f c else Ok []).
  { intros a n. revert a. induction n as [|n IH]; intros a; cbn [seq map collect].
    - cbn [obind concat]. replace ((a <=? c)%nat && (c <? a + 0)%nat) with false by (destruct (Nat.leb_spec a c), (Nat.ltb_spec c (a + 0)); cbn; try reflexivity; lia). reflexivity.
    - destruct (Z.eqb_spec (Z.of_nat a) (Z.of_nat c)) as [E|E]; cbn [negb].
      + assert (a = c) as -> by lia. specialize (IH (S c)). replace ((S c <=? c)%nat) with false in IH by (destruct (Nat.leb_spec (S c) c); [ lia | reflexivity ]). cbn [andb] in IH.
        replace ((c <=? c)%nat && (c <? c + S n)%nat) with true by (destruct (Nat.leb_spec c c), (Nat.ltb_spec c (c + S n)); try reflexivity; lia).
        destruct (f c) as [x| | |]; cbn [obind]; try reflexivity. destruct (collect _) as [ls| | |]; cbn [obind] in *; try discriminate.
        injection IH as IH. cbn [concat]. rewrite IH, app_nil_r. reflexivity.
      + cbn [obind]. specialize (IH (S a)).
        replace ((a <=? c)%nat && (c <? a + S n)%nat) with ((S a <=? c)%nat && (c <? S a + n)%nat) by (destruct (Nat.leb_spec a c), (Nat.leb_spec (S a) c), (Nat.ltb_spec c (a + S n)), (Nat.ltb_spec c (S a + n)); try reflexivity; lia).
        rewrite <- IH. destruct (collect _); reflexivity. }
  rewrite G. replace ((0 <=? c)%nat && (c <? 0 + N)%nat) with true by (destruct (Nat.ltb_spec c (0 + N)); [ reflexivity | lia ]). reflexivity.
Qed.
Lemma collect_none (f : nat -> outcome (list (nat * Z * result))) N idx : ~ (0 <= idx < Z.of_nat N) ->
  (do ls <- collect (map (fun k => if true && negb (Z.of_nat k =? idx) then Ok [] else f k) (seq 0 N)); Ok (concat ls)) = Ok [].
Proof.
  intros Hc. cbn [andb]. assert (G : forall l, (forall k, In k l -> Z.of_nat k <> idx) ->
    (do ls <- collect (map (fun k => if negb (Z.of_nat k =? idx) then Ok [] else f k) l); Ok (concat ls)) = Ok []).
  { induction l as [|k l IH]; intros H; [ reflexivity | ]. cbn [map collect]. destruct (Z.eqb_spec (Z.of_nat k) idx) as [E|E]; [ exfalso; apply (H k (or_introl eq_refl) E) | ].
    cbn [negb obind]. specialize (IH (fun k' Hk => H k' (or_intror Hk))). destruct (collect _); cbn [obind] in *; try discriminate. exact IH. }
  apply G. intros k Hk E. apply in_seq in Hk. lia.
Qed.

(* ---------- the whole run ---------- *)
Definition prologue (w : walk) (content : option string) : outcome (list dbl * Z) :=
  if w_on w then do '(v, nmp, num) <- read_parameter_sample_list dbl stod content; do _ <- walk_check (w_start w) (w_stop w) num; Ok (v, nmp) else Ok ([], 0).

Lemma main_eq m w content par idx N preset : main_run dbl stod result solve m w content par idx N preset =
  do '(v, nmp) <- prologue w content;
  do ls <- collect (map (fun c => if par && negb (Z.of_nat c =? idx) then Ok [] else chan_out m w v nmp preset c) (seq 0 N)); Ok (concat ls).
Proof.
  unfold main_run, prologue. destruct (w_on w).
  - destruct (read_parameter_sample_list dbl stod content) as [[[v nmp] num]| | |]; cbn [obind]; try reflexivity.
    destruct (walk_check _ _ _); cbn [obind]; try reflexivity. apply loop_ok.
  - cbn [obind]. apply loop_ok.
Qed.

Lemma parallel_partition m w content N preset :
  let run par idx := main_run dbl stod result solve m w content par idx N preset in
  (forall idx, (1 <= N)%nat -> run false idx = do ls <- collect (map (fun c => run true (Z.of_nat c)) (seq 0 N)); Ok (concat ls)) /\
  (forall c out, (c < N)%nat -> run true (Z.of_nat c) = Ok out -> map fst out = map (fun psi => (c, psi)) (param_sets w)) /\
  (forall idx c out, ~ (0 <= idx < Z.of_nat N) -> (c < N)%nat -> run true (Z.of_nat c) = Ok out -> run true idx = Ok []).
Proof.
  cbn zeta. split; [ | split ].
  - intros idx HN. rewrite main_eq. destruct (prologue w content) as [[v nmp]| | |] eqn:Ep; cbn [obind];
      [ | destruct N; [ lia | ]; cbn [seq map collect]; rewrite (main_eq m w content true), Ep; reflexivity .. ].
    replace (map (fun c => main_run dbl stod result solve m w content true (Z.of_nat c) N preset) (seq 0 N)) with (map (chan_out m w v nmp preset) (seq 0 N)); [ reflexivity | ].
    apply map_ext_in. intros c Hc. apply in_seq in Hc. rewrite main_eq, Ep. cbn [obind]. rewrite (collect_one (chan_out m w v nmp preset)) by lia. reflexivity.
  - intros c out Hc. rewrite main_eq. destruct (prologue w content) as [[v nmp]| | |] eqn:Ep; cbn [obind]; try discriminate.
    rewrite (collect_one (chan_out m w v nmp preset)) by lia. unfold chan_out.
    assert (G : forall l cur o cur' o', fold_left (chan_step m w v nmp c) l (Ok (cur, o)) = Ok (cur', o') -> map fst o' = map fst o ++ map (fun psi => (c, psi)) l).
    { induction l as [|psi l IH]; intros cur o cur' o'; cbn [fold_left map]; [ intros [= <- <-]; rewrite app_nil_r; reflexivity | ].
      unfold chan_step at 2. cbn [obind]. destruct (if w_on w then update_parameters dbl m v (psi * nmp) cur else Ok cur) as [cu| | |]; cbn [obind];
        [ | rewrite fold_stuck by (intros; reflexivity); discriminate .. ].
      destruct (solve c cu) as [r| | |]; cbn [obind]; [ | rewrite fold_stuck by (intros; reflexivity); discriminate .. ].
      intros H. apply IH in H. rewrite H, map_app, <- app_assoc. reflexivity. }
    destruct (fold_left (chan_step m w v nmp c) (param_sets w) (Ok (preset, []))) as [[cu o]| | |] eqn:Ef; cbn [obind]; try discriminate.
    intros [= <-]. apply (G _ _ _ _ _ Ef).
  - intros idx c out Hi Hc. rewrite !main_eq. destruct (prologue w content) as [[v nmp]| | |]; cbn [obind]; try discriminate. intros _.
    apply (collect_none (chan_out m w v nmp preset) N idx Hi).
Qed.

(* ---------- parameter walk ---------- *)
Lemma chan_tasks m w v nmp preset c (P : Z -> list dbl) :
  (forall psi cur, In psi (param_sets w) -> same_state m w cur preset ->
     (if w_on w then update_parameters dbl m v (psi * nmp) cur else Ok cur) = Ok (P psi) /\ same_state m w (P psi) preset) ->
  chan_out m w v nmp preset c = collect (map (fun psi => do r <- solve c (P psi); Ok (c, psi, r)) (param_sets w)).
Proof.
  intros H. unfold chan_out. assert (G : forall l cur o, (forall psi, In psi l -> In psi (param_sets w)) -> same_state m w cur preset ->
    (do '(_, o) <- fold_left (chan_step m w v nmp c) l (Ok (cur, o)); Ok o)
    = do ls <- collect (map (fun psi => do r <- solve c (P psi); Ok (c, psi, r)) l); Ok (o ++ ls)).
  { induction l as [|psi l IH]; intros cur o Hin Hs; [ cbn; rewrite app_nil_r; reflexivity | ]. cbn [fold_left map collect].
    unfold chan_step at 2. cbn [obind]. destruct (H psi cur (Hin psi (or_introl eq_refl)) Hs) as [-> Hs']. cbn [obind].
    destruct (solve c (P psi)) as [r| | |]; cbn [obind]; [ | rewrite fold_stuck by (intros; reflexivity); reflexivity .. ].
    rewrite IH; [ | intros; apply Hin; right; assumption | exact Hs' ]. destruct (collect _); cbn [obind]; try reflexivity. rewrite <- app_assoc. reflexivity. }
  rewrite (G (param_sets w) preset []); [ | auto | intros _; reflexivity ]. destruct (collect _); reflexivity.
Qed.

Lemma collect_concat_map {A} (f : nat -> Z -> outcome A) (l : list nat) (sets : list Z) :
  (do ls <- collect (map (fun c => collect (map (f c) sets)) l); Ok (concat ls))
  = collect (flat_map (fun c => map (f c) sets) l).
Proof.
  induction l as [|c l IH]; [ reflexivity | ]. cbn [map collect flat_map]. rewrite collect_app, <- IH.
  destruct (collect (map (f c) sets)); cbn [obind]; try reflexivity. destruct (collect _); reflexivity.
Qed.

Lemma walk_inside m start stop content rows n N preset :
  parsed_table content rows n -> (num_read m <= n)%nat -> 0 <= start -> stop <= Z.of_nat (length rows) -> Z.of_nat (length rows) <= INT_MAX -> start <= INT_MAX -> INT_MIN <= stop - start ->
  main_run dbl stod result solve m (mkwalk true start stop) (Some content) false 0 N preset
  = collect (map (fun t => do r <- solve (fst t) (match num_read m with O => preset | k => firstn k (nth (Z.to_nat (snd t)) rows []) end); Ok (t, r))
               (tasks (mkwalk true start stop) (seq 0 N))).
Proof.
  intros T Hk H0 H1 Hi Hs Hd. rewrite main_eq. unfold prologue. cbn [w_on w_start w_stop]. rewrite (read_ok _ _ _ T). cbn [obind].
  unfold walk_check. replace ((stop - start <? INT_MIN) || (INT_MAX <? stop - start)) with false
    by (symmetry; apply orb_false_intro; apply Z.ltb_ge; lia).
  replace (Z.of_nat (length rows) <? stop - start) with false by (symmetry; apply Z.ltb_ge; lia). cbn [obind andb].
  rewrite (map_ext_in _ (fun c => collect (map (fun psi => do r <- solve c (match num_read m with O => preset | k => firstn k (nth (Z.to_nat psi) rows []) end); Ok (c, psi, r)) (param_sets (mkwalk true start stop))))).
  - rewrite (collect_concat_map (fun c psi => do r <- solve c (match num_read m with O => preset | k => firstn k (nth (Z.to_nat psi) rows []) end); Ok (c, psi, r))).
    f_equal. unfold tasks. rewrite <- sets_eq. clear. induction (seq 0 N) as [|c l IH]; [ reflexivity | ]. cbn [flat_map]. rewrite map_app, <- IH. f_equal. rewrite map_map. reflexivity.
  - intros c _. apply chan_tasks. intros psi cur Hin Hss. unfold param_sets in Hin. cbn [w_on w_start w_stop] in *. apply in_for_range1 in Hin.
    rewrite (update_ok m content rows n psi cur T Hk) by lia. unfold same_state, keeps in *. cbn [w_on negb orb] in *. destruct (num_read m) eqn:E.
    + rewrite Hss by reflexivity. split; [ reflexivity | auto ].
    + split; [ reflexivity | discriminate ].
Qed.

Lemma walk_outside m start stop content rows n N preset :
  parsed_table content rows n -> (num_read m <= n)%nat -> (1 <= N)%nat -> (forall c p, exists r, solve c p = Ok r) ->
  start < stop -> stop - start <= Z.of_nat (length rows) -> stop - start <= INT_MAX -> start < 0 \/ Z.of_nat (length rows) < stop ->
  main_run dbl stod result solve m (mkwalk true start stop) (Some content) false 0 N preset = UB.
Proof.
  intros T Hk HN Hsol Hlt Hd Hi Hout. rewrite main_eq. unfold prologue. cbn [w_on w_start w_stop]. rewrite (read_ok _ _ _ T). cbn [obind].
  unfold walk_check. replace ((stop - start <? INT_MIN) || (INT_MAX <? stop - start)) with false
    by (symmetry; apply orb_false_intro; apply Z.ltb_ge; unfold INT_MIN in *; lia).
  replace (Z.of_nat (length rows) <? stop - start) with false by (symmetry; apply Z.ltb_ge; lia). cbn [obind andb].
  destruct N as [|N]; [ lia | ]. cbn [seq map collect]. cut (chan_out m (mkwalk true start stop) (concat rows) (Z.of_nat n) preset 0 = UB); [ intros ->; reflexivity | ].
  assert (HUB : forall psi cur, psi < 0 \/ Z.of_nat (length rows) <= psi -> update_parameters dbl m (concat rows) (psi * Z.of_nat n) cur = UB).
  { intros psi cur Hp. unfold update_parameters. rewrite (concat_len _ _ (rows_len _ _ _ T)). pose proof T as (_ & Hn & _).
    replace ((psi * Z.of_nat n <? 0) || (Z.of_nat (length rows * n) <=? psi * Z.of_nat n)) with true; [ reflexivity | ].
    symmetry. apply orb_true_iff. destruct Hp; [ left; apply Z.ltb_lt; nia | right; apply Z.leb_le; nia ]. }
  assert (G : forall l cur o, (exists psi, In psi l /\ (psi < 0 \/ Z.of_nat (length rows) <= psi)) ->
    fold_left (chan_step m (mkwalk true start stop) (concat rows) (Z.of_nat n) 0) l (Ok (cur, o)) = UB).
  { induction l as [|psi l IH]; intros cur o (p & Hin & Hp); [ destruct Hin | ]. cbn [fold_left]. unfold chan_step at 2. cbn [obind w_on].
    assert (Hdec : psi < 0 \/ Z.of_nat (length rows) <= psi \/ 0 <= psi < Z.of_nat (length rows)) by lia.
    destruct Hdec as [H|[H|H]].
    - rewrite HUB by lia. cbn [obind]. apply fold_stuck. reflexivity.
    - rewrite HUB by lia. cbn [obind]. apply fold_stuck. reflexivity.
    - rewrite (update_ok m content rows n psi cur T Hk H). cbn [obind]. destruct (Hsol 0%nat (match num_read m with O => cur | S k => firstn (S k) (nth (Z.to_nat psi) rows []) end)) as (r & ->). cbn [obind].
      apply IH. exists p. split; [ | exact Hp ]. destruct Hin as [->|Hin]; [ lia | exact Hin ]. }
  unfold chan_out. rewrite G; [ reflexivity | ]. unfold param_sets. cbn [w_on w_start w_stop].
  destruct Hout as [H|H]; [ exists start; split; [ apply in_for_range1; lia | lia ] | exists (stop - 1); split; [ apply in_for_range1; lia | lia ] ].
Qed.
(* rows shorter than what the model reads: the numbers run on into the following rows *)
Lemma update_run m content rows n psi cur : parsed_table content rows n -> num_read m <> 0%nat -> 0 <= psi < Z.of_nat (length rows) ->
  update_parameters dbl m (concat rows) (psi * Z.of_nat n) cur =
  if psi * Z.of_nat n + Z.of_nat (num_read m) <=? Z.of_nat (length rows) * Z.of_nat n
  then Ok (firstn (num_read m) (concat (skipn (Z.to_nat psi) rows))) else UB.
Proof.
  intros T Hk Hp. pose proof (rows_len _ _ _ T) as L. pose proof T as (_ & Hn & _). unfold update_parameters. rewrite (concat_len _ _ L).
  replace ((psi * Z.of_nat n <? 0) || (Z.of_nat (length rows * n) <=? psi * Z.of_nat n)) with false
    by (symmetry; apply orb_false_intro; [ apply Z.ltb_ge; nia | apply Z.leb_gt; nia ]).
  destruct (num_read m) as [|k] eqn:E; [ lia | ].
  replace (Z.to_nat (psi * Z.of_nat n)) with (Z.to_nat psi * n)%nat by nia. rewrite skip_concat by exact L.
  replace (Z.of_nat (length rows * n)) with (Z.of_nat (length rows) * Z.of_nat n) by lia.
  destruct (Z.ltb_spec (Z.of_nat (length rows) * Z.of_nat n) (psi * Z.of_nat n + Z.of_nat (S k)));
    destruct (Z.leb_spec (psi * Z.of_nat n + Z.of_nat (S k)) (Z.of_nat (length rows) * Z.of_nat n)); try lia; reflexivity.
Qed.
Lemma walk_run_on m start stop content rows n N preset :
  parsed_table content rows n -> num_read m <> 0%nat -> 0 <= start -> stop <= Z.of_nat (length rows) -> Z.of_nat (length rows) <= INT_MAX -> start <= INT_MAX -> INT_MIN <= stop - start ->
  (stop - 1) * Z.of_nat n + Z.of_nat (num_read m) <= Z.of_nat (length rows) * Z.of_nat n ->
  main_run dbl stod result solve m (mkwalk true start stop) (Some content) false 0 N preset
  = collect (map (fun t => do r <- solve (fst t) (firstn (num_read m) (concat (skipn (Z.to_nat (snd t)) rows))); Ok (t, r))
               (tasks (mkwalk true start stop) (seq 0 N))).
Proof.
  intros T Hk H0 H1 Hi Hs Hd Hr. rewrite main_eq. unfold prologue. cbn [w_on w_start w_stop]. rewrite (read_ok _ _ _ T). cbn [obind].
  unfold walk_check. replace ((stop - start <? INT_MIN) || (INT_MAX <? stop - start)) with false
    by (symmetry; apply orb_false_intro; apply Z.ltb_ge; lia).
  replace (Z.of_nat (length rows) <? stop - start) with false by (symmetry; apply Z.ltb_ge; lia). cbn [obind andb].
  rewrite (map_ext_in _ (fun c => collect (map (fun psi => do r <- solve c (firstn (num_read m) (concat (skipn (Z.to_nat psi) rows))); Ok (c, psi, r)) (param_sets (mkwalk true start stop))))).
  - rewrite (collect_concat_map (fun c psi => do r <- solve c (firstn (num_read m) (concat (skipn (Z.to_nat psi) rows))); Ok (c, psi, r))).
    f_equal. unfold tasks. rewrite <- sets_eq. clear. induction (seq 0 N) as [|c l IH]; [ reflexivity | ]. cbn [flat_map]. rewrite map_app, <- IH. f_equal. rewrite map_map. reflexivity.
  - intros c _. apply chan_tasks. intros psi cur Hin Hss. unfold param_sets in Hin. cbn [w_on w_start w_stop] in *. apply in_for_range1 in Hin.
    rewrite (update_run m content rows n psi cur T Hk) by lia. unfold same_state, keeps in *. cbn [w_on negb orb] in *.
    destruct (Z.leb_spec (psi * Z.of_nat n + Z.of_nat (num_read m)) (Z.of_nat (length rows) * Z.of_nat n)); [ | nia ].
    split; [ reflexivity | ]. destruct (num_read m); [ lia | discriminate ].
Qed.
(* the last row is too short: its numbers are read past the end *)
Lemma walk_short_last m start content rows n N preset :
  parsed_table content rows n -> (n < num_read m)%nat -> (1 <= N)%nat -> (forall c p, exists r, solve c p = Ok r) ->
  0 <= start < Z.of_nat (length rows) -> Z.of_nat (length rows) <= INT_MAX ->
  main_run dbl stod result solve m (mkwalk true start (Z.of_nat (length rows))) (Some content) false 0 N preset = UB.
Proof.
  intros T Hk HN Hsol H0 Hi. set (stop := Z.of_nat (length rows)) in *. rewrite main_eq. unfold prologue. cbn [w_on w_start w_stop]. rewrite (read_ok _ _ _ T). cbn [obind].
  unfold walk_check. replace ((stop - start <? INT_MIN) || (INT_MAX <? stop - start)) with false
    by (symmetry; apply orb_false_intro; apply Z.ltb_ge; unfold INT_MIN in *; lia).
  replace (Z.of_nat (length rows) <? stop - start) with false by (symmetry; apply Z.ltb_ge; lia). cbn [obind andb].
  destruct N as [|N]; [ lia | ]. cbn [seq map collect]. cut (chan_out m (mkwalk true start stop) (concat rows) (Z.of_nat n) preset 0 = UB); [ intros ->; reflexivity | ].
  assert (G : forall l cur o, (forall psi, In psi l -> 0 <= psi < stop) -> In (stop - 1) l ->
    fold_left (chan_step m (mkwalk true start stop) (concat rows) (Z.of_nat n) 0) l (Ok (cur, o)) = UB).
  { induction l as [|psi l IH]; intros cur o Hb Hin; [ destruct Hin | ]. cbn [fold_left]. unfold chan_step at 2. cbn [obind w_on].
    rewrite (update_run m content rows n psi cur T) by (try lia; apply Hb; left; reflexivity).
    destruct (Z.leb_spec (psi * Z.of_nat n + Z.of_nat (num_read m)) (Z.of_nat (length rows) * Z.of_nat n)).
    - cbn [obind]. destruct (Hsol 0%nat (firstn (num_read m) (concat (skipn (Z.to_nat psi) rows)))) as (r & ->). cbn [obind].
      apply IH; [ intros; apply Hb; right; assumption | ]. destruct Hin as [->|Hin]; [ exfalso; subst stop; nia | exact Hin ].
    - cbn [obind]. apply fold_stuck. reflexivity. }
  unfold chan_out. rewrite G; [ reflexivity | | ]; unfold param_sets; cbn [w_on w_start w_stop].
  - intros psi Hp. apply in_for_range1 in Hp. lia.
  - apply in_for_range1. lia.
Qed.
(* no walk: the file is not looked at *)
Lemma no_walk m w content N preset : w_on w = false ->
  main_run dbl stod result solve m w content false 0 N preset
  = collect (map (fun t => do r <- solve (fst t) preset; Ok (t, r)) (map (fun c => (c, 0)) (seq 0 N))).
Proof.
  intros Hw. rewrite main_eq. unfold prologue. rewrite Hw. cbn [obind andb].
  rewrite (map_ext_in _ (fun c => collect (map (fun psi => do r <- solve c preset; Ok (c, psi, r)) [0]))).
  - rewrite (collect_concat_map (fun c psi => do r <- solve c preset; Ok (c, psi, r))). f_equal. rewrite map_map.
    clear. induction (seq 0 N) as [|c l IH]; [ reflexivity | ]. cbn [flat_map map app] in *. rewrite IH. reflexivity.
  - intros c _. rewrite (chan_tasks m w [] 0 preset c (fun _ => preset)).
    + unfold param_sets. rewrite Hw. reflexivity.
    + intros psi cur _ Hss. rewrite Hw. unfold same_state, keeps in *. rewrite Hw in *. cbn [negb orb] in *. rewrite Hss by reflexivity. split; auto.
Qed.
End D.

(* ---------- file names ---------- *)
Open Scope string_scope.
Lemma id_inj_tail Np Nq J P J2 t Np' Nq' J' P' J2' t' c :
  numeral_char c = false ->
  file_identification Np Nq J P J2 ++ String c t = file_identification Np' Nq' J' P' J2' ++ String c t' ->
  (Np, Nq, J, P, J2) = (Np', Nq', J', P', J2') /\ t = t'.
Proof.
  intros Hc. unfold file_identification. rewrite !str_app_assoc. intros H. apply app_inj_l in H. cbn [append] in H.
  apply num_split in H; [ | reflexivity ]. destruct H as [-> H]. injection H as H.
  apply num_split in H; [ | reflexivity ]. destruct H as [-> H]. injection H as H.
  apply num_split in H; [ | reflexivity ]. destruct H as [-> H].
  apply num_split in H; [ | reflexivity ]. destruct H as [-> H]. injection H as H.
  apply num_split in H; [ | exact Hc ]. destruct H as [-> ->]. split; reflexivity.
Qed.
Lemma U_name_inj folder Np Nq J P J2 s Np' Nq' J' P' J2' s' :
  U_file_name folder (file_identification Np Nq J P J2) s = U_file_name folder (file_identification Np' Nq' J' P' J2') s' ->
  (Np, Nq, J, P, J2, s) = (Np', Nq', J', P', J2', s').
Proof.
  unfold U_file_name. intros H. do 3 apply app_inj_l in H. cbn [append] in H. apply id_inj_tail in H; [ | reflexivity ]. destruct H as [H1 H].
  injection H as H. apply num_split in H; [ | reflexivity ]. destruct H as [-> _]. injection H1 as -> -> -> -> ->. reflexivity.
Qed.
Lemma BU_name_inj folder Np Nq J P J2 s Np' Nq' J' P' J2' s' :
  U_BU_file_name folder (file_identification Np Nq J P J2) s = U_BU_file_name folder (file_identification Np' Nq' J' P' J2') s' ->
  (Np, Nq, J, P, J2, s) = (Np', Nq', J', P', J2', s').
Proof.
  unfold U_BU_file_name. intros H. do 3 apply app_inj_l in H. cbn [append] in H. apply id_inj_tail in H; [ | reflexivity ]. destruct H as [H1 H].
  injection H as H. apply num_split in H; [ | reflexivity ]. destruct H as [-> _]. injection H1 as -> -> -> -> ->. reflexivity.
Qed.
Lemma U_BU_differ folder i s i' s' : U_file_name folder i s <> U_BU_file_name folder i' s'.
Proof. unfold U_file_name, U_BU_file_name. intros H. do 2 apply app_inj_l in H. cbn in H. discriminate. Qed.
Lemma sub_name_inj_full folder J P Np Nq J2 t k J' P' Np' Nq' J2' t' k' :
  subarray_file_name folder J P Np Nq J2 t k = subarray_file_name folder J' P' Np' Nq' J2' t' k' ->
  (J, P, Np, Nq, J2, t, k) = (J', P', Np', Nq', J2', t', k').
Proof.
  unfold subarray_file_name. intros H. do 2 apply app_inj_l in H. cbn [append] in H.
  apply num_split in H; [ | reflexivity ]. destruct H as [-> H].
  apply num_split in H; [ | reflexivity ]. destruct H as [-> H]. injection H as H.
  apply num_split in H; [ | reflexivity ]. destruct H as [-> H]. injection H as H.
  apply num_split in H; [ | reflexivity ]. destruct H as [-> H]. injection H as H.
  apply num_split in H; [ | reflexivity ]. destruct H as [-> H]. injection H as H.
  apply num_split in H; [ | reflexivity ]. destruct H as [-> H].
  apply num_split in H; [ | reflexivity ]. destruct H as [-> _]. reflexivity.
Qed.
