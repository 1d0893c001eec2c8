(* The text of the file of Neumann terms. *)
From Coq Require Import Reals String Ascii Psatz.
From Flocq Require Import Core.
From Verif Require Import Common ArrayLib NameModel NameProofs ParamsModel PWModel SwpModel ResolventModel FaddeevModel NeumannModel TextModel TextSpec TextNum TextProofs TextLines TextFileProofs TextFinal.
Open Scope string_scope.
Open Scope list_scope.
Open Scope nat_scope.

Lemma sci_pos_clean p x : clean (sci_pos p x).
Proof. unfold sci_pos. apply clean_app. split; [ unfold plus; destruct (sign_bit x); reflexivity | apply sci_clean ]. Qed.
Lemma read_real_sci_pos p x : finite x -> exists v, read_real (sci_pos p x) = Some v /\ rounded_to p (value x) v.
Proof.
  intros F. destruct (magnitude p x) as [d k] eqn:E. exists (number (sign_bit x) d (k - Z.of_nat p)). split; [ | apply number_rounded; assumption ].
  unfold read_real, sci_pos. rewrite <- (sapp_nil (plus x ++ sci p x)). rewrite (sci_finite p x d k F E).
  destruct (mag_ok p x d k F E) as [Hd Hk].
  replace (plus x ++ minus (sign_bit x) ++ sci_text p d k)%string with ((if sign_bit x then "-" else "+") ++ sci_text p d k)%string
    by (unfold plus; destruct (sign_bit x); reflexivity).
  rewrite (read_sci p d k EmptyString (if sign_bit x then "-" else "+") (sign_bit x)); try assumption; try reflexivity.
  intros t. destruct (sign_bit x); reflexivity.
Qed.
Lemma rounded_fewer p q x v : p <= q -> rounded_to q x v -> rounded_to p x v.
Proof.
  intros Hpq (k & H1 & H2). exists k. split; [ exact H1 | ]. eapply Rle_trans; [ exact H2 | ].
  apply Rmult_le_compat_l; [ lra | ]. apply bpow_le. lia.
Qed.
Lemma shows_real_pos x : finite x -> shows_real (Some (sci_pos 17 x)) x.
Proof.
  intros F. destruct (read_real_sci_pos 17 x F) as (v & H1 & H2). pose proof (rounded_fewer 16 17 _ _ ltac:(lia) H2) as H3.
  exists (sci_pos 17 x), v. split; [ reflexivity | ]. split; [ exact H1 | ]. split; [ exact H3 | ]. apply rounded_identifies; assumption.
Qed.

(* ---------- the comments ---------- *)
Lemma comments_ok (s : fsys) : length (s_d s) = s_nd s -> length (s_q s) = s_nq s -> exists com, comment_array s = Ok com /\ length com = s_nd s * s_nd s * s_nq s /\
  forall dr dc k, dr < s_nd s -> dc < s_nd s -> k < s_nq s ->
    nth_error com (dr * s_nd s * s_nq s + dc * s_nq s + k) = Some (index_comment (nth dr (s_d s) 0) (nth dc (s_d s) 0) (nth k (s_q s) 0)).
Proof.
  intros Ld Lq. set (N := s_nd s * s_nd s * s_nq s).
  set (l := flat_map (fun dr => flat_map (fun dc => map (fun k => (dr, dc, k)) (seq 0 (s_nq s))) (seq 0 (s_nd s))) (seq 0 (s_nd s))).
  assert (Hin : forall i, In i l <-> fst (fst i) < s_nd s /\ snd (fst i) < s_nd s /\ snd i < s_nq s).
  { intros [[a b] k]. unfold l. rewrite in_flat_map. cbn [fst snd]. split.
    - intros (x & Hx & H). apply in_flat_map in H. destruct H as (y & Hy & H). apply in_map_iff in H. destruct H as (z & E & Hz).
      apply in_seq in Hx, Hy, Hz. assert (a = x /\ b = y /\ k = z) as (-> & -> & ->) by (repeat split; congruence). lia.
    - intros (H1 & H2 & H3). exists a. split; [ apply in_seq; lia | ]. apply in_flat_map. exists b. split; [ apply in_seq; lia | ].
      apply in_map_iff. exists k. split; [ reflexivity | apply in_seq; lia ]. }
  set (addr := fun i : nat * nat * nat => fst (fst i) * s_nd s * s_nq s + snd (fst i) * s_nq s + snd i).
  set (val := fun i : nat * nat * nat => index_comment (nth (fst (fst i)) (s_d s) 0) (nth (snd (fst i)) (s_d s) 0) (nth (snd i) (s_q s) 0)).
  assert (Haddr : forall i, In i l -> addr i < N).
  { intros i Hi. apply Hin in Hi. destruct Hi as (H1 & H2 & H3). unfold addr, N.
    pose proof (rm_lt (s_nd s) (s_nd s) _ _ H1 H2) as A. pose proof (rm_lt _ (s_nq s) _ _ A H3). nia. }
  destruct (scatter addr val l (repeat EmptyString N)) as (com & E & L & W & _).
  { intros i Hi. rewrite repeat_length. apply Haddr, Hi. }
  { intros i j Hi Hj H. f_equal. apply Hin in Hi, Hj. destruct i as [[a b] k], j as [[a' b'] k']. cbn [fst snd] in *. unfold addr in H. cbn [fst snd] in H.
    assert (H' : (a * s_nd s + b) * s_nq s + k = (a' * s_nd s + b') * s_nq s + k') by nia.
    apply rm_inj in H'; [ | lia | lia ]. destruct H' as [H1 ->]. apply rm_inj in H1; [ | lia | lia ]. destruct H1 as [-> ->]. reflexivity. }
  exists com. split; [ | split ].
  - unfold comment_array. fold l N. rewrite <- E. apply ofold_ext. intros [[a b] k] st Hi. apply Hin in Hi. cbn [fst snd] in Hi. destruct Hi as (H1 & H2 & H3).
    rewrite (aread_some (s_d s) a (nth a (s_d s) 0)) by (apply nth_error_nth'; lia).
    rewrite (aread_some (s_d s) b (nth b (s_d s) 0)) by (apply nth_error_nth'; lia).
    rewrite (aread_some (s_q s) k (nth k (s_q s) 0)) by (apply nth_error_nth'; lia). reflexivity.
  - rewrite L. apply repeat_length.
  - intros dr dc k H1 H2 H3. exact (W (dr, dc, k) (proj2 (Hin (dr, dc, k)) (conj H1 (conj H2 H3)))).
Qed.

Section Text.
Variables (re im : cdouble -> double).
Notation put := (put_text).
(* ---------- a line ---------- *)
Lemma fields_sep a c r : clean a -> a <> EmptyString -> isspace c = true -> fields (a ++ String c r) = a :: fields r.
Proof. intros H1 H2 H3. rewrite fields_word by assumption. f_equal. cbn [fields]. rewrite H3. reflexivity. Qed.
Lemma sci_pos_cons p x : exists c r, sci_pos p x = String c r /\ (c = "+" \/ c = "-")%char.
Proof.
  unfold sci_pos, plus. destruct (sign_bit x) eqn:E; [ | eexists; eexists; split; [ reflexivity | left; reflexivity ] ].
  destruct x as [sg|sg|sg|sg m e]; cbn [sign_bit] in E; subst sg; cbn [sci minus append]; try (eexists; eexists; split; [ reflexivity | right; reflexivity ]).
  destruct (decimal p (numer m e) (denom e)). cbn [append]. eexists; eexists; split; [ reflexivity | right; reflexivity ].
Qed.
Lemma zstr_clean n : clean (zstr n). Proof. apply to_string_clean. Qed.
Definition row_fields (x : cdouble) (a' a q : nat) : list string :=
  [sci_pos 17 (re x); sci_pos 17 (im x); "#"; ("alpha'-idx=" ++ zstr a')%string; ("alpha-idx=" ++ zstr a)%string; ("q-idx=" ++ zstr q)%string].
Lemma number_fields x a' a q : fields (number_line re im x (index_comment a' a q)) = row_fields x a' a q.
Proof.
  unfold number_line, index_comment, row_fields, TAB.
  destruct (sci_pos_cons 17 (re x)) as (c1 & r1 & E1 & _). destruct (sci_pos_cons 17 (im x)) as (c2 & r2 & E2 & _).
  cbn [append]. rewrite (fields_sep (sci_pos 17 (re x))) by (apply sci_pos_clean || (rewrite E1; discriminate) || reflexivity). f_equal.
  rewrite (fields_sep (sci_pos 17 (im x))) by (apply sci_pos_clean || (rewrite E2; discriminate) || reflexivity). f_equal.
  set (t1 := ("alpha'-idx=" ++ zstr a')%string). set (t2 := ("alpha-idx=" ++ zstr a)%string). set (t3 := ("q-idx=" ++ zstr q)%string).
  assert (C : clean t1 /\ clean t2 /\ clean t3) by (unfold t1, t2, t3; repeat split; apply clean_app; (split; [ reflexivity | apply zstr_clean ])).
  destruct C as (C1 & C2 & C3).
  transitivity ("#" :: fields (String " " (t1 ++ String "009" (String " " (t2 ++ String "009" (String " " t3)))))%string).
  { unfold t1, t2, t3. rewrite ?sapp_assoc. reflexivity. }
  f_equal. cbn [fields]. change (isspace " ") with true. cbn iota.
  rewrite fields_sep by (exact C1 || discriminate || reflexivity). f_equal.
  cbn [fields]. change (isspace " ") with true. cbn iota.
  rewrite fields_sep by (exact C2 || discriminate || reflexivity). f_equal.
  cbn [fields]. change (isspace " ") with true. cbn iota.
  rewrite <- (sapp_nil t3) at 1. rewrite fields_word by (exact C3 || discriminate || exact I). reflexivity.
Qed.
Lemma number_comment x c : TextSpec.comment (number_line re im x c) = false.
Proof. unfold number_line. destruct (sci_pos_cons 17 (re x)) as (c1 & r1 & E1 & [->| ->]); rewrite E1; reflexivity. Qed.
Lemma number_oneline x a' a q : oneline (number_line re im x (index_comment a' a q)).
Proof.
  unfold number_line, index_comment.
  assert (Z : forall n, oneline (zstr n)) by (intros; apply clean_oneline, zstr_clean). assert (P : forall v, oneline (sci_pos 17 v)) by (intros; apply clean_oneline, sci_pos_clean).
  assert (T : oneline TAB) by reflexivity.
  repeat match goal with |- oneline (_ ++ _)%string => apply oneline_app; split end; solve [ apply Z | apply P | exact T | reflexivity ].
Qed.

(* ---------- the file ---------- *)
Lemma cat_app a b : cat (a ++ b) = (cat a ++ cat b)%string.
Proof. unfold cat. induction a as [|x a IH]; [ reflexivity | ]. cbn [app fold_right]. rewrite IH, sapp_assoc. reflexivity. Qed.
Lemma unlines_app a b : unlines (a ++ b) = (unlines a ++ unlines b)%string.
Proof. unfold unlines. rewrite map_app, cat_app. reflexivity. Qed.
Definition block_lines (com : list string) (b : nat * list cdouble) : list string :=
  ("# " ++ "n = " ++ zstr (fst b))%string :: map (fun vc => number_line re im (fst vc) (snd vc)) (combine (snd b) com) ++ [""].
Lemma put_other rw name text fs f : f <> name -> put rw name text fs f = fs f.
Proof. intros H. unfold put_text. destruct (String.eqb_spec f name); [ contradiction | reflexivity ]. Qed.
Lemma append_blocks name com bl : forall fs t, fs name = Some t ->
  fold_left (fun fs b => put false name (block_text re im com b) fs) bl fs name = Some (t ++ unlines (flat_map (block_lines com) bl))%string /\
  forall f, f <> name -> fold_left (fun fs b => put false name (block_text re im com b) fs) bl fs f = fs f.
Proof.
  induction bl as [|b bl IH]; intros fs t Ht.
  - cbn [fold_left flat_map]. split; [ | reflexivity ]. unfold unlines, cat. cbn. rewrite sapp_nil. exact Ht.
  - cbn [fold_left flat_map]. destruct (IH (put false name (block_text re im com b) fs) (t ++ block_text re im com b)%string) as [H1 H2].
    + unfold put_text. rewrite String.eqb_refl, Ht. reflexivity.
    + split.
      * rewrite H1, unlines_app, sapp_assoc. reflexivity.
      * intros f Hf. rewrite H2 by exact Hf. apply put_other, Hf.
Qed.
Lemma put_blocks_ok name com bl fs : bl <> [] ->
  put_blocks re im name com bl fs name = Some (unlines (flat_map (block_lines com) bl)) /\ forall f, f <> name -> put_blocks re im name com bl fs f = fs f.
Proof.
  destruct bl as [|b bl]; [ congruence | intros _ ]. unfold put_blocks. cbn [flat_map].
  destruct (append_blocks name com bl (put true name (block_text re im com b) fs) (block_text re im com b)) as [H1 H2].
  - unfold put_text. rewrite String.eqb_refl. reflexivity.
  - split; [ rewrite H1, unlines_app; reflexivity | ]. intros f Hf. rewrite H2 by exact Hf. apply put_other, Hf.
Qed.
End Text.

Lemma flat_len {X Y} (f : X -> list Y) n l : (forall x, In x l -> length (f x) = n) -> length (flat_map f l) = length l * n.
Proof. induction l as [|x l IH]; intros H; [ reflexivity | ]. cbn [flat_map length]. rewrite app_length, (H x (or_introl eq_refl)), IH by (intros; apply H; now right). reflexivity. Qed.
Lemma flat_nth {X Y} (f : X -> list Y) n l j x i : (forall x, In x l -> length (f x) = n) -> nth_error l j = Some x -> i < n ->
  nth_error (flat_map f l) (j * n + i) = nth_error (f x) i.
Proof.
  revert j. induction l as [|y l IH]; intros j H Hj Hi; [ destruct j; discriminate | ]. cbn [flat_map]. destruct j as [|j].
  - cbn in Hj. injection Hj as ->. cbn [Nat.mul Nat.add]. apply nth_error_app1. rewrite (H x (or_introl eq_refl)). exact Hi.
  - cbn [nth_error] in Hj. pose proof (H y (or_introl eq_refl)) as Hy. rewrite nth_error_app2 by (rewrite Hy; nia). rewrite Hy.
    replace (S j * n + i - n) with (j * n + i) by nia. apply IH; [ intros; apply H; now right | exact Hj | exact Hi ].
Qed.
Lemma filter_none {X} (f : X -> bool) l : (forall x, In x l -> f x = false) -> filter f l = [].
Proof. induction l as [|x l IH]; intros H; [ reflexivity | ]. cbn. rewrite (H x (or_introl eq_refl)). apply IH. intros; apply H; now right. Qed.
Lemma filter_flat {X Y} (p : Y -> bool) (f g : X -> list Y) l : (forall x, In x l -> filter p (f x) = g x) -> filter p (flat_map f l) = flat_map g l.
Proof. induction l as [|x l IH]; intros H; [ reflexivity | ]. cbn [flat_map]. rewrite filter_app, (H x (or_introl eq_refl)), IH by (intros; apply H; now right). reflexivity. Qed.
Lemma map_flat {X Y Z} (p : Y -> Z) (f : X -> list Y) l : map p (flat_map f l) = flat_map (fun x => map p (f x)) l.
Proof. induction l as [|x l IH]; [ reflexivity | ]. cbn [flat_map]. rewrite map_app, IH. reflexivity. Qed.

Section File.
Variables (re im : cdouble -> double) (s : fsys) (com : list string).
Hypotheses (Ld : length (s_d s) = s_nd s) (Lq : length (s_q s) = s_nq s) (Hcom : comment_array s = Ok com).
Notation nE := (s_nd s * s_nd s * s_nq s).
Lemma com_in c : In c com -> exists a' a q, c = index_comment a' a q.
Proof.
  destruct (comments_ok s Ld Lq) as (com' & E & L & H). assert (com' = com) by congruence. subst com'. intros Hc.
  apply In_nth_error in Hc. destruct Hc as [i Hi]. assert (Hlt : i < nE) by (rewrite <- L; apply nth_error_Some; congruence).
  destruct (rm_surj _ _ i Hlt) as (x & k & H1 & H2 & ->). destruct (rm_surj _ _ x H1) as (dr & dc & H3 & H4 & ->).
  specialize (H dr dc k H3 H4 H2). rewrite <- Nat.mul_add_distr_r in H. rewrite H in Hi. injection Hi as <-. eauto.
Qed.
Definition cells (b : nat * list cdouble) : list string := map (fun vc => number_line re im (fst vc) (snd vc)) (combine (snd b) com).
Lemma cell_in b l : In l (cells b) -> exists x a' a q, l = number_line re im x (index_comment a' a q).
Proof.
  intros H. apply in_map_iff in H. destruct H as ([x c] & <- & H). apply in_combine_r in H. destruct (com_in c H) as (a' & a & q & ->).
  exists x, a', a, q. reflexivity.
Qed.
Lemma block_one b : block_lines re im com b = ("# " ++ "n = " ++ zstr (fst b))%string :: cells b ++ [""].
Proof. reflexivity. Qed.
Lemma all_oneline bl l : In l (flat_map (block_lines re im com) bl) -> oneline l.
Proof.
  intros H. apply in_flat_map in H. destruct H as (b & _ & H). rewrite block_one in H. cbn [In] in H. rewrite in_app_iff in H.
  destruct H as [<-|[H|[<-|[]]]].
  - repeat (apply oneline_app; split); try reflexivity. apply clean_oneline, zstr_clean.
  - destruct (cell_in b l H) as (x & a' & a & q & ->). apply number_oneline.
  - reflexivity.
Qed.
Lemma file_labels bl : filter TextSpec.comment (lines (unlines (flat_map (block_lines re im com) bl))) = map (fun b => ("# n = " ++ zstr (fst b))%string) bl.
Proof.
  rewrite lines_unlines by apply all_oneline. rewrite (filter_flat _ _ (fun b => [("# n = " ++ zstr (fst b))%string])).
  - induction bl as [|b bl IH]; [ reflexivity | ]. cbn [flat_map map app]. rewrite IH. reflexivity.
  - intros b _. rewrite block_one. cbn [filter]. change (TextSpec.comment ("# " ++ "n = " ++ zstr (fst b))) with true. cbn iota. rewrite filter_app.
    cbn [filter TextSpec.comment]. rewrite filter_none; [ reflexivity | ]. intros l Hl. destruct (cell_in b l Hl) as (x & a' & a & q & ->). apply number_comment.
Qed.
Lemma file_table bl : table (unlines (flat_map (block_lines re im com) bl)) = flat_map (fun b => map fields (cells b)) bl.
Proof.
  unfold table. rewrite lines_unlines by apply all_oneline. rewrite (filter_flat _ _ (fun b => cells b ++ [""])).
  - rewrite map_flat. apply filter_flat. intros b _. rewrite map_app, filter_app. cbn [map fields filter]. rewrite app_nil_r.
    apply filter_keep. intros x Hx. apply in_map_iff in Hx. destruct Hx as (l & <- & Hl). destruct (cell_in b l Hl) as (v & a' & a & q & ->). rewrite number_fields. reflexivity.
  - intros b _. rewrite block_one. cbn [filter]. change (TextSpec.comment ("# " ++ "n = " ++ zstr (fst b))) with true. cbn [negb]. rewrite filter_app. cbn [filter TextSpec.comment negb].
    f_equal. apply filter_keep. intros l Hl. destruct (cell_in b l Hl) as (x & a' & a & q & ->). rewrite number_comment. reflexivity.
Qed.
Lemma rows_len bl : (forall b, In b bl -> length (snd b) = nE) -> length (flat_map (fun b => map fields (cells b)) bl) = length bl * nE.
Proof.
  intros H. apply flat_len. intros b Hb. unfold cells. rewrite !map_length, combine_length, (H b Hb).
  destruct (comments_ok s Ld Lq) as (com' & E & L & _). assert (com' = com) by congruence. subst com'. rewrite L. apply Nat.min_id.
Qed.
Lemma cell_nth bl j b dr dc k : (forall b, In b bl -> length (snd b) = nE) -> nth_error bl j = Some b -> dr < s_nd s -> dc < s_nd s -> k < s_nq s ->
  nth_error (flat_map (fun b => map fields (cells b)) bl) (j * nE + (dr * s_nd s * s_nq s + dc * s_nq s + k)) =
  Some (row_fields re im (nth (dr * s_nd s * s_nq s + dc * s_nq s + k) (snd b) c0) (nth dr (s_d s) 0) (nth dc (s_d s) 0) (nth k (s_q s) 0)).
Proof.
  intros H Hj H1 H2 H3. destruct (comments_ok s Ld Lq) as (com' & E & L & W). assert (com' = com) by congruence. subst com'.
  set (i := dr * s_nd s * s_nq s + dc * s_nq s + k).
  assert (Hi : i < nE). { unfold i. pose proof (rm_lt (s_nd s) (s_nd s) _ _ H1 H2) as A. pose proof (rm_lt _ (s_nq s) _ _ A H3). nia. }
  pose proof (H b (nth_error_In _ _ Hj)) as Lb.
  rewrite (flat_nth _ nE bl j b i).
  - unfold cells. rewrite map_map. erewrite map_nth_error.
    2:{ instantiate (1 := (nth i (snd b) c0, index_comment (nth dr (s_d s) 0) (nth dc (s_d s) 0) (nth k (s_q s) 0))).
        assert (G : forall (u : list cdouble) (v : list string) n x y, nth_error u n = Some x -> nth_error v n = Some y -> nth_error (combine u v) n = Some (x, y)).
        { induction u as [|u0 u IH]; intros [|v0 v] [|n] x y A B; cbn in *; try discriminate; [ congruence | apply IH; assumption ]. }
        apply G; [ apply nth_error_nth'; lia | apply W; assumption ]. }
    cbn [fst snd]. rewrite number_fields. reflexivity.
  - intros b' Hb'. unfold cells. rewrite !map_length, combine_length, (H b' Hb'), L. apply Nat.min_id.
  - exact Hj.
  - exact Hi.
Qed.
End File.
