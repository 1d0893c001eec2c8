(* The result files as tables. *)
From Coq Require Import String Ascii Reals Psatz.
From Verif Require Import Common ArrayLib NameModel NameProofs ParamsModel PWModel SwpModel OutputModel OutputSpec OutputProofs TextModel TextSpec TextNum TextProofs TextLines.
Open Scope string_scope.
Open Scope list_scope.
Open Scope nat_scope.

Lemma table_app_comments pre L : (forall l, In l pre -> comment l = true) -> 
  filter (fun l => negb (comment l)) (pre ++ L) = filter (fun l => negb (comment l)) L.
Proof.
  induction pre as [|c pre IH]; intros H; [ reflexivity | ]. cbn [app filter]. rewrite (H c (or_introl eq_refl)). cbn [negb]. apply IH. intros; apply H; now right.
Qed.
Lemma filter_keep {X} (f : X -> bool) l : (forall x, In x l -> f x = true) -> filter f l = l.
Proof. induction l as [|x l IH]; intros H; [ reflexivity | ]. cbn. rewrite (H x (or_introl eq_refl)), IH by (intros; apply H; now right). reflexivity. Qed.
(* data lines begin with a blank *)
Lemma data_line_comment s : comment (String " " s) = false. Proof. reflexivity. Qed.
Lemma data_line_fields s : fields (String " " s) = fields s. Proof. reflexivity. Qed.

Definition row_ok (L : list (nat * string)) : Prop := Forall cell_ok L /\ L <> [].
Definition row_line (L : list (nat * string)) : string := (" " ++ cells_text L)%string.
Lemma row_line_fields L : row_ok L -> fields (row_line L) = map snd L /\ oneline (row_line L) /\ map snd L <> [].
Proof.
  intros [H N]. destruct (cells_fields L H) as [A _]. split; [ | split ].
  - unfold row_line. cbn [append]. rewrite data_line_fields. exact A.
  - unfold row_line. apply oneline_app. split; [ reflexivity | apply cells_oneline, H ].
  - destruct L; [ congruence | discriminate ].
Qed.
(* a file of comments, rows, comments, rows and a closing rule *)
Lemma table_two pre rows1 mid rows2 post : (forall l, In l (pre ++ mid ++ post) -> comment l = true /\ oneline l) ->
  (forall L, In L (rows1 ++ rows2) -> row_ok L) ->
  table (unlines (pre ++ map row_line rows1 ++ mid ++ map row_line rows2 ++ post ++ [""])) = map (map snd) (rows1 ++ rows2).
Proof.
  intros HC HR. unfold table. rewrite lines_unlines.
  2:{ intros l Hl. rewrite !in_app_iff, !in_map_iff in Hl. destruct Hl as [Hl|[(L & <- & Hl)|[Hl|[(L & <- & Hl)|[Hl|[<-|[]]]]]]];
      try (apply HC; rewrite !in_app_iff; tauto); [ apply row_line_fields, HR; rewrite in_app_iff; tauto.. | reflexivity ]. }
  rewrite table_app_comments by (intros l Hl; apply HC; rewrite !in_app_iff; tauto).
  rewrite filter_app, table_app_comments by (intros l Hl; apply HC; rewrite !in_app_iff; tauto).
  rewrite filter_app, table_app_comments by (intros l Hl; apply HC; rewrite !in_app_iff; tauto).
  rewrite !filter_keep with (l := map row_line _) by (intros x Hx; apply in_map_iff in Hx; destruct Hx as (L & <- & _); reflexivity).
  cbn [filter comment negb].
  rewrite !map_app, !map_map. rewrite app_assoc. rewrite <- (map_app (fun x => fields (row_line x))). rewrite filter_app. cbn [map fields filter]. rewrite app_nil_r.
  rewrite (map_ext_in (fun x => fields (row_line x)) (map snd)) by (intros L HL; apply row_line_fields, HR, HL).
  rewrite filter_keep. { rewrite map_app. reflexivity. }
  intros x Hx. apply in_map_iff in Hx. destruct Hx as (L & <- & HL). destruct (row_line_fields L (HR L HL)) as (_ & _ & N). destruct (map snd L); [ congruence | reflexivity ].
Qed.

Section Elastic.
Variable V : Type.
Variables re im : V -> double.

Definition t1_cells (l : t1_line) : list (nat * string) :=
  map (fun s => (10, s)) [t1_name l; str_of_nat (t1_row l); str_of_nat (t1_col l); to_string (t1_lp l); to_string (t1_jp l); to_string (t1_l l); to_string (t1_j l)].
Definition t2_cells (l : t2_line V) : list (nat * string) :=
  (24, sci 16 (re (t2_T V l))) :: (24, sci 16 (re (t2_E V l))) :: (10, str_of_nat (t2_q V l)) :: map (fun u => (50, complex_text (re u) (im u))) (t2_U V l).
Lemma t1_text_row l : t1_text l = row_line (t1_cells l).
Proof. reflexivity. Qed.
Lemma t2_text_row l : t2_text V re im l = row_line (t2_cells l).
Proof. unfold t2_text, row_line, t2_cells, cells_text. cbn [map cat fold_right fst snd]. rewrite map_map. reflexivity. Qed.

Definition t1_fits (l : t1_line) : Prop :=
  clean (t1_name l) /\ 0 < String.length (t1_name l) < 10 /\ t1_row l < 10 ^ 8 /\ t1_col l < 10 ^ 8 /\
  Forall (fun z => (- 10 ^ 8 < z < 10 ^ 8)%Z) [t1_lp l; t1_jp l; t1_l l; t1_j l].
Definition unsigned (x : double) : Prop := finite x /\ sign_bit x = false.
Definition t2_fits (l : t2_line V) : Prop :=
  unsigned (re (t2_T V l)) /\ unsigned (re (t2_E V l)) /\ (Z.of_nat (t2_q V l) < 10 ^ 8)%Z /\ Forall (fun u => plain (re u) /\ plain (im u)) (t2_U V l).

Lemma nonempty s : 0 < String.length s -> s <> EmptyString.
Proof. destruct s; cbn; [ lia | discriminate ]. Qed.
Lemma int_cell z : (- 10 ^ 8 < z < 10 ^ 8)%Z -> cell_ok (10, to_string z).
Proof.
  intros H. pose proof (to_string_length z 8 H ltac:(lia)) as L. unfold cell_ok. cbn [fst snd].
  split; [ apply to_string_clean | ]. split; [ apply nonempty; lia | ]. destruct (z <? 0)%Z; lia.
Qed.
Lemma real_cell x : unsigned x -> cell_ok (24, sci 16 x).
Proof.
  intros [F S]. pose proof (sci_length 16 x F) as L. rewrite S in L. unfold cell_ok. cbn [fst snd].
  split; [ apply sci_clean | ]. split; [ apply nonempty; lia | lia ].
Qed.
Lemma complex_cell a b : plain a -> plain b -> cell_ok (50, complex_text a b).
Proof.
  intros A B. pose proof (complex_length a b A B). unfold cell_ok. cbn [fst snd].
  split; [ apply complex_clean | ]. split; [ apply nonempty; lia | lia ].
Qed.
Lemma t1_row_ok l : t1_fits l -> row_ok (t1_cells l).
Proof.
  intros (N1 & N2 & R & C & Q). split; [ | discriminate ]. unfold t1_cells. cbn [map].
  assert (P8 : (10 ^ 8 = Z.of_nat (10 ^ 8))%Z) by (rewrite Nat2Z.inj_pow; reflexivity).
  rewrite !Forall_cons_iff in Q. destruct Q as (Q1 & Q2 & Q3 & Q4 & _).
  constructor. { unfold cell_ok. cbn [fst snd]. split; [ exact N1 | ]. split; [ apply nonempty; lia | lia ]. }
  repeat (constructor; [ unfold str_of_nat; apply int_cell; lia | ]). constructor.
Qed.
Lemma t2_row_ok l : t2_fits l -> row_ok (t2_cells l).
Proof.
  intros (T & E & Q & U). split; [ | discriminate ]. unfold t2_cells.
  constructor; [ apply real_cell, T | ]. constructor; [ apply real_cell, E | ]. constructor; [ unfold str_of_nat; apply int_cell; lia | ].
  rewrite Forall_map. eapply Forall_impl; [ | exact U ]. intros u [A B]. apply complex_cell; assumption.
Qed.

Lemma comments_ok (twoJ P : Z) model (Np Nq : Z) Eb l : oneline model -> oneline Eb ->
  In l (elastic_comments twoJ P model Np Nq Eb ++ breakup_comments twoJ P model Np Nq Eb) -> comment l = true /\ oneline l.
Proof.
  intros HM HE Hl. assert (PS : oneline (parity_sign P)) by (unfold parity_sign; destruct (P =? 1)%Z; reflexivity).
  assert (TS : forall z, oneline (to_string z)) by (intros; apply clean_oneline, to_string_clean).
  assert (K : Forall (fun l => comment l = true /\ oneline l) (elastic_comments twoJ P model Np Nq Eb ++ breakup_comments twoJ P model Np Nq Eb)).
  { unfold elastic_comments, breakup_comments, rule. cbn [app].
    repeat (apply Forall_cons; [ split; [ reflexivity | first [ reflexivity | repeat (apply oneline_app; split); first [ reflexivity | apply TS | exact HM | exact HE | exact PS ] ] ] | ]).
    apply Forall_nil. }
  rewrite Forall_forall in K. apply K, Hl.
Qed.

Theorem elastic_table (twoJ P : Z) model (Np Nq : Z) Eb t1 t2 : oneline model -> oneline Eb ->
  Forall t1_fits t1 -> Forall t2_fits t2 ->
  table (elastic_file V re im twoJ P model Np Nq Eb t1 headers2 t2) = map (fun l => map snd (t1_cells l)) t1 ++ map (fun l => map snd (t2_cells l)) t2.
Proof.
  intros HM HE H1 H2. unfold elastic_file.
  replace (elastic_comments twoJ P model Np Nq Eb ++ [header1_line] ++ map t1_text t1 ++ [rule] ++ [header2_line headers2] ++ map (t2_text V re im) t2 ++ [rule; ""])
    with ((elastic_comments twoJ P model Np Nq Eb ++ [header1_line]) ++ map row_line (map t1_cells t1) ++ ([rule] ++ [header2_line headers2]) ++ map row_line (map t2_cells t2) ++ [rule] ++ [""]).
  2:{ assert (E1 : map row_line (map t1_cells t1) = map t1_text t1) by (rewrite map_map; reflexivity).
      assert (E2 : map row_line (map t2_cells t2) = map (t2_text V re im) t2) by (rewrite map_map; apply map_ext; intros l; symmetry; apply t2_text_row).
      rewrite E1, E2, <- !app_assoc. reflexivity. }
  rewrite table_two.
  - rewrite map_app, !map_map. reflexivity.
  - intros l Hl. rewrite !in_app_iff in Hl. cbn [In] in Hl.
    destruct Hl as [[Hl|[<-|[]]]|[[[<-|[]]|[<-|[]]]|[<-|[]]]]; try (split; reflexivity).
    apply (comments_ok twoJ P model Np Nq Eb l HM HE). rewrite in_app_iff. now left.
  - intros L HL. rewrite in_app_iff, !in_map_iff in HL. rewrite Forall_forall in H1, H2. destruct HL as [(l & <- & Hl)|(l & <- & Hl)].
    + apply t1_row_ok, H1, Hl.
    + apply t2_row_ok, H2, Hl.
Qed.

(* ---------- breakup ---------- *)
Definition known_kind (h : string * string) : Prop := fst h = "real" \/ fst h = "comp".
Definition bu_cell2 (h : string * string) (v : V) : nat * string :=
  if String.eqb (fst h) "real" then (24, sci 16 (re v)) else (50, complex_text (re v) (im v)).
Lemma bu_cell_eq h v : known_kind h -> bu_cell V re im (fst h) v = setw (fst (bu_cell2 h v)) (snd (bu_cell2 h v)).
Proof. unfold bu_cell, bu_cell2. intros [-> | ->]; reflexivity. Qed.
Definition bu_fits (h : string * string) (v : V) : Prop :=
  (fst h = "real" -> unsigned (re v)) /\ (fst h = "comp" -> plain (re v) /\ plain (im v)).
Lemma bu_cell_ok h v : known_kind h -> bu_fits h v -> cell_ok (bu_cell2 h v).
Proof.
  unfold bu_fits, bu_cell2. intros [K|K] [F1 F2]; rewrite K; cbn [String.eqb].
  - apply real_cell, F1, K.
  - apply complex_cell; apply F2, K.
Qed.
Lemma cat_snoc l s : cat (l ++ [s]) = (cat l ++ s)%string.
Proof. rewrite cat_app. cbn [cat fold_right]. rewrite sapp_nil. reflexivity. Qed.

Lemma header_line_ok h : Forall known_kind h -> (forall x, In x h -> oneline (snd x)) -> exists s, bu_header_line h = Ok s /\ comment s = true /\ oneline s.
Proof.
  intros HK HO. unfold bu_header_line.
  destruct (ofold_inv (fun _ (s : string) => oneline s) (fun acc c => do w <- bu_width (fst c); Ok (acc ++ setw w (snd c))%string) h EmptyString) as (s & -> & Hs).
  - reflexivity.
  - intros d x r acc -> Hacc. rewrite Forall_forall in HK. assert (Hi : In x (d ++ x :: r)) by (rewrite in_app_iff; right; now left).
    assert (Hw : exists w, bu_width (fst x) = Ok w) by (unfold bu_width; destruct (HK x Hi) as [-> | ->]; eexists; reflexivity).
    destruct Hw as [w ->]. cbn [obind]. eexists. split; [ reflexivity | ]. apply oneline_app. split; [ exact Hacc | ]. apply setw_oneline, HO, Hi.
  - cbn [obind]. eexists. split; [ reflexivity | ]. split; [ reflexivity | ]. apply oneline_app. split; [ reflexivity | exact Hs ].
Qed.
Lemma bu_row_ok h data r (dh : string * string) (dv : V) : Forall known_kind h -> r * length h + length h <= length data ->
  bu_row V re im h data (length h) r = Ok (row_line (map (fun c => bu_cell2 (nth c h dh) (nth (r * length h + c) data dv)) (seq 0 (length h)))).
Proof.
  intros HK HL. unfold bu_row. set (cell := fun c => bu_cell2 (nth c h dh) (nth (r * length h + c) data dv)).
  destruct (ofold_inv (fun d (s : string) => s = cells_text (map cell d))
     (fun acc c => do k <- aread h c; do v <- aread data (r * length h + c); Ok (acc ++ bu_cell V re im (fst k) v)%string) (seq 0 (length h)) EmptyString) as (s & -> & ->).
  - reflexivity.
  - intros d c t acc E ->. assert (Hc : c < length h). { assert (In c (seq 0 (length h))) as Hi by (rewrite E, in_app_iff; right; now left). apply in_seq in Hi. lia. }
    rewrite (aread_some h c (nth c h dh)) by (apply nth_error_nth'; lia). cbn [obind].
    rewrite (aread_some data (r * length h + c) (nth (r * length h + c) data dv)) by (apply nth_error_nth'; lia). cbn [obind].
    eexists. split; [ reflexivity | ]. rewrite Forall_forall in HK. rewrite bu_cell_eq by (apply HK, nth_In, Hc).
    rewrite map_app. unfold cells_text. rewrite map_app. cbn [map]. rewrite cat_snoc. reflexivity.
  - cbn [obind]. reflexivity.
Qed.
Theorem breakup_text_table (twoJ P : Z) model (Np Nq : Z) Eb h data rows (dh : string * string) (dv : V) : oneline model -> oneline Eb ->
  Forall known_kind h -> (forall x, In x h -> oneline (snd x)) -> h <> [] -> length data = length h * rows ->
  (forall r c, r < rows -> c < length h -> bu_fits (nth c h dh) (nth (r * length h + c) data dv)) ->
  exists file, breakup_file V re im twoJ P model Np Nq Eb h data rows (length h) = Ok file /\
   table file = map (fun r => map (fun c => snd (bu_cell2 (nth c h dh) (nth (r * length h + c) data dv))) (seq 0 (length h))) (seq 0 rows).
Proof.
  intros HM HE HK HO HN HD HF. unfold breakup_file. destruct (header_line_ok h HK HO) as (hl & -> & C & O). cbn [obind].
  set (cells := fun r => map (fun c => bu_cell2 (nth c h dh) (nth (r * length h + c) data dv)) (seq 0 (length h))).
  destruct (ofold_inv (fun d acc => acc = map row_line (map cells d)) (fun acc r => do s <- bu_row V re im h data (length h) r; Ok (acc ++ [s])) (seq 0 rows) []) as (rs & -> & ->).
  - reflexivity.
  - intros d r t acc E ->. assert (Hr : r < rows). { assert (In r (seq 0 rows)) as Hi by (rewrite E, in_app_iff; right; now left). apply in_seq in Hi. lia. }
    rewrite (bu_row_ok h data r dh dv HK) by nia. cbn [obind]. eexists. split; [ reflexivity | ]. rewrite !map_app. reflexivity.
  - cbn [obind]. eexists. split; [ reflexivity | ].
    replace (breakup_comments twoJ P model Np Nq Eb ++ [hl] ++ map row_line (map cells (seq 0 rows)) ++ [rule; ""])
      with ((breakup_comments twoJ P model Np Nq Eb ++ [hl]) ++ map row_line (map cells (seq 0 rows)) ++ [] ++ map row_line [] ++ [rule] ++ [""])
      by (rewrite <- !app_assoc; reflexivity).
    rewrite table_two.
    + rewrite app_nil_r, map_map. apply map_ext. intros r. unfold cells. rewrite map_map. reflexivity.
    + intros l Hl. rewrite !in_app_iff in Hl. cbn [In] in Hl. destruct Hl as [[Hl|[<-|[]]]|[[]|[<-|[]]]]; try (split; [ reflexivity || assumption | reflexivity || assumption ]).
      apply (comments_ok twoJ P model Np Nq Eb l HM HE). rewrite in_app_iff. now right.
    + intros L HL. rewrite app_nil_r, in_map_iff in HL. destruct HL as (r & <- & Hr). apply in_seq in Hr. split.
      * unfold cells. rewrite Forall_map, Forall_forall. intros c Hc. apply in_seq in Hc. apply bu_cell_ok; [ | apply HF; lia ].
        rewrite Forall_forall in HK. apply HK, nth_In. lia.
      * unfold cells. destruct h; [ congruence | discriminate ].
Qed.
End Elastic.

Lemma ofold_pres {S X} (P : S -> Prop) (f : S -> X -> outcome S) : (forall s x s', f s x = Ok s' -> P s -> P s') ->
  forall l s s', ofold f l s = Ok s' -> P s -> P s'.
Proof.
  intros H. induction l as [|x l IH]; intros s s' E Hs; cbn in E; [ injection E as <-; exact Hs | ].
  destruct (f s x) as [s1| | |] eqn:E1; cbn in E; try discriminate. eapply IH; [ exact E | ]. eapply H; eassumption.
Qed.
(* every header of the breakup table is of a known kind and on one line *)
Definition head_ok (h : list (string * string)) : Prop := Forall (fun x => known_kind x /\ oneline (snd x)) h.
Lemma label_oneline c r : oneline (bu_label c r).
Proof.
  assert (TS : forall z, oneline (to_string z)) by (intros; apply clean_oneline, to_string_clean).
  unfold bu_label. repeat (apply oneline_app; split); first [ apply TS | reflexivity ].
Qed.
Lemma breakup_headers_ok {V} states deut cells ends nq (zero : V) pmom U T E qcm q_com_idx qWP e_unco e_coup tensor iso Np h data rows cols :
  restructure_breakup_data V states deut cells ends zero pmom U T E qcm q_com_idx qWP e_unco e_coup tensor iso Np nq = Ok (h, data, rows, cols) -> head_ok h.
Proof.
  intros H. unfold restructure_breakup_data in H.
  destruct (pass1_all states deut cells ends nq) as [[p nrv]| | |] eqn:E1; cbn [obind] in H; try discriminate.
  assert (Hp : head_ok (p_head p)).
  { change (head_ok (p_head (fst (p, nrv)))). unfold pass1_all in E1. refine (ofold_pres (fun st : pass1 * list nat => head_ok (p_head (fst st))) _ _ _ _ _ E1 _).
    - intros [p0 n0] q [p1 n1] Eq H0. cbn [fst] in *. unfold pass1_q in Eq.
      destruct (aread ends q) as [b| | |]; cbn [obind] in Eq; try discriminate. destruct (aread ends (q + 1)) as [e| | |]; cbn [obind] in Eq; try discriminate.
      destruct (aread n0 q) as [base| | |]; cbn [obind] in Eq; try discriminate.
      destruct (ofold (pass1_item states deut cells base) (bu_items deut b e) (p0, [])) as [[p2 rn]| | |] eqn:E2; cbn [obind] in Eq; try discriminate.
      assert (p2 = p1) by congruence. subst p2. change (head_ok (p_head (fst (p1, rn)))). revert E2. 
      intros E2. refine (ofold_pres (fun st : pass1 * fmap => head_ok (p_head (fst st))) _ _ _ _ _ E2 H0).
      clear. intros [p0 rn0] [d bu] [p1 rn1] E H. cbn [fst] in *. unfold pass1_item in E.
      destruct (aread deut d) as [arow| | |]; cbn [obind] in E; try discriminate. destruct (aread states arow) as [srow| | |]; cbn [obind] in E; try discriminate.
      destruct (aread cells bu) as [cell| | |]; cbn [obind] in E; try discriminate. destruct (zread states (fst (fst cell))) as [scol| | |]; cbn [obind] in E; try discriminate.
      set (p' := match fget _ _ with Some _ => p0 | None => _ end) in E.
      assert (Hp' : head_ok (p_head p')).
      { unfold p'. destruct (fget _ _); [ exact H | ]. cbn [p_head]. unfold head_ok. apply Forall_app. split; [ exact H | ]. unfold bu_headers_chn.
        repeat apply Forall_cons; try apply Forall_nil; cbn [snd fst]; (split; [ unfold known_kind; cbn [fst]; tauto | ]); try reflexivity. apply label_oneline. }
      destruct (fget rn0 _); assert (p_head p1 = p_head p') by (match type of E with Ok ?q = Ok _ => assert (p1 = fst q) as -> by (now injection E as <- <-) end; reflexivity); congruence.
    - cbn [fst p_head]. unfold head_ok, bu_headers0. repeat apply Forall_cons; try apply Forall_nil; (split; [ unfold known_kind; cbn [fst]; tauto | reflexivity ]). }
  destruct (aread nrv _) as [rws| | |]; cbn [obind] in H; try discriminate.
  destruct (ofold (fun acc q => _) (seq 0 nq) []) as [w| | |]; cbn [obind] in H; try discriminate.
  destruct (ofold _ w _) as [dt| | |]; cbn [obind] in H; try discriminate. assert (h = p_head p) by congruence. subst h. exact Hp.
Qed.
