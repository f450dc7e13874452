(** Proofs about the history file: reading, writing, compaction, crashes. *)
From Verif Require Import Base Utf8 BufferModel BufferSpec UtilModel UtilSpec HistoryModel HistorySpec
  Lemmas Utf8Proofs TextProofs UtilProofs HistoryProofs.

(** * Lines of a file *)
Lemma raw_lines_from_app : forall p acc rest, ~ In 10%N p ->
  raw_lines_from acc (p ++ 10%N :: rest) = (rev acc ++ p, true) :: raw_lines rest.
Proof.
  induction p as [|b p IH]; intros acc rest H; cbn [app raw_lines_from].
  - rewrite N.eqb_refl, app_nil_r. reflexivity.
  - destruct (N.eqb b 10) eqn:E; [apply N.eqb_eq in E; exfalso; apply H; left; congruence|].
    rewrite IH by (intro; apply H; right; assumption). simpl. rewrite <- app_assoc. reflexivity.
Qed.
Lemma raw_lines_from_last : forall p acc, ~ In 10%N p -> rev acc ++ p <> [] ->
  raw_lines_from acc p = [(rev acc ++ p, false)].
Proof.
  induction p as [|b p IH]; intros acc H Hn; cbn [raw_lines_from].
  - rewrite app_nil_r in *. destruct acc; [exfalso; apply Hn; reflexivity|reflexivity].
  - destruct (N.eqb b 10) eqn:E; [apply N.eqb_eq in E; exfalso; apply H; left; congruence|].
    rewrite IH; simpl.
    + rewrite <- app_assoc. reflexivity.
    + intro; apply H; right; assumption.
    + destruct (rev acc); discriminate.
Qed.
Lemma raw_lines_app : forall p rest, ~ In 10%N p -> raw_lines (p ++ 10%N :: rest) = (p, true) :: raw_lines rest.
Proof. intros. unfold raw_lines. rewrite raw_lines_from_app by assumption. reflexivity. Qed.
Lemma raw_lines_last : forall p, ~ In 10%N p -> p <> [] -> raw_lines p = [(p, false)].
Proof. intros. unfold raw_lines. rewrite raw_lines_from_last; [reflexivity|assumption|assumption]. Qed.

Lemma cenc_nl : forall c, In 10%N (cenc c) -> c = c_nl.
Proof.
  intros c H. unfold cenc in H. destruct (c <? 128)%N eqn:E1.
  - destruct H as [H|[]]. assumption.
  - apply N.ltb_ge in E1. exfalso. destruct (c <? 2048)%N eqn:E2; [|destruct (c <? 65536)%N eqn:E3];
    cbn [In] in H; repeat destruct H as [H|H]; try contradiction; revert H; apply N.neq_sym, N.lt_neq; lia.
Qed.
Lemma enc_nl : forall t, In 10%N (enc t) <-> In c_nl t.
Proof.
  intro t. unfold enc. rewrite in_flat_map. split.
  - intros (c & Hc & H). apply cenc_nl in H. subst. assumption.
  - intro H. exists c_nl. split; [assumption|]. left. reflexivity.
Qed.
Lemma utf8_dec : forall p, utf8 p <-> dec p <> None.
Proof.
  intro p. split.
  - intros (t & H & ->). rewrite dec_enc by assumption. discriminate.
  - intro H. destruct (dec p) as [t|] eqn:E; [|congruence]. apply dec_inv in E. exists t. assumption.
Qed.
Lemma utf8_enc_dec : forall p, dec p = None <-> ~ utf8 p.
Proof.
  intro p. rewrite utf8_dec. split; [congruence|].
  intro H. destruct (dec p); [exfalso; apply H; discriminate|reflexivity].
Qed.

Lemma strip_cr_no : forall t, ~ ends_cr t -> strip_cr t = t.
Proof.
  intros t H. unfold strip_cr. destruct (rev t) as [|c r] eqn:E; [reflexivity|].
  destruct (N.eqb c c_cr) eqn:Ec; [|reflexivity]. exfalso. apply H. apply N.eqb_eq in Ec. subst.
  exists (rev r). rewrite <- (rev_involutive t), E. reflexivity.
Qed.
Lemma strip_cr_yes : forall t, strip_cr (t ++ [c_cr]) = t.
Proof. intro t. unfold strip_cr. rewrite rev_app_distr. simpl. apply rev_involutive. Qed.
Lemma ends_cr_dec : forall t, ends_cr t \/ ~ ends_cr t.
Proof.
  intro t. destruct (last_opt t) as [c|] eqn:E.
  - apply last_opt_Some in E as [t' ->]. destruct (N.eq_dec c c_cr) as [->|H].
    + left. exists t'. reflexivity.
    + right. intros [t'' E]. apply app_inj_tail in E as [_ E]. congruence.
  - apply last_opt_None in E. subst. right. intros [t' E]. destruct t'; discriminate.
Qed.
Lemma comment_iff : forall t, prefixb [c_hash] t = true <-> comment t.
Proof.
  intro t. rewrite prefixb_iff. unfold is_prefix, comment. simpl. tauto.
Qed.
Lemma add_entry_det : forall t r r1 r2, add_entry t r r1 -> add_entry t r r2 -> r1 = r2.
Proof. intros t r r1 r2 H1 H2. destruct H1, H2; try tauto; reflexivity. Qed.
Lemma add_entry_eq : forall t r r', add_entry t r r' ->
  r' = if prefixb [c_hash] t then r else t :: r.
Proof.
  intros t r r' H. destruct H as [H|H]; rewrite <- comment_iff in H.
  - rewrite H. reflexivity.
  - destruct (prefixb [c_hash] t); [congruence|reflexivity].
Qed.
Lemma add_entry_ex : forall t r, add_entry t r (if prefixb [c_hash] t then r else t :: r).
Proof.
  intros t r. destruct (prefixb [c_hash] t) eqn:E; constructor.
  - apply comment_iff. assumption.
  - rewrite <- comment_iff. congruence.
Qed.

Definition entries (bs : list byte) : list text := take_entries (file_lines bs).
Lemma entries_nil : entries [] = [].
Proof. reflexivity. Qed.
Lemma entries_line : forall p rest, ~ In 10%N p -> entries (p ++ 10%N :: rest) =
  match dec p with
  | None => []
  | Some t => if prefixb [c_hash] (strip_cr t) then entries rest else strip_cr t :: entries rest
  end.
Proof.
  intros p rest H. unfold entries, file_lines. rewrite raw_lines_app by assumption. cbn [map take_entries line_of].
  destruct (dec p); reflexivity.
Qed.
Lemma entries_last : forall p, ~ In 10%N p -> p <> [] -> entries p =
  match dec p with None => [] | Some t => if prefixb [c_hash] t then [] else [t] end.
Proof.
  intros p H Hn. unfold entries, file_lines. rewrite raw_lines_last by assumption. cbn [map take_entries line_of].
  destruct (dec p); reflexivity.
Qed.
Lemma enc_nonempty : forall t, t <> [] -> enc t <> [].
Proof.
  intros [|c t] H E; [congruence|]. simpl in E. destruct (cenc_cons c) as (b & r & Ec). rewrite Ec in E. discriminate.
Qed.
Lemma enc_cr : enc [c_cr] = [13%N].
Proof. reflexivity. Qed.

Lemma reads_entries : forall bs r, reads bs r -> entries bs = r.
Proof.
  intros bs r H. induction H as [|t r H1 H2 H3 HA|t rest r r' H1 H2 H3 HR IH HA|t rest r r' H1 H2 HR IH HA|p H1 H2|p rest H1 H2].
  - reflexivity.
  - rewrite entries_last.
    + rewrite dec_enc by assumption. symmetry. apply add_entry_eq in HA. assumption.
    + rewrite enc_nl. assumption.
    + apply enc_nonempty. assumption.
  - rewrite entries_line by (rewrite enc_nl; assumption). rewrite dec_enc by assumption.
    rewrite strip_cr_no by assumption. rewrite IH. symmetry. apply add_entry_eq. assumption.
  - replace (enc t ++ [13%N; 10%N] ++ rest) with (enc (t ++ [c_cr]) ++ 10%N :: rest)
      by (rewrite enc_app, enc_cr, <- app_assoc; reflexivity).
    rewrite entries_line.
    + rewrite dec_enc.
      * rewrite strip_cr_yes, IH. symmetry. apply add_entry_eq. assumption.
      * apply Forall_app. split; [assumption|]. repeat constructor.
    + rewrite enc_nl, in_app_iff. simpl. intros [C|[C|[]]]; [contradiction|discriminate C].
  - rewrite entries_last; [|assumption|].
    + apply utf8_enc_dec in H2. rewrite H2. reflexivity.
    + intro; subst. apply H2. exists []. split; [constructor|reflexivity].
  - rewrite entries_line by assumption. apply utf8_enc_dec in H2. rewrite H2. reflexivity.
Qed.
Lemma split_nl : forall bs : list byte, (exists p rest, bs = p ++ 10%N :: rest /\ ~ In 10%N p) \/ ~ In 10%N bs.
Proof.
  induction bs as [|b bs IH]; [right; simpl; tauto|].
  destruct (N.eq_dec b 10%N) as [->|Hb].
  - left. exists [], bs. split; [reflexivity|simpl; tauto].
  - destruct IH as [(p & rest & -> & Hp)|H].
    + left. exists (b :: p), rest. split; [reflexivity|]. intros [C|C]; [congruence|tauto].
    + right. intros [C|C]; [congruence|tauto].
Qed.
Lemma reads_total : forall n bs, length bs <= n -> exists r, reads bs r.
Proof.
  induction n as [|n IH]; intros bs Hn.
  - destruct bs; [exists []; constructor|simpl in Hn; lia].
  - destruct (split_nl bs) as [(p & rest & -> & Hp)|H].
    + destruct (dec p) as [t|] eqn:E.
      * apply dec_inv in E as [E1 E2]. subst p. rewrite enc_nl in Hp.
        destruct (IH rest) as [r Hr]; [rewrite app_length in Hn; simpl in Hn; lia|].
        destruct (ends_cr_dec t) as [[t' ->]|Hc].
        -- eexists. rewrite enc_app, enc_cr, <- app_assoc. eapply rd_crlf; [| |exact Hr|apply add_entry_ex].
           ++ apply Forall_app in E1 as [E1 _]. assumption.
           ++ intro C. apply Hp. apply in_or_app. left. assumption.
        -- eexists. eapply rd_lf; [| | |exact Hr|apply add_entry_ex]; assumption.
      * exists []. apply rd_bad; [assumption|]. apply utf8_enc_dec. assumption.
    + destruct bs as [|b bs']; [exists []; constructor|]. remember (b :: bs') as bs eqn:Eb.
      destruct (dec bs) as [t|] eqn:E.
      * apply dec_inv in E as [E1 E2]. subst bs. rewrite E2 in *. rewrite enc_nl in H.
        eexists. apply rd_unended; [assumption| |assumption|apply add_entry_ex].
        intro; subst t. discriminate.
      * exists []. apply rd_bad_last; [assumption|]. apply utf8_enc_dec. assumption.
Qed.
Lemma reads_iff : forall bs r, reads bs r <-> entries bs = r.
Proof.
  intros bs r. split; [apply reads_entries|].
  intro E. destruct (reads_total _ bs (le_n _)) as [r' H]. apply reads_entries in H as E'. congruence.
Qed.
Lemma entries_nonl : forall bs t, In t (entries bs) -> ~ In c_nl t.
Proof.
  intros bs t H. assert (R : reads bs (entries bs)) by (apply reads_iff; reflexivity).
  revert H. generalize dependent (entries bs). intros r R. induction R as
    [|t0 r H1 H2 H3 HA|t0 rest r r' H1 H2 H3 HR IH HA|t0 rest r r' H1 H2 HR IH HA|p H1 H2|p rest H1 H2]; simpl; try tauto.
  - destruct HA; simpl; [tauto|]. intros [<-|[]]. assumption.
  - destruct HA; simpl; [assumption|]. intros [<-|Hin]; auto.
  - destruct HA; simpl; [assumption|]. intros [<-|Hin]; auto.
Qed.

(** * What writing and reading back gives *)
Lemma lines_bytes_app : forall a b, lines_bytes (a ++ b) = lines_bytes a ++ lines_bytes b.
Proof. intros. unfold lines_bytes. apply flat_map_app. Qed.
Lemma entries_plain : forall l rest, Forall plain_line l ->
  entries (lines_bytes l ++ rest) = l ++ entries rest.
Proof.
  induction l as [|t l IH]; intros rest H; [reflexivity|].
  inversion H as [|? ? (H1 & H2 & H3 & H4) HF]; subst.
  change (lines_bytes (t :: l)) with ((enc t ++ [10%N]) ++ lines_bytes l).
  rewrite <- !app_assoc. simpl app at 2. rewrite entries_line by (rewrite enc_nl; assumption).
  rewrite dec_enc, strip_cr_no by assumption.
  destruct (prefixb [c_hash] t) eqn:E; [apply comment_iff in E; contradiction|].
  simpl. f_equal. apply IH. assumption.
Qed.
(** In general each line is split at its newlines. *)
Definition written_entry (t : text) : list text :=
  filter (fun s => negb (prefixb [c_hash] s)) (map strip_cr (split_on c_nl t)).
Lemma enc_glue : forall l rest, l <> [] -> Forall (fun p => ~ In c_nl p) l -> Forall uni_text l ->
  entries (enc (glue c_nl l) ++ 10%N :: rest) =
  filter (fun s => negb (prefixb [c_hash] s)) (map strip_cr l) ++ entries rest.
Proof.
  induction l as [|p l IH]; intros rest Hn H1 H2; [congruence|].
  inversion H1; subst. inversion H2; subst.
  assert (E : enc (glue c_nl (p :: l)) ++ 10%N :: rest =
    enc p ++ 10%N :: match l with [] => rest | _ => enc (glue c_nl l) ++ 10%N :: rest end).
  { destruct l as [|q l]; [reflexivity|]. rewrite glue_cons_nonempty by discriminate.
    rewrite enc_app, <- app_assoc. reflexivity. }
  rewrite E, entries_line by (rewrite enc_nl; assumption). rewrite dec_enc by assumption. cbn [map filter].
  destruct (prefixb [c_hash] (strip_cr p)); cbn [negb]; destruct l as [|q l]; try reflexivity.
  - apply IH; [discriminate|assumption|assumption].
  - simpl app. f_equal. apply IH; [discriminate|assumption|assumption].
Qed.
Lemma glue_uni : forall l, uni_text (glue c_nl l) -> Forall uni_text l.
Proof.
  induction l as [|p l IH]; intro H; [constructor|]. destruct l as [|q l].
  - repeat constructor. assumption.
  - rewrite glue_cons_nonempty in H by discriminate. apply Forall_app in H as [H1 H2].
    inversion H2; subst. constructor; [assumption|]. apply IH. assumption.
Qed.
Lemma entries_written : forall l rest, Forall uni_text l ->
  entries (lines_bytes l ++ rest) = flat_map written_entry l ++ entries rest.
Proof.
  induction l as [|t l IH]; intros rest H; [reflexivity|]. inversion H; subst.
  change (lines_bytes (t :: l)) with ((enc t ++ [10%N]) ++ lines_bytes l).
  rewrite <- !app_assoc. simpl app at 2. rewrite <- (glue_split c_nl t) at 1.
  rewrite enc_glue.
  - cbn [flat_map]. rewrite <- app_assoc. rewrite IH by assumption. reflexivity.
  - apply split_on_nonempty.
  - apply split_on_nosep.
  - apply glue_uni. rewrite glue_split. assumption.
Qed.

(** * File system *)
Lemma put_same : forall w p f, fs_files (fs_put w p f) p = Some f.
Proof. intros. simpl. rewrite text_eqb_refl. reflexivity. Qed.
Lemma put_other : forall w p f q, q <> p -> fs_files (fs_put w p f) q = fs_files w q.
Proof. intros w p f q H. simpl. apply text_eqb_neq in H. rewrite H. reflexivity. Qed.
Lemma open_content : forall w p bs, fs_open w p = Some bs <-> has_content w p bs.
Proof.
  intros w p bs. unfold fs_open, has_content. destruct (fs_files w p) as [f|].
  - destruct (f_readable f) eqn:E; split.
    + intro H. inversion H. eauto.
    + intros (g & Hg & H & _). inversion Hg; subst. reflexivity.
    + discriminate.
    + intros (g & Hg & _ & H). inversion Hg; subst. congruence.
  - split; [discriminate|]. intros (g & Hg & _). discriminate.
Qed.
Lemma create_write : forall w p, can_write w p -> exists w', fs_create w p = Some w' /\ content_set w w' p [].
Proof.
  intros w p (f & E & H). unfold fs_create. rewrite E, H. eexists. split; [reflexivity|]. split.
  - exists f. split; [assumption|]. rewrite put_same, H. reflexivity.
  - intros q Hq. apply put_other. assumption.
Qed.
Lemma append_content : forall w p f bs, fs_files w p = Some f ->
  content_set w (fs_append w p bs) p (f_bytes f ++ bs).
Proof.
  intros w p f bs E. unfold fs_append. rewrite E. split.
  - exists f. split; [assumption|]. rewrite put_same. reflexivity.
  - intros q Hq. apply put_other. assumption.
Qed.
Lemma content_set_trans : forall w w1 w2 p a b, content_set w w1 p a -> content_set w1 w2 p b -> content_set w w2 p b.
Proof.
  intros w w1 w2 p a b ((f & E & E1) & H1) ((g & G & G1) & H2). split.
  - exists f. split; [assumption|]. rewrite E1 in G. inversion G; subst. exact G1.
  - intros q Hq. rewrite H2, H1 by assumption. reflexivity.
Qed.
Lemma content_set_has : forall w w' p bs, content_set w w' p bs -> (exists b0, has_content w p b0) -> has_content w' p bs.
Proof.
  intros w w' p bs ((f & E & E1) & _) (b0 & g & G & _ & R). rewrite E in G. inversion G; subst.
  eexists. split; [exact E1|]. simpl. auto.
Qed.
Lemma content_set_write : forall w w' p bs, content_set w w' p bs -> can_write w p -> can_write w' p.
Proof.
  intros w w' p bs ((f & E & E1) & _) (g & G & R). rewrite E in G. inversion G; subst.
  eexists. split; [exact E1|]. simpl. auto.
Qed.
Lemma rewrite_content : forall w p bs, can_write w p -> exists w1,
  fs_create w p = Some w1 /\ content_set w (fs_append w1 p bs) p bs.
Proof.
  intros w p bs H. destruct (create_write w p H) as (w1 & E & C). exists w1. split; [assumption|].
  destruct C as ((f & F & F1) & C). pose proof (append_content w1 p _ bs F1) as A. simpl in A.
  eapply content_set_trans; [split; [exists f; split; eassumption|exact C]|exact A].
Qed.
Lemma can_append_iff : forall w p, fs_can_append w p = true <-> can_write w p.
Proof.
  intros w p. unfold fs_can_append, can_write. destruct (fs_files w p) as [f|].
  - split; [intro H; eauto|]. intros (g & G & H). inversion G; subst. assumption.
  - split; [discriminate|]. intros (g & G & _). discriminate.
Qed.

(** * Loading *)
Lemma load_test_changed : forall w h p append bs len, has_content w p bs -> length bs <> len ->
  exists h', load_history_file_test w h p len append = (Some (length bs), h') /\
    h_maxfile h' = h_maxfile h /\ h_maxbuf h' = h_maxbuf h /\ h_file h' = h_file h /\ h_loaddup h' = h_loaddup h /\
    exists kept, newest (h_maxfile h) ((if append then texts h else []) ++ entries bs) kept /\
     (h_loaddup h = true -> texts h' = kept) /\
     (h_loaddup h = false -> (append = true -> forall t, In t (texts h) -> ~ In c_nl t) ->
        last_occ kept (texts h')).
Proof.
  intros w h p append bs len HC HL. unfold load_history_file_test.
  apply open_content in HC. rewrite HC. cbv zeta. apply Nat.eqb_neq in HL. rewrite HL. cbn [negb].
  set (h1 := if (length bs =? 0) && (len =? 0) && negb append then clear_history h else h).
  set (h3 := if append then h1 else clear_history h1).
  assert (B3 : buffers h3 = if append then buffers h else []).
  { subst h3 h1. destruct append; [|reflexivity]. rewrite andb_false_r. reflexivity. }
  set (h4 := set_buffers h3 (buffers h3 ++ map buf_of (take_entries (file_lines bs)))).
  assert (K3 : h_maxfile h3 = h_maxfile h /\ h_maxbuf h3 = h_maxbuf h /\ h_file h3 = h_file h /\ h_loaddup h3 = h_loaddup h).
  { subst h3 h1. destruct append, (_ && _); repeat split. }
  destruct K3 as (K1 & K2 & K3 & K4).
  eexists. split; [reflexivity|].
  assert (EL : h_loaddup (hist_truncate h4) = h_loaddup h) by exact K4. rewrite EL.
  split; [destruct (h_loaddup h); exact K1|]. split; [destruct (h_loaddup h); exact K2|].
  split; [destruct (h_loaddup h); exact K3|].
  split; [destruct (h_loaddup h); exact K4|].
  assert (E4 : map data (buffers h4) = (if append then texts h else []) ++ entries bs).
  { subst h4. cbn [buffers set_buffers]. rewrite map_app, map_map. simpl. rewrite map_id, B3. destruct append; reflexivity. }
  exists (keep_last (h_maxfile h) (map data (buffers h4))). rewrite <- E4. split; [apply keep_last_newest|].
  assert (EK : map data (buffers (hist_truncate h4)) = keep_last (h_maxfile h) (map data (buffers h4))).
  { eapply newest_unique; [|apply keep_last_newest].
    rewrite <- K1. change (h_maxfile h3) with (h_maxfile h4). apply newest_map. apply keep_last_newest. }
  split.
  - intro L. rewrite L. unfold texts. exact EK.
  - intros L HN. rewrite L. unfold texts. cbn [buffers set_buffers]. rewrite <- EK.
    apply dedup_buffers_texts. intros b Hb.
    assert (Hin : In (data b) (map data (buffers (hist_truncate h4)))) by (apply in_map; exact Hb).
    rewrite EK in Hin. destruct (keep_last_newest (h_maxfile h) (map data (buffers h4))) as (o & Eo & _).
    assert (Hin4 : In (data b) (map data (buffers h4))) by (rewrite Eo; apply in_or_app; right; assumption).
    rewrite E4 in Hin4. apply in_app_or in Hin4 as [Hi|Hi].
    + destruct append; [|destruct Hi]. apply HN; [reflexivity|assumption].
    + eapply entries_nonl. exact Hi.
Qed.
Lemma load_file_spec : forall w h p bs append n h',
  has_content w p bs -> load_history_file w h p append = (n, h') ->
  n = Some (length bs) /\
  (bs = [] -> buffers h' = if append then buffers h else []) /\
  (bs <> [] -> exists kept, newest (h_maxfile h) ((if append then texts h else []) ++ entries bs) kept /\
     (h_loaddup h = true -> texts h' = kept) /\
     (h_loaddup h = false -> (append = true -> forall t, In t (texts h) -> ~ In c_nl t) ->
        last_occ kept (texts h'))).
Proof.
  intros w h p bs append n h' HC H.
  destruct (Nat.eq_dec (length bs) 0) as [E|E].
  - assert (bs = []) by (destruct bs; [reflexivity|discriminate]). subst bs.
    unfold load_history_file, load_history_file_test in H. apply open_content in HC. rewrite HC in H. simpl in H.
    inversion H; subst. split; [reflexivity|]. split; [|congruence]. intros _.
    destruct append; reflexivity.
  - destruct (load_test_changed w h p append bs 0 HC E) as (g & EG & _ & _ & _ & _ & K).
    unfold load_history_file in H. rewrite EG in H. inversion H; subst. split; [reflexivity|].
    split; [intro; subst; simpl in E; congruence|]. intros _. exact K.
Qed.
Lemma load_file_missing : forall w h p append, (forall bs, ~ has_content w p bs) ->
  load_history_file w h p append = (None, h).
Proof.
  intros w h p append H. unfold load_history_file, load_history_file_test.
  destruct (fs_open w p) as [bs|] eqn:E; [|reflexivity]. apply open_content in E. exfalso. eapply H. eassumption.
Qed.
(** [load_history] reads only if the size changed. *)
Lemma load_history_same : forall w h p append, h_file h = Some p ->
  forall bs, has_content w p bs -> length bs = h_fsize h -> bs <> [] ->
  load_history w h append = (Some (length bs), h).
Proof.
  intros w h p append HF bs HC HL Hn. unfold load_history. rewrite HF. unfold load_history_file_test.
  apply open_content in HC. rewrite HC. cbv zeta. rewrite HL, Nat.eqb_refl. cbn [negb].
  assert (h_fsize h =? 0 = false) as ->.
  { apply Nat.eqb_neq. rewrite <- HL. destruct bs; [congruence|discriminate]. }
  simpl. f_equal. destruct h; reflexivity.
Qed.
Lemma load_history_changed : forall w h p append bs, h_file h = Some p -> has_content w p bs ->
  length bs <> h_fsize h ->
  exists h', load_history w h append = (Some (length bs), h') /\
    h_maxfile h' = h_maxfile h /\ h_maxbuf h' = h_maxbuf h /\ h_file h' = h_file h /\ h_loaddup h' = h_loaddup h /\
    h_fsize h' = length bs /\
    exists kept, newest (h_maxfile h) ((if append then texts h else []) ++ entries bs) kept /\
     (h_loaddup h = true -> texts h' = kept) /\
     (h_loaddup h = false -> (append = true -> forall t, In t (texts h) -> ~ In c_nl t) ->
        last_occ kept (texts h')).
Proof.
  intros w h p append bs HF HC HL. unfold load_history. rewrite HF.
  destruct (load_test_changed w h p append bs (h_fsize h) HC HL) as (g & -> & M & B & F & D & K).
  eexists. split; [reflexivity|]. rewrite <- HF. repeat split; assumption.
Qed.

(** * Writing *)
Lemma overwrite_spec : forall w h p, can_write w p -> exists h' w',
  overwrite_history w h p = (true, h', w') /\
  newest (h_maxfile h) (buffers h) (buffers h') /\
  content_set w w' p (lines_bytes (texts h')) /\ h_compact h' = h_compact h /\ h_fsize h' = h_fsize h.
Proof.
  intros w h p H. unfold overwrite_history.
  destruct (rewrite_content w p (lines_bytes (map data (buffers (hist_truncate h)))) H) as (w1 & E & C).
  rewrite E. eexists _, _. split; [reflexivity|]. split; [apply keep_last_newest|]. split; [exact C|]. split; reflexivity.
Qed.

(** Commit and reload: everything, then the plain case. *)
Lemma commit_reload : forall w h p bs0, h_inc h = false -> can_write w p -> has_content w p bs0 ->
  Forall uni_text (texts h) ->
  exists h' w', commit_to_file_path w h p = (true, h', w') /\
    exists kept, newest (h_maxfile h) (texts h) kept /\
    content_set w w' p (lines_bytes kept) /\
    entries (lines_bytes kept) = flat_map written_entry kept.
Proof.
  intros w h p bs0 HI HW HC HU. unfold commit_to_file_path. rewrite HI.
  destruct (overwrite_spec w h p HW) as (h' & w' & E & HN & C & _).
  exists h', w'. split; [assumption|]. exists (texts h'). split; [unfold texts; apply newest_map; assumption|].
  split; [assumption|].
  rewrite <- (app_nil_r (lines_bytes (texts h'))). rewrite entries_written.
  - rewrite entries_nil, app_nil_r. reflexivity.
  - apply newest_map with (f := data) in HN. destruct HN as (o & Eo & _).
    unfold texts in *. rewrite Eo in HU. apply Forall_app in HU as [_ HU]. exact HU.
Qed.
Lemma written_plain : forall l, Forall plain_line l -> flat_map written_entry l = l.
Proof.
  induction l as [|t l IH]; intro H; [reflexivity|]. inversion H as [|? ? (H1 & H2 & H3 & H4) HF]; subst.
  simpl. rewrite IH by assumption. unfold written_entry. rewrite split_on_none by assumption. cbn [map filter].
  rewrite strip_cr_no by assumption.
  destruct (prefixb [c_hash] t) eqn:E; [apply comment_iff in E; contradiction|reflexivity].
Qed.
Lemma newest_Forall : forall {A} (P : A -> Prop) m l r, newest m l r -> Forall P l -> Forall P r.
Proof. intros A P m l r (o & -> & _) H. apply Forall_app in H as [_ H]. assumption. Qed.

(** * Pushing with a file *)
Lemma push_append_file : forall w h p t, can_write w p -> 0 < h_compact h ->
  exists f, fs_files w p = Some f /\
  push_append w h p t = (set_fsize h (h_fsize h + (blen t + 1)), fs_append w p (enc t ++ [10%N])) /\
  content_set w (fs_append w p (enc t ++ [10%N])) p (f_bytes f ++ enc t ++ [10%N]).
Proof.
  intros w h p t HW Hc. destruct HW as (f & E & HF). exists f. split; [assumption|]. split.
  - unfold push_append. assert (fs_can_append w p = true) as -> by (apply can_append_iff; exists f; auto).
    apply Nat.ltb_lt in Hc. rewrite Hc. reflexivity.
  - apply append_content. assumption.
Qed.
Definition accepts (h : history) (t : text) : Prop :=
  h_appdup h = true \/ last_opt (texts h) <> Some t.
Lemma accepts_eq : forall h b, accepts h (data b) -> negb (h_appdup h) && back_is (buffers h) (data b) = false.
Proof.
  intros h b [H|H]; [rewrite H; reflexivity|].
  destruct (back_is (buffers h) (data b)) eqn:E; [apply back_is_true in E; contradiction|apply andb_false_r].
Qed.

(** No compaction due: the line is appended. *)
Lemma push_appends : forall w h p b, h_inc h = true -> h_file h = Some p -> can_write w p ->
  accepts h (data b) -> h_loaddup h = true \/ h_compact h < 29 ->
  exists h' w' f, hist_push w h b = (h', w') /\ fs_files w p = Some f /\
    content_set w w' p (f_bytes f ++ enc (data b) ++ [10%N]) /\
    newest (h_maxbuf h) (buffers h ++ [b]) (buffers h') /\
    h_fsize h' = h_fsize h + (blen (data b) + 1) /\
    h_inc h' = true /\ h_file h' = Some p /\ h_loaddup h' = h_loaddup h /\ h_maxbuf h' = h_maxbuf h /\
    h_appdup h' = h_appdup h /\ h_share h' = h_share h /\ h_maxfile h' = h_maxfile h /\
    h_compact h' = (if h_loaddup h then 1 else S (h_compact h)).
Proof.
  intros w h p b HI HF HW HA HC. unfold hist_push. rewrite accepts_eq by assumption. cbv zeta.
  change (h_file (set_buffers h _)) with (h_file h). rewrite HF.
  change (h_inc (set_buffers h _)) with (h_inc h). rewrite HI.
  set (h1 := set_buffers h _).
  assert (EC : exists h2, push_compact w h1 p = (h2, w) /\ h2 = set_compact h1 (if h_loaddup h then 1 else S (h_compact h))).
  { unfold push_compact. change (h_loaddup h1) with (h_loaddup h). destruct (h_loaddup h) eqn:EL; [eauto|].
    destruct HC as [HC|HC]; [discriminate|]. simpl h_compact.
    assert (29 <? S (h_compact h) = false) as -> by (apply Nat.ltb_ge; lia). eauto. }
  destruct EC as (h2 & -> & E2).
  destruct (push_append_file w h2 p (data b) HW) as (f & Ef & EP & CP).
  { rewrite E2. simpl. destruct (h_loaddup h); lia. }
  rewrite EP. eexists _, _, f. split; [reflexivity|]. split; [assumption|]. split; [assumption|]. subst h2 h1. simpl.
  repeat split; auto. apply skipn_newest.
Qed.

(** Unshared compaction. *)
Lemma push_compacts : forall w h p b bs, h_inc h = true -> h_file h = Some p -> can_write w p -> has_content w p bs ->
  accepts h (data b) -> h_loaddup h = false -> 29 <= h_compact h -> h_share h = false ->
  exists h' w' kept L, hist_push w h b = (h', w') /\
    newest (h_maxbuf h) (buffers h ++ [b]) (buffers h') /\
    newest (h_maxfile h) (entries bs) kept /\ last_occ kept L /\
    ((content_set w w' p (lines_bytes L)) \/ (w' = w /\ L = entries bs)) /\ h_compact h' = 0 /\ h_fsize h' = h_fsize h.
Proof.
  intros w h p b bs HI HF HW HB HA HL HC HS. unfold hist_push. rewrite accepts_eq by assumption. cbv zeta.
  change (h_file (set_buffers h _)) with (h_file h). rewrite HF.
  change (h_inc (set_buffers h _)) with (h_inc h). rewrite HI.
  set (h1 := set_buffers h _). unfold push_compact. change (h_loaddup h1) with (h_loaddup h). rewrite HL.
  cbv zeta. change (h_compact (set_compact h1 (S (h_compact h1)))) with (S (h_compact h)).
  assert (29 <? S (h_compact h) = true) as -> by (apply Nat.ltb_lt; lia).
  change (h_share (set_compact h1 (S (h_compact h1)))) with (h_share h). rewrite HS.
  change (h_maxfile (set_compact h1 (S (h_compact h1)))) with (h_maxfile h).
  unfold push_append. simpl h_compact. rewrite andb_false_r.
  eexists _, _, _, _. split; [reflexivity|]. split; [apply skipn_newest|].
  split; [apply keep_last_newest|]. split; [apply dedup_last_occ|]. split; [|split; reflexivity].
  unfold deduplicate_history_file. apply open_content in HB. rewrite HB. cbv zeta.
  fold (entries bs). set (L := dedup_rev _ _ _ _).
  assert (HLk : last_occ (keep_last (h_maxfile h) (entries bs)) L) by apply dedup_last_occ.
  destruct (Nat.eqb_spec (length (entries bs)) (length L)) as [E|E]; cbn [negb].
  - right. split; [reflexivity|]. pose proof (last_occ_length _ _ HLk) as H1.
    destruct (keep_last_newest (h_maxfile h) (entries bs)) as (o & Eo & _).
    pose proof (f_equal (@length text) Eo) as H2. rewrite app_length in H2.
    assert (o = []) by (destruct o; [reflexivity|simpl in H2; lia]). subst o. simpl in Eo.
    rewrite <- Eo in HLk. apply last_occ_full; [assumption|congruence].
  - left. destruct (rewrite_content w p (lines_bytes L) HW) as (w1 & -> & C). exact C.
Qed.

(** Shared compaction. *)
Lemma push_shared_prefix : forall w h p b, h_inc h = true -> h_file h = Some p ->
  accepts h (data b) -> h_loaddup h = false -> 29 <= h_compact h -> h_share h = true ->
  let h1 := set_compact (set_buffers h (skipn (length (buffers h ++ [b]) - h_maxbuf h) (buffers h ++ [b]))) (S (h_compact h)) in
  hist_push w h b = let '(_, h2) := load_history w h1 false in
                    let '(_, h3, w3) := overwrite_history w h2 p in (set_compact h3 0, w3).
Proof.
  intros w h p b HI HF HA HL HC HS h1. unfold hist_push. rewrite accepts_eq by assumption. cbv zeta.
  change (h_file (set_buffers h _)) with (h_file h). rewrite HF.
  change (h_inc (set_buffers h _)) with (h_inc h). rewrite HI.
  unfold push_compact. change (h_loaddup (set_buffers h _)) with (h_loaddup h). rewrite HL.
  cbv zeta. change (h_compact (set_compact _ (S (h_compact (set_buffers h _))))) with (S (h_compact h)).
  assert (29 <? S (h_compact h) = true) as -> by (apply Nat.ltb_lt; lia).
  change (h_share (set_compact _ _)) with (h_share h). rewrite HS. change (h_compact (set_buffers h _)) with (h_compact h).
  fold h1. destruct (load_history w h1 false) as [o h2]. destruct (overwrite_history w h2 p) as [[o3 h3] w3].
  unfold push_append. simpl h_compact. rewrite andb_false_r. reflexivity.
Qed.
Lemma push_shared_changed : forall w h p b bs, h_inc h = true -> h_file h = Some p -> can_write w p -> has_content w p bs ->
  accepts h (data b) -> h_loaddup h = false -> 29 <= h_compact h -> h_share h = true -> length bs <> h_fsize h ->
  exists h' w' kept, hist_push w h b = (h', w') /\ newest (h_maxfile h) (entries bs) kept /\
    last_occ kept (texts h') /\ content_set w w' p (lines_bytes (texts h')).
Proof.
  intros w h p b bs HI HF HW HB HA HL HC HS HN. rewrite (push_shared_prefix w h p b) by assumption. cbv zeta.
  set (h1 := set_compact _ _).
  destruct (load_history_changed w h1 p false bs HF HB HN) as (h2 & E2 & M2 & _ & F2 & L2 & _ & kept & HK & _ & HLo).
  rewrite E2. destruct (overwrite_spec w h2 p HW) as (h3 & w3 & E3 & HN3 & C3 & _). rewrite E3.
  eexists _, _, kept. split; [reflexivity|]. split; [exact HK|].
  specialize (HLo HL ltac:(discriminate)).
  assert (E : buffers h3 = buffers h2).
  { eapply newest_unique; [exact HN3|]. rewrite M2. apply newest_all. pose proof (last_occ_length _ _ HLo) as K1.
    pose proof (newest_length _ _ _ HK) as [K2 _]. unfold texts in K1. rewrite map_length in K1. lia. }
  unfold texts in *. simpl. rewrite E in *. split; assumption.
Qed.
Lemma push_shared_same : forall w h p b bs, h_inc h = true -> h_file h = Some p -> can_write w p -> has_content w p bs ->
  accepts h (data b) -> h_loaddup h = false -> 29 <= h_compact h -> h_share h = true -> length bs = h_fsize h -> bs <> [] ->
  exists h' w' , hist_push w h b = (h', w') /\
    newest (Nat.min (h_maxbuf h) (h_maxfile h)) (buffers h ++ [b]) (buffers h') /\
    content_set w w' p (lines_bytes (texts h')).
Proof.
  intros w h p b bs HI HF HW HB HA HL HC HS HN Hbs. rewrite (push_shared_prefix w h p b) by assumption. cbv zeta.
  set (h1 := set_compact _ _).
  rewrite (load_history_same w h1 p false HF bs HB HN Hbs).
  destruct (overwrite_spec w h1 p HW) as (h3 & w3 & E3 & HN3 & C3 & _). rewrite E3.
  eexists _, _. split; [reflexivity|]. split; [|exact C3]. simpl. eapply newest_trans; [|exact HN3].
  subst h1. simpl. apply skipn_newest.
Qed.

(** All pushes with load_duplicates on. *)
Lemma pushes_file : forall l w h p f, h_inc h = true -> h_file h = Some p -> fs_files w p = Some f -> f_writable f = true ->
  h_loaddup h = true -> 0 < h_maxbuf h ->
  let acc := if h_appdup h then map data l else collapse (last_opt (texts h)) (map data l) in
  exists f', fs_files (snd (pushes w h l)) p = Some f' /\ f_bytes f' = f_bytes f ++ lines_bytes acc /\
    (forall q, q <> p -> fs_files (snd (pushes w h l)) q = fs_files w q).
Proof.
  induction l as [|b l IH]; intros w h p f HI HF Ef HW HL Hm; cbn [pushes map].
  - exists f. simpl. split; [assumption|]. destruct (h_appdup h); simpl; rewrite app_nil_r; auto.
  - destruct (negb (h_appdup h) && back_is (buffers h) (data b)) eqn:E.
    + assert (EP : hist_push w h b = (h, w)) by (unfold hist_push; rewrite E; reflexivity). rewrite EP.
      apply andb_true_iff in E as [E1 E2]. apply negb_true_iff in E1. apply back_is_true in E2. fold (texts h) in E2.
      destruct (IH w h p f HI HF Ef HW HL Hm) as (f' & A & B & C). exists f'. split; [assumption|]. split; [|assumption].
      rewrite E1 in *. rewrite E2 in *. rewrite collapse_cons_same. assumption.
    + assert (HA : accepts h (data b)).
      { apply andb_false_iff in E as [E|E]; [left; apply negb_false_iff; assumption|right].
        unfold texts. rewrite <- back_is_true. congruence. }
      destruct (push_appends w h p b HI HF ltac:(exists f; auto) HA (or_introl HL))
        as (h' & w' & f0 & EP & Ef0 & (C1 & C2) & HN & _ & I1 & I2 & I3 & I4 & I5 & _).
      rewrite EP. rewrite Ef in Ef0. inversion Ef0; subst f0. clear Ef0.
      destruct C1 as (g & Eg & Eg'). rewrite Ef in Eg. inversion Eg; subst g. clear Eg.
      assert (HLast : last_opt (texts h') = Some (data b)).
      { pose proof (newest_last _ _ _ Hm (newest_map data _ _ _ HN)) as X. rewrite map_app in X. simpl in X.
        rewrite last_opt_app in X. exact X. }
      destruct (IH w' h' p _ I1 I2 Eg' HW ltac:(congruence) ltac:(lia)) as (f' & A & B & C).
      exists f'. split; [assumption|]. split.
      * rewrite B. cbn [f_bytes]. rewrite <- app_assoc. f_equal. rewrite I5, HLast. destruct (h_appdup h) eqn:EA.
        -- reflexivity.
        -- rewrite collapse_cons_other; [reflexivity|]. destruct HA as [HA|HA]; congruence.
      * intros q Hq. rewrite C, C2 by assumption. reflexivity.
Qed.

(** * C47: the size of the history *)
Lemma truncate_len : forall h, length (buffers (hist_truncate h)) <= h_maxfile h.
Proof. intro h. apply (newest_length _ _ _ (keep_last_newest (h_maxfile h) (buffers h))). Qed.
Lemma truncate_len' : forall h, length (buffers (hist_truncate h)) <= length (buffers h).
Proof. intro h. apply (newest_length _ _ _ (keep_last_newest (h_maxfile h) (buffers h))). Qed.
Lemma dedup_len : forall {A} (same : A -> A -> bool) n rl, length (dedup_rev same n rl []) <= length rl.
Proof.
  intros A same n. induction n as [|n IH]; intro rl; [simpl; lia|].
  destruct rl as [|x rl]; [simpl; lia|]. cbn [dedup_rev]. rewrite dedup_rev_acc, app_length. simpl.
  specialize (IH (filter (fun y => negb (same x y)) rl)).
  pose proof (filter_length_le (fun y => negb (same x y)) rl). lia.
Qed.
Definition bounded (N : nat) (h : history) : Prop := length (buffers h) <= N.
Definition limits (a b : nat) (h : history) : Prop := h_maxbuf h = a /\ h_maxfile h = b.
Lemma load_test_len : forall w h p len append n h' a b, limits a b h -> bounded (Nat.max a b) h ->
  load_history_file_test w h p len append = (n, h') -> limits a b h' /\ bounded (Nat.max a b) h'.
Proof.
  intros w h p len append n h' a b [Ha Hb] HB H. unfold load_history_file_test in H.
  destruct (fs_open w p) as [bs|]; [|injection H as _ <-; split; [split|]; assumption].
  cbv zeta in H. injection H as _ H. revert H.
  set (h1 := if _ : bool then clear_history h else h).
  assert (K1 : limits a b h1 /\ bounded (Nat.max a b) h1).
  { subst h1. destruct (_ && _); [|split; [split|]; assumption]. split; [split; assumption|]. unfold bounded. simpl. lia. }
  destruct (negb (length bs =? len)).
  2: { intros <-. exact K1. }
  set (h3 := if append then h1 else clear_history h1).
  assert (K3 : limits a b h3).
  { subst h3. destruct append; [apply K1|]. destruct K1 as [[? ?] _]. split; assumption. }
  set (h4 := set_buffers h3 _). assert (K4 : limits a b h4) by exact K3.
  assert (K5 : limits a b (hist_truncate h4) /\ bounded (Nat.max a b) (hist_truncate h4)).
  { split; [exact K4|]. unfold bounded. pose proof (truncate_len h4). destruct K4. lia. }
  intros <-. change (h_loaddup h4) with (h_loaddup h3). destruct (h_loaddup h3); [exact K5|].
  destruct K5 as [L5 B5]. split; [exact L5|]. unfold bounded in *. cbn [buffers set_buffers].
  unfold dedup_buffers. pose proof (dedup_len (fun x y => text_eqb (joined y) (data x)) (length (buffers (hist_truncate h4))) (rev (buffers (hist_truncate h4)))) as D.
  rewrite rev_length in D. eapply Nat.le_trans; [exact D|exact B5].
Qed.
Lemma run_hop_len : forall h w o a b, limits a b h -> bounded (Nat.max a b) h ->
  limits a b (fst (run_hop (h, w) o)) /\ bounded (Nat.max a b) (fst (run_hop (h, w) o)).
Proof.
  intros h w o a b HL HB.
  assert (Load : forall w h append n h', limits a b h -> bounded (Nat.max a b) h -> load_history w h append = (n, h') ->
    limits a b h' /\ bounded (Nat.max a b) h').
  { clear. intros w h append n h' HL HB H. unfold load_history in H. destruct (h_file h) as [p|]; [|inversion H; subst; auto].
    destruct (load_history_file_test w h p (h_fsize h) append) as [[k|] g] eqn:E; apply load_test_len with (a := a) (b := b) in E; auto;
    inversion H; subst; assumption. }
  assert (Over : forall w h p, limits a b h -> bounded (Nat.max a b) h ->
    limits a b (snd (fst (overwrite_history w h p))) /\ bounded (Nat.max a b) (snd (fst (overwrite_history w h p)))).
  { clear. intros w h p HL HB. unfold overwrite_history. pose proof (truncate_len' h).
    destruct (fs_create w p); simpl fst; simpl snd; (split; [exact HL|unfold bounded in *; lia]). }
  destruct o as [x|app|p app|p| |p| |t|w2]; simpl.
  - unfold hist_push. destruct (_ && _); [simpl; auto|]. cbv zeta. set (h1 := set_buffers h _).
    assert (K1 : limits a b h1 /\ bounded (Nat.max a b) h1).
    { split; [exact HL|]. unfold bounded. subst h1. cbn [buffers set_buffers].
      pose proof (newest_length _ _ _ (skipn_newest (h_maxbuf h) (buffers h ++ [x]))). destruct HL. lia. }
    destruct (h_file h1) as [p|]; [|exact K1]. destruct (h_inc h1); [|exact K1].
    assert (K2 : limits a b (fst (push_compact w h1 p)) /\ bounded (Nat.max a b) (fst (push_compact w h1 p))).
    { unfold push_compact. destruct (h_loaddup h1); [exact K1|]. cbv zeta. set (h2 := set_compact h1 _).
      assert (K2 : limits a b h2 /\ bounded (Nat.max a b) h2) by exact K1.
      destruct (29 <? h_compact h2); [|exact K2]. destruct (h_share h2); [|exact K2].
      destruct (load_history w h2 false) as [o3 h3] eqn:E3. destruct K2. apply Load in E3; auto. destruct E3 as [L3 B3].
      pose proof (Over w h3 p L3 B3) as K. destruct (overwrite_history w h3 p) as [[o4 h4] w4]. exact K. }
    destruct (push_compact w h1 p) as [h2 w2]. unfold push_append. destruct (_ && _); exact K2.
  - destruct (load_history w h app) as [n h'] eqn:E. apply Load in E; auto.
  - destruct (load_history_file w h p app) as [n h'] eqn:E. simpl. eapply load_test_len; eauto.
  - unfold set_file_name_and_load_history. cbv zeta. destruct (fs_exists w p).
    + destruct (load_history_file w (set_fsize (set_hfile h (Some p)) 0) p false) as [[k|] g] eqn:E;
      apply load_test_len with (a := a) (b := b) in E; auto.
    + destruct (fs_create w p); simpl; auto.
  - unfold commit_to_file. destruct (h_file h) as [p|]; [|simpl; auto]. unfold commit_to_file_path.
    destruct (h_inc h); [simpl; auto|]. pose proof (Over w h p HL HB) as K. destruct (overwrite_history w h p) as [[? ?] ?]. exact K.
  - unfold commit_to_file_path. destruct (h_inc h); [simpl; auto|]. pose proof (Over w h p HL HB) as K.
    destruct (overwrite_history w h p) as [[? ?] ?]. exact K.
  - split; [exact HL|]. unfold bounded. simpl. lia.
  - split; [exact HL|]. unfold bounded in *. simpl.
    pose proof (filter_length_le (fun b0 => negb (text_eqb (joined b0) t)) (buffers h)). unfold retain_not. lia.
  - auto.
Qed.
Lemma session_len : forall l h w a b, limits a b h -> bounded (Nat.max a b) h ->
  bounded (Nat.max a b) (fst (fold_left run_hop l (h, w))).
Proof.
  intro l. induction l as [|o l IH]; intros h w a b HL HB; [exact HB|]. cbn [fold_left].
  pose proof (run_hop_len h w o a b HL HB) as [L' B']. destruct (run_hop (h, w) o) as [h' w']. apply IH; assumption.
Qed.

(** * Crashes *)
Lemma append_states_spec : forall chunks w p f, fs_files w p = Some f -> forall w', In w' (append_states w p chunks) ->
  exists pre post f', concat chunks = pre ++ post /\ fs_files w' p = Some f' /\ f_bytes f' = f_bytes f ++ pre /\
    (forall q, q <> p -> fs_files w' q = fs_files w q).
Proof.
  induction chunks as [|c cs IH]; intros w p f Ef w' H; simpl in H.
  - destruct H as [<-|[]]. exists [], [], f. repeat split; auto. symmetry. apply app_nil_r.
  - destruct H as [<-|H].
    + exists [], (concat (c :: cs)), f. repeat split; auto. symmetry. apply app_nil_r.
    + assert (E1 : fs_files (fs_append w p c) p = Some (mkFile (f_bytes f ++ c) (f_readable f) (f_writable f))).
      { unfold fs_append. rewrite Ef. apply put_same. }
      destruct (IH _ _ _ E1 _ H) as (pre & post & f' & E & E' & B & O).
      exists (c ++ pre), post, f'. simpl. rewrite E, app_assoc. split; [reflexivity|]. split; [assumption|].
      split; [rewrite B; simpl; rewrite app_assoc; reflexivity|]. intros q Hq. rewrite O by assumption.
      unfold fs_append. rewrite Ef. apply put_other. assumption.
Qed.
Lemma rewrite_states_spec : forall w p chunks f, fs_files w p = Some f -> f_writable f = true ->
  forall w', In w' (rewrite_states w p chunks) ->
  exists f', fs_files w' p = Some f' /\ (forall q, q <> p -> fs_files w' q = fs_files w q) /\
   (f' = f \/ exists post, concat chunks = f_bytes f' ++ post).
Proof.
  intros w p chunks f Ef HW w' H. unfold rewrite_states in H. destruct H as [<-|H]; [exists f; auto|].
  unfold fs_create in H. rewrite Ef, HW in H.
  destruct (append_states_spec chunks _ p _ (put_same _ _ _) _ H) as (pre & post & f' & E & E' & B & O).
  exists f'. split; [assumption|]. split.
  - intros q Hq. rewrite O by assumption. apply put_other. assumption.
  - right. exists post. rewrite B. simpl. assumption.
Qed.

(** A prefix of one written line, read as the end of a file *)
Lemma enc_prefix_valid : forall t pre post, uni_text t -> enc t = pre ++ post -> forall t', uni_text t' -> pre = enc t' ->
  is_prefix t' t.
Proof.
  induction t as [|c t IH]; intros pre post HU E t' HU' ->.
  - destruct t' as [|c' t']; [exists []; reflexivity|]. simpl in E. destruct (cenc_cons c') as (b & r & Ec).
    rewrite Ec in E. discriminate.
  - destruct t' as [|c' t']; [exists (c :: t); reflexivity|]. simpl in E.
    inversion HU; subst. inversion HU'; subst.
    pose proof (dec1_cenc c (enc t) H1) as D1. rewrite E, <- app_assoc in D1. rewrite dec1_cenc in D1 by assumption.
    injection D1 as -> D1. destruct (IH (enc t') post ltac:(assumption) (eq_sym D1) t' ltac:(assumption) eq_refl) as [r ->].
    exists r. reflexivity.
Qed.
Definition maybe_part (t : text) (l : list text) : Prop := l = [] \/ exists t', is_prefix t' t /\ l = [t'].
Lemma entries_part : forall t pre post, uni_text t -> ~ In c_nl t -> enc t ++ [10%N] = pre ++ post ->
  maybe_part t (entries pre).
Proof.
  intros t pre post HU HN E. destruct post as [|b post].
  - rewrite app_nil_r in E. subst pre. rewrite entries_line by (rewrite enc_nl; assumption).
    rewrite dec_enc by assumption. rewrite entries_nil.
    destruct (prefixb [c_hash] (strip_cr t)); [left; reflexivity|right]. exists (strip_cr t). split; [|reflexivity].
    destruct (ends_cr_dec t) as [[t' ->]|Hc].
    + rewrite strip_cr_yes. exists [c_cr]. reflexivity.
    + rewrite strip_cr_no by assumption. exists []. rewrite app_nil_r. reflexivity.
  - destruct (exists_last (l := b :: post)) as (post' & z & Ez); [discriminate|]. rewrite Ez, app_assoc in E.
    apply app_inj_tail in E as [E _]. destruct pre as [|x pre']; [left; reflexivity|]. remember (x :: pre') as pre.
    assert (HN' : ~ In 10%N pre). { intro C. rewrite <- enc_nl in HN. apply HN. rewrite E. apply in_or_app. left. assumption. }
    rewrite entries_last; [|assumption|subst; discriminate].
    destruct (dec pre) as [t'|] eqn:D; [|left; reflexivity]. apply dec_inv in D as [D1 D2].
    destruct (prefixb [c_hash] t'); [left; reflexivity|right]. exists t'. split; [|reflexivity].
    eapply enc_prefix_valid; eauto.
Qed.
Lemma entries_app_cut : forall n old extra, length old <= n -> (old = [] \/ exists o, old = o ++ [10%N]) ->
  entries (old ++ extra) = entries old ++ entries extra \/ entries (old ++ extra) = entries old.
Proof.
  induction n as [|n IH]; intros old extra Hn HO.
  - destruct old; [left; reflexivity|simpl in Hn; lia].
  - destruct (split_nl old) as [(p & rest & -> & Hp)|H].
    + rewrite <- app_assoc. change ((10%N :: rest) ++ extra) with (10%N :: (rest ++ extra)).
      rewrite !entries_line by assumption.
      destruct (dec p) as [t|]; [|right; reflexivity].
      assert (HR : rest = [] \/ exists o, rest = o ++ [10%N]).
      { destruct HO as [HO|[o HO]]; [destruct p; discriminate|].
        destruct (last_opt rest) as [z|] eqn:EL.
        - apply last_opt_Some in EL as [r' ->]. right. exists r'. f_equal.
          change (p ++ 10%N :: r' ++ [z]) with (p ++ (10%N :: r') ++ [z]) in HO. rewrite app_assoc in HO.
          apply app_inj_tail in HO as [_ HO]. subst. reflexivity.
        - left. apply last_opt_None. assumption. }
      destruct (IH rest extra) as [E|E]; [rewrite app_length in Hn; simpl in Hn; lia|assumption| |];
      rewrite E; destruct (prefixb [c_hash] (strip_cr t)); [left|left|right|right]; reflexivity.
    + destruct HO as [->|[o ->]]; [left; reflexivity|]. exfalso. apply H. apply in_or_app. right. left. reflexivity.
Qed.

(** * Statements with [reads] *)
Lemma load_reads : forall w h p bs r append n h',
  has_content w p bs -> reads bs r -> load_history_file w h p append = (n, h') ->
  bs <> [] \/ append = false ->
  (h_loaddup h = false -> append = true -> forall t, In t (texts h) -> ~ In c_nl t) ->
  n = Some (length bs) /\
  exists kept, newest (h_maxfile h) ((if append then texts h else []) ++ r) kept /\
    (h_loaddup h = true -> texts h' = kept) /\ (h_loaddup h = false -> last_occ kept (texts h')).
Proof.
  intros w h p bs r append n h' HC HR H HE HN. apply reads_iff in HR. subst r.
  destruct (load_file_spec w h p bs append n h' HC H) as (E & H0 & H1). split; [assumption|].
  destruct (list_eq_dec N.eq_dec bs []) as [->|Hb].
  - destruct HE as [HE|HE]; [congruence|]. subst append. specialize (H0 eq_refl).
    exists []. rewrite entries_nil. simpl. split; [apply newest_all; simpl; lia|].
    unfold texts. rewrite H0. split; [reflexivity|]. intros _. constructor.
  - destruct (H1 Hb) as (kept & HK & HD & HLo). exists kept. split; [assumption|]. split; [assumption|].
    intro HL. apply HLo; [assumption|]. intro HA. apply HN; assumption.
Qed.
Lemma load_append_empty : forall w h p n h', has_content w p [] -> load_history_file w h p true = (n, h') ->
  buffers h' = buffers h.
Proof.
  intros w h p n h' HC H. destruct (load_file_spec w h p [] true n h' HC H) as (_ & H0 & _). apply H0. reflexivity.
Qed.
Lemma load_history_reads : forall w h p bs r append, h_file h = Some p -> has_content w p bs -> reads bs r ->
  length bs <> h_fsize h ->
  (h_loaddup h = false -> append = true -> forall t, In t (texts h) -> ~ In c_nl t) ->
  exists h' kept, load_history w h append = (Some (length bs), h') /\ h_fsize h' = length bs /\
    newest (h_maxfile h) ((if append then texts h else []) ++ r) kept /\
    (h_loaddup h = true -> texts h' = kept) /\ (h_loaddup h = false -> last_occ kept (texts h')).
Proof.
  intros w h p bs r append HF HC HR HL HN. apply reads_iff in HR. subst r.
  destruct (load_history_changed w h p append bs HF HC HL) as (h' & E & _ & _ & _ & _ & S & kept & K1 & K2 & K3).
  exists h', kept. split; [assumption|]. split; [assumption|]. split; [assumption|]. split; [assumption|].
  intro L. apply K3; [assumption|]. intro; apply HN; assumption.
Qed.
Lemma commit_reload_exact : forall w h g p bs0, h_inc h = false -> can_write w p -> has_content w p bs0 ->
  Forall uni_text (texts h) -> h_loaddup g = true ->
  exists h' w' n g' kept, commit_to_file_path w h p = (true, h', w') /\
    load_history_file w' g p false = (n, g') /\ newest (h_maxfile h) (texts h) kept /\
    newest (h_maxfile g) (flat_map written_entry kept) (texts g').
Proof.
  intros w h g p bs0 HI HW HC HU HD.
  destruct (commit_reload w h p bs0 HI HW HC HU) as (h' & w' & E & kept & HK & HS & HE).
  assert (HC' : has_content w' p (lines_bytes kept)) by (eapply content_set_has; eauto).
  destruct (load_history_file w' g p false) as [n g'] eqn:EL.
  exists h', w', n, g', kept. split; [assumption|]. split; [assumption|]. split; [assumption|].
  destruct (load_reads w' g p _ (entries (lines_bytes kept)) false n g' HC' ltac:(apply reads_iff; reflexivity) EL (or_intror eq_refl)
    ltac:(discriminate)) as (_ & k & K1 & K2 & _).
  rewrite (K2 HD). rewrite <- HE. exact K1.
Qed.
Lemma commit_reload_plain : forall w h g p bs0, h_inc h = false -> can_write w p -> has_content w p bs0 ->
  Forall plain_line (texts h) -> h_loaddup g = true -> h_maxfile h <= h_maxfile g ->
  exists h' w' n g', commit_to_file_path w h p = (true, h', w') /\
    load_history_file w' g p false = (n, g') /\ newest (h_maxfile h) (texts h) (texts g').
Proof.
  intros w h g p bs0 HI HW HC HU HD HM.
  assert (HU' : Forall uni_text (texts h)).
  { eapply Forall_impl; [|exact HU]. intros t (H & _). exact H. }
  destruct (commit_reload_exact w h g p bs0 HI HW HC HU' HD) as (h' & w' & n & g' & kept & E1 & E2 & K1 & K2).
  exists h', w', n, g'. split; [assumption|]. split; [assumption|].
  rewrite written_plain in K2 by (eapply newest_Forall; eassumption).
  assert (texts g' = kept) as ->; [|exact K1].
  eapply newest_unique; [exact K2|]. apply newest_all. apply newest_length in K1. lia.
Qed.
Lemma written_entry_spec : forall t l, written_entry t = l <->
  exists ps, ps <> [] /\ glue c_nl ps = t /\ Forall (fun p => ~ In c_nl p) ps /\
    selects (fun s => ~ comment s) (map strip_cr ps) l.
Proof.
  intros t l. unfold written_entry. 
  assert (F : forall s, negb (prefixb [c_hash] s) = true <-> ~ comment s).
  { intro s. rewrite negb_true_iff, <- comment_iff. destruct (prefixb [c_hash] s); split; congruence. }
  split.
  - intros <-. exists (split_on c_nl t). split; [apply split_on_nonempty|]. split; [apply glue_split|].
    split; [apply split_on_nosep|]. apply selects_filter. exact F.
  - intros (ps & H1 & <- & H3 & H4). rewrite split_glue by assumption. apply (selects_filter_iff _ _ _ _ F). exact H4.
Qed.
Lemma push_compacts_reads : forall w h p b bs r, h_inc h = true -> h_file h = Some p -> can_write w p -> has_content w p bs ->
  reads bs r -> accepts h (data b) -> h_loaddup h = false -> 29 <= h_compact h -> h_share h = false ->
  exists h' w' kept L, hist_push w h b = (h', w') /\
    newest (h_maxbuf h) (buffers h ++ [b]) (buffers h') /\
    newest (h_maxfile h) r kept /\ last_occ kept L /\
    ((content_set w w' p (lines_bytes L)) \/ (w' = w /\ L = r)) /\ h_compact h' = 0 /\ h_fsize h' = h_fsize h.
Proof.
  intros w h p b bs r HI HF HW HC HR. apply reads_iff in HR. subst r. intros. eapply push_compacts; eassumption.
Qed.
Lemma push_shared_changed_reads : forall w h p b bs r, h_inc h = true -> h_file h = Some p -> can_write w p -> has_content w p bs ->
  reads bs r -> accepts h (data b) -> h_loaddup h = false -> 29 <= h_compact h -> h_share h = true -> length bs <> h_fsize h ->
  exists h' w' kept, hist_push w h b = (h', w') /\ newest (h_maxfile h) r kept /\
    last_occ kept (texts h') /\ content_set w w' p (lines_bytes (texts h')).
Proof.
  intros w h p b bs r HI HF HW HC HR. apply reads_iff in HR. subst r. intros. eapply push_shared_changed; eassumption.
Qed.
Lemma push_kept : forall w h p b bs, h_inc h = true -> h_file h = Some p -> can_write w p -> has_content w p bs ->
  accepts h (data b) -> h_loaddup h = false -> h_share h = true -> 0 < h_maxbuf h -> 0 < h_maxfile h ->
  h_compact h < 29 \/ (length bs = h_fsize h /\ bs <> []) ->
  exists h' w' old, hist_push w h b = (h', w') /\ last_opt (texts h') = Some (data b) /\
    content_set w w' p (old ++ enc (data b) ++ [10%N]).
Proof.
  intros w h p b bs HI HF HW HC HA HL HS Hb Hf HD.
  destruct (Nat.lt_ge_cases (h_compact h) 29) as [HK|HK].
  - destruct (push_appends w h p b HI HF HW HA (or_intror HK)) as (h' & w' & f & E & Ef & C & HN & _).
    exists h', w', (f_bytes f). split; [assumption|]. split; [|assumption].
    pose proof (newest_last _ _ _ Hb (newest_map data _ _ _ HN)) as X. rewrite map_app in X. simpl in X.
    rewrite last_opt_app in X. exact X.
  - destruct HD as [HD|[HD1 HD2]]; [lia|].
    destruct (push_shared_same w h p b bs HI HF HW HC HA HL HK HS HD1 HD2) as (h' & w' & E & HN & C).
    assert (X : last_opt (texts h') = Some (data b)).
    { assert (0 < Nat.min (h_maxbuf h) (h_maxfile h)) as Hm by lia.
      pose proof (newest_last _ _ _ Hm (newest_map data _ _ _ HN)) as X. rewrite map_app in X. simpl in X.
      rewrite last_opt_app in X. exact X. }
    apply last_opt_Some in X as [l' El]. exists h', w', (lines_bytes l'). split; [assumption|].
    split; [rewrite El; apply last_opt_app|].
    rewrite El, lines_bytes_app in C. simpl in C. rewrite app_nil_r in C. exact C.
Qed.
Lemma crash_append : forall w p f t chunks w', fs_files w p = Some f ->
  f_bytes f = [] \/ (exists o, f_bytes f = o ++ [10%N]) ->
  uni_text t -> ~ In c_nl t -> concat chunks = enc t ++ [10%N] ->
  In w' (append_states w p chunks) -> forall r, reads (f_bytes f) r ->
  exists f' r', fs_files w' p = Some f' /\ reads (f_bytes f') r' /\
    (r' = r \/ exists t', is_prefix t' t /\ r' = r ++ [t']).
Proof.
  intros w p f t chunks w' Ef HO HU HN HCk HI r HR. apply reads_iff in HR. subst r.
  destruct (append_states_spec chunks w p f Ef w' HI) as (pre & post & f' & E & E' & B & _).
  exists f', (entries (f_bytes f')). split; [assumption|]. split; [apply reads_iff; reflexivity|]. rewrite B.
  destruct (entries_app_cut _ (f_bytes f) pre (le_n _) HO) as [X|X]; rewrite X; [|left; reflexivity].
  rewrite HCk in E. destruct (entries_part t pre post HU HN E) as [Y|(t' & Y1 & Y2)].
  - left. rewrite Y. apply app_nil_r.
  - right. exists t'. rewrite Y2. auto.
Qed.
Lemma append_states_last : forall chunks w p f, fs_files w p = Some f ->
  exists l w', append_states w p chunks = l ++ [w'] /\
    content_set w w' p (f_bytes f ++ concat chunks).
Proof.
  induction chunks as [|c cs IH]; intros w p f Ef.
  - exists [], w. split; [reflexivity|]. rewrite app_nil_r. split; [|reflexivity]. exists f. split; [assumption|].
    rewrite Ef. destruct f; reflexivity.
  - assert (E1 : fs_files (fs_append w p c) p = Some (mkFile (f_bytes f ++ c) (f_readable f) (f_writable f))).
    { unfold fs_append. rewrite Ef. apply put_same. }
    destruct (IH _ _ _ E1) as (l & w' & E & C). exists (w :: l), w'. cbn [append_states]. rewrite E.
    split; [reflexivity|]. simpl in C. rewrite <- app_assoc in C. eapply content_set_trans; [|exact C].
    exact (append_content w p f c Ef).
Qed.
Lemma rewrite_states_last : forall w p chunks, can_write w p ->
  exists l w', rewrite_states w p chunks = l ++ [w'] /\ content_set w w' p (concat chunks).
Proof.
  intros w p chunks HW. destruct (create_write w p HW) as (w1 & E & C). unfold rewrite_states. rewrite E.
  destruct C as ((f & F & F1) & C). destruct (append_states_last chunks w1 p _ F1) as (l & w' & El & C').
  exists (w :: l), w'. rewrite El. split; [reflexivity|]. simpl in C'.
  eapply content_set_trans; [|exact C']. split; [exists f; split; eassumption|exact C].
Qed.
