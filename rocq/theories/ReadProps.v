(** Reading one line with the Emacs keys: C87. *)
From Verif Require Import Base BufferModel UtilModel BufferSpec UtilSpec HistoryModel HistorySpec EditorState EditorModel
  KeymapModel Tests Samples EditorSpec EmacsSpec BookSpec SafeSpec ReadSpec ReadProofs ReadTotal.
Local Open Scope monad_scope.

(** ** C87: read_line returns exactly the line a pure editor computes

    The keys are all but Tab, Ctrl-r, Ctrl-s, Alt-<, Alt-> and Alt-. ; the
    history is not shared, and is left as it was. *)
Theorem C87 : forall words E p f ib h w cb ttys l,
  (forall t, increasing (words t)) -> h_share h = false -> actions ib = [] ->
  Forall (fun y => readable (snd y) /\ e_words (fst y) = words) l ->
  let r := read words (texts h) (map snd l) (mkBook (mkZ (data ib) [] []) [[]] None) in
  match emacs_read_line E p f ib h w cb ttys l with
  | ORet t (_, s) => r = Line t /\ ed_history s = h
  | OErr EInterrupted _ => r = Interrupted
  | OErr EUnexpectedEof _ => r = Eof
  | _ => True
  end.
Proof. exact emacs_reads. Qed.
Print Assumptions C87.

(** A line is typed over two rows, an entry recalled and changed; the keys after
    Enter are not looked at.  Ctrl-c and Ctrl-d on an empty line. *)
Example C87_case :
  let hs := [str "ls -l"; str "cd \"; str "false"] in
  let reads ks := emacs_read_line test_env (mkPrompt (str "$ ") None) None buf_new (hist_of hs) no_fs [] [] (map (pair test_env) ks) in
  let got ks := match reads ks with
    | ORet t _ => Some (Line t)
    | OErr EInterrupted _ => Some Interrupted
    | OErr EUnexpectedEof _ => Some Eof
    | _ => None
    end in
  let pure ks := read get_buffer_words hs ks (mkBook (mkZ [] [] []) [[]] None) in
  let k1 := keys (str "c") ++ [KUp; KChar c_nl; KChar (ch "x"); KUp; KDown; KUp; KHome; KDelete; KEnd; KBackspace; KChar c_nl; KChar (ch "z"); KChar c_nl] in
  let k2 := [KUp; KCtrl (ch "u"); KCtrl (ch "d"); KChar c_nl] in
  let k3 := [KUp; KUp; KChar c_nl; KChar (ch "a"); KUp; KChar (ch "b"); KCtrl (ch "c")] in
  let k4 := [KUp; KUp; KChar c_nl; KChar (ch "a"); KChar c_nl; KChar (ch "b")] in
  Forall readable (k1 ++ k2 ++ k3 ++ k4) /\ texts (hist_of hs) = hs /\ h_share (hist_of hs) = false /\
  map got [k1; k2; k3; k4] =
    [Some (Line (str "d ")); Some Eof; Some Interrupted; Some (Line (str "cd \" ++ c_nl :: str "a"))] /\
  map pure [k1; k2; k3; k4] = [Line (str "d "); Eof; Interrupted; Line (str "cd \" ++ c_nl :: str "a")].
Proof.
  intros hs reads got pure k1 k2 k3 k4. split.
  { assert (R : forall k, match k with KChar c => c <> c_tab | KUp | KDown | KHome | KEnd | KDelete | KBackspace => True
        | KCtrl c => c = ch "c" \/ c = ch "u" \/ c = ch "d" | _ => False end -> readable k).
    { intros k H. unfold readable. destruct k as [c| |c| | | | | | | | | | |]; try contradiction; try (right; right; exact I).
      - destruct (N.eq_dec c c_nl) as [->|Hc]; [auto|]. right. right. split; assumption.
      - destruct H as [-> |[-> | ->]]; [auto| |]; right; right; cbn; (intro H; repeat (destruct H as [H|H]; [discriminate H|]); exact H). }
    subst k1 k2 k3 k4. cbn [app keys map]. repeat (constructor; [apply R; cbn; try discriminate; tauto|]). constructor. }
  split; [reflexivity|]. split; [reflexivity|]. split; vm_compute; reflexivity.
Qed.

(** On a terminal that takes the output and tells its width, and for text of the
    kinds of C25, nothing else can happen but the wrap of a 16-bit row number:
    the reply is the one of the pure editor. *)
Theorem C87_exact : forall ascii flat, ascii = true \/ flat = true ->
  forall words E p f ib h w cb ttys l,
  ok_env ascii flat false E -> e_wok E = true /\ e_size E <> None ->
  Forall (fun y => readable (snd y) /\ e_words (fst y) = words /\ (e_wok (fst y) = true /\ e_size (fst y) <> None) /\
    ok_env ascii flat false (fst y) /\ ok_key ascii flat false (snd y)) l ->
  (forall t, increasing (words t)) -> h_share h = false -> Forall (ok_text ascii flat false) (texts h) ->
  ok_text ascii flat false (data ib) -> actions ib = [] -> undone ib = [] -> e_ttywidth E <> Some 0 ->
  let r := read words (texts h) (map snd l) (mkBook (mkZ (data ib) [] []) [[]] None) in
  match emacs_read_line E p f ib h w cb ttys l with
  | ORet t (_, s) => r = Line t /\ ed_history s = h
  | OErr e _ => match e with EInterrupted => r = Interrupted | EUnexpectedEof => r = Eof | EOther => False end
  | OPanic q => q = PU16
  | OFuel => False
  end.
Proof. exact emacs_read_exact. Qed.
Print Assumptions C87_exact.

(** The sessions above are of that kind (the surroundings: C25_env_case), and a
    terminal that refuses the output is not. *)
Example C87_exact_case :
  let hs := [str "ls -l"; str "cd \"; str "false"] in
  let ks := keys (str "c") ++ [KUp; KChar c_nl; KChar (ch "x"); KUp; KDown; KHome; KDelete; KCtrl (ch "c"); KChar c_nl] in
  let reads E := emacs_read_line E (mkPrompt (str "$ ") None) None buf_new (hist_of hs) no_fs [] [] (map (pair E) ks) in
  (e_wok test_env = true /\ e_size test_env <> None) /\ e_ttywidth test_env <> Some 0 /\
  Forall (ok_text true false false) (texts (hist_of hs)) /\ Forall (ok_key true false false) ks /\
  match reads test_env with OErr EInterrupted _ => True | _ => False end /\
  match reads (mkEnv ascii_uni (Some 80) false (Some 80) get_buffer_words (fun _ => [])) with OErr EOther _ => True | _ => False end.
Proof.
  intros hs ks reads. split; [split; [reflexivity|discriminate]|]. split; [discriminate|].
  split; [repeat (constructor; [vm_compute; repeat (constructor; [repeat split; intros; try discriminate; auto|]); constructor|]); constructor|].
  split; [unfold ks; vm_compute; repeat (constructor; [first [exact I | left; reflexivity | right; split; discriminate
    | right; left; reflexivity | right; right; repeat split; intros; discriminate || auto]|]); constructor|].
  split; vm_compute; exact I.
Qed.
