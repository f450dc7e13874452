(** The UTF-8 encoder and decoder are inverse to each other. *)
From Coq Require Import ZifyBool ZifyNat ZifyN.
From Verif Require Import Base Utf8.
Ltac Zify.zify_post_hook ::= Z.div_mod_to_equations.

Lemma cenc_length : forall c, length (cenc c) = clen c.
Proof.
  intro c. unfold cenc, clen.
  destruct (c <? 128)%N; [reflexivity|]. destruct (c <? 2048)%N; [reflexivity|].
  destruct (c <? 65536)%N; reflexivity.
Qed.
Lemma enc_length : forall t, length (enc t) = blen t.
Proof.
  induction t as [|c t IH]; simpl; [reflexivity|].
  rewrite app_length, cenc_length, IH. reflexivity.
Qed.
Lemma clen_pos : forall c, 0 < clen c.
Proof.
  intro c. unfold clen. destruct (c <? 128)%N, (c <? 2048)%N, (c <? 65536)%N; lia.
Qed.

Ltac kill_if :=
  repeat match goal with
  | |- context [if ?b then _ else _] => let E := fresh "E" in destruct b eqn:E
  end.

Lemma dec1_cenc : forall c r, scalar c = true -> dec1 (cenc c ++ r) = Some (c, r).
Proof.
  intros c r Hs. unfold scalar in Hs. unfold cenc.
  destruct (c <? 128)%N eqn:E1.
  { simpl. rewrite E1. reflexivity. }
  destruct (c <? 2048)%N eqn:E2.
  { cbn [app dec1].
    assert (H1 : (192 + c / 64 <? 128)%N = false) by lia.
    assert (H2 : ((194 <=? 192 + c / 64) && (192 + c / 64 <=? 223))%N = true) by lia.
    assert (H3 : is_cont (128 + c mod 64)%N = true) by (unfold is_cont; lia).
    rewrite H1, H2, H3. f_equal. f_equal. lia. }
  destruct (c <? 65536)%N eqn:E3.
  { cbn [app dec1].
    assert (H1 : (224 + c / 4096 <? 128)%N = false) by lia.
    assert (H2 : ((194 <=? 224 + c / 4096) && (224 + c / 4096 <=? 223))%N = false) by lia.
    assert (H2' : ((224 <=? 224 + c / 4096) && (224 + c / 4096 <=? 239))%N = true) by lia.
    assert (H3 : is_cont (128 + (c / 64) mod 64)%N = true) by (unfold is_cont; lia).
    assert (H4 : is_cont (128 + c mod 64)%N = true) by (unfold is_cont; lia).
    rewrite H1, H2, H2', H3, H4. cbn [andb].
    assert (H5 : (if (224 + c / 4096 =? 224)%N then (160 <=? 128 + (c / 64) mod 64)%N else true) = true).
    { destruct (224 + c / 4096 =? 224)%N eqn:E; lia. }
    assert (H6 : (if (224 + c / 4096 =? 237)%N then (128 + (c / 64) mod 64 <=? 159)%N else true) = true).
    { destruct (224 + c / 4096 =? 237)%N eqn:E; lia. }
    rewrite H5, H6. cbn [andb]. f_equal. f_equal. lia. }
  cbn [app dec1].
  assert (Hc : (65536 <= c <= 1114111)%N) by lia. clear Hs E1 E2 E3.
  assert (Hq : (c / 262144 <= 4)%N) by lia.
  assert (H1 : (240 + c / 262144 <? 128)%N = false) by lia.
  assert (H2 : ((194 <=? 240 + c / 262144) && (240 + c / 262144 <=? 223))%N = false) by lia.
  assert (H2' : ((224 <=? 240 + c / 262144) && (240 + c / 262144 <=? 239))%N = false) by lia.
  assert (H2'' : ((240 <=? 240 + c / 262144) && (240 + c / 262144 <=? 244))%N = true) by lia.
  assert (H3 : is_cont (128 + (c / 4096) mod 64)%N = true) by (unfold is_cont; lia).
  assert (H3' : is_cont (128 + (c / 64) mod 64)%N = true) by (unfold is_cont; lia).
  assert (H4 : is_cont (128 + c mod 64)%N = true) by (unfold is_cont; lia).
  rewrite H1, H2, H2', H2'', H3, H3', H4. cbn [andb].
  assert (H5 : (if (240 + c / 262144 =? 240)%N then (144 <=? 128 + (c / 4096) mod 64)%N else true) = true).
  { destruct (240 + c / 262144 =? 240)%N eqn:E; lia. }
  assert (H6 : (if (240 + c / 262144 =? 244)%N then (128 + (c / 4096) mod 64 <=? 143)%N else true) = true).
  { destruct (240 + c / 262144 =? 244)%N eqn:E; lia. }
  rewrite H5, H6. cbn [andb]. f_equal. f_equal. lia.
Qed.

Lemma cenc_cons : forall c, exists b r, cenc c = b :: r.
Proof.
  intro c. unfold cenc. destruct (c <? 128)%N, (c <? 2048)%N, (c <? 65536)%N; eauto.
Qed.

Lemma dec_fuel_enc : forall t n, Forall (fun c => scalar c = true) t -> length (enc t) <= n ->
  dec_fuel n (enc t) = Some t.
Proof.
  induction t as [|c t IH]; intros n HF Hn.
  - destruct n; reflexivity.
  - inversion HF as [|? ? Hc HF']; subst. simpl in Hn. rewrite app_length, cenc_length in Hn.
    pose proof (clen_pos c). destruct n as [|n]; [lia|].
    simpl enc. destruct (cenc_cons c) as (b & r & Ec).
    pose proof (dec1_cenc c (enc t) Hc) as Hd.
    rewrite Ec in *. cbn [app] in *. cbn [dec_fuel]. rewrite Hd.
    rewrite IH; [reflexivity|assumption|lia].
Qed.
Lemma dec_enc : forall t, Forall (fun c => scalar c = true) t -> dec (enc t) = Some t.
Proof. intros. apply dec_fuel_enc; [assumption|apply le_n]. Qed.

Lemma dec1_inv : forall bs c r, dec1 bs = Some (c, r) -> scalar c = true /\ bs = cenc c ++ r.
Proof.
  intros bs c r H. unfold dec1 in H. destruct bs as [|b0 bs]; [discriminate|].
  destruct (b0 <? 128)%N eqn:E0.
  { inversion H; subst. split; [unfold scalar; lia|]. unfold cenc. rewrite E0. reflexivity. }
  destruct ((194 <=? b0) && (b0 <=? 223))%N eqn:E1.
  { destruct bs as [|b1 bs]; [discriminate|]. destruct (is_cont b1) eqn:C1; [|discriminate].
    unfold is_cont in C1. inversion H; subst. split; [unfold scalar; lia|]. unfold cenc.
    assert (A1 : ((b0 - 192) * 64 + (b1 - 128) <? 128)%N = false) by lia.
    assert (A2 : ((b0 - 192) * 64 + (b1 - 128) <? 2048)%N = true) by lia.
    rewrite A1, A2. cbn [app]. f_equal; [lia|]. f_equal. lia. }
  destruct ((224 <=? b0) && (b0 <=? 239))%N eqn:E2.
  { destruct bs as [|b1 [|b2 bs]]; try discriminate.
    destruct (is_cont b1) eqn:C1; [|discriminate]. destruct (is_cont b2) eqn:C2; [|discriminate].
    cbn [andb] in H. unfold is_cont in C1, C2.
    destruct (if (b0 =? 224)%N then (160 <=? b1)%N else true) eqn:F1; [|discriminate].
    destruct (if (b0 =? 237)%N then (b1 <=? 159)%N else true) eqn:F2; [|discriminate].
    cbn [andb] in H. inversion H; subst. clear H.
    assert (G1 : (b0 = 224 -> 160 <= b1)%N).
    { intro; subst. simpl in F1. lia. }
    assert (G2 : (b0 = 237 -> b1 <= 159)%N).
    { intro; subst. simpl in F2. lia. }
    clear F1 F2. split; [unfold scalar; lia|]. unfold cenc.
    set (v := ((b0 - 224) * 4096 + (b1 - 128) * 64 + (b2 - 128))%N).
    assert (Hv : v = ((b0 - 224) * 4096 + (b1 - 128) * 64 + (b2 - 128))%N) by reflexivity.
    clearbody v.
    assert (A1 : (v <? 128)%N = false) by lia.
    assert (A2 : (v <? 2048)%N = false) by lia.
    assert (A3 : (v <? 65536)%N = true) by lia.
    rewrite A1, A2, A3. cbn [app]. f_equal; [lia|]. f_equal; [lia|]. f_equal. lia. }
  destruct ((240 <=? b0) && (b0 <=? 244))%N eqn:E3; [|discriminate].
  destruct bs as [|b1 [|b2 [|b3 bs]]]; try discriminate.
  destruct (is_cont b1) eqn:C1; [|discriminate]. destruct (is_cont b2) eqn:C2; [|discriminate].
  destruct (is_cont b3) eqn:C3; [|discriminate].
  cbn [andb] in H. unfold is_cont in C1, C2, C3.
  destruct (if (b0 =? 240)%N then (144 <=? b1)%N else true) eqn:F1; [|discriminate].
  destruct (if (b0 =? 244)%N then (b1 <=? 143)%N else true) eqn:F2; [|discriminate].
  cbn [andb] in H. inversion H; subst. clear H.
  assert (G1 : (b0 = 240 -> 144 <= b1)%N).
  { intro; subst. simpl in F1. lia. }
  assert (G2 : (b0 = 244 -> b1 <= 143)%N).
  { intro; subst. simpl in F2. lia. }
  clear F1 F2.
  set (v := ((b0 - 240) * 262144 + (b1 - 128) * 4096 + (b2 - 128) * 64 + (b3 - 128))%N).
  assert (Hv : v = ((b0 - 240) * 262144 + (b1 - 128) * 4096 + (b2 - 128) * 64 + (b3 - 128))%N) by reflexivity.
  clearbody v.
  assert (R : (65536 <= v <= 1114111)%N) by lia.
  split; [unfold scalar; lia|]. unfold cenc.
  assert (A1 : (v <? 128)%N = false) by lia.
  assert (A2 : (v <? 2048)%N = false) by lia.
  assert (A3 : (v <? 65536)%N = false) by lia.
  rewrite A1, A2, A3. cbn [app]. f_equal; [lia|]. f_equal; [lia|]. f_equal; [lia|]. f_equal. lia.
Qed.

Lemma dec_fuel_inv : forall n bs t, dec_fuel n bs = Some t ->
  Forall (fun c => scalar c = true) t /\ bs = enc t.
Proof.
  induction n as [|n IH]; intros bs t H.
  - destruct bs; inversion H; subst. split; [constructor|reflexivity].
  - destruct bs as [|b bs]; [inversion H; subst; split; [constructor|reflexivity]|].
    cbn [dec_fuel] in H. destruct (dec1 (b :: bs)) as [[c r]|] eqn:E; [|discriminate].
    destruct (dec_fuel n r) as [t'|] eqn:E'; [|discriminate]. inversion H; subst.
    apply dec1_inv in E as [Hc E]. apply IH in E' as [HF E']. split; [constructor; assumption|].
    simpl. rewrite E, E'. reflexivity.
Qed.
Lemma dec_inv : forall bs t, dec bs = Some t -> Forall (fun c => scalar c = true) t /\ bs = enc t.
Proof. intros bs t H. eapply dec_fuel_inv. exact H. Qed.

Lemma blen_app : forall a b, blen (a ++ b) = blen a + blen b.
Proof. induction a as [|c a IH]; intro b; simpl; [reflexivity|]. rewrite IH. lia. Qed.
Lemma enc_app : forall a b, enc (a ++ b) = enc a ++ enc b.
Proof. intros. unfold enc. apply flat_map_app. Qed.
