(** * Facts about the API model. *)
From Verif Require Import Base BaseFacts Hex Types Rlp FixedCodec Executor Mempool Wire Storage Consensus Api ApiSpec.
From Coq Require Import ZifyBool ZifyNat ZifyN.
Local Open Scope N_scope.

Definition enc (c : N) : bytes := flat_map utf8_char (char_upper c).
Lemma as_hex_enc t : as_hex t = flat_map enc (clean_text t).
Proof.
  unfold as_hex. induction (clean_text t) as [|c l IH]; [reflexivity|]. cbn [flat_map]. rewrite flat_map_app, IH. reflexivity.
Qed.

Lemma digit_cases c v : digit c v -> exists d, enc c = [d] /\ hex_val d = Some v.
Proof.
  intros [Hv H].
  assert (v = 0 \/ v = 1 \/ v = 2 \/ v = 3 \/ v = 4 \/ v = 5 \/ v = 6 \/ v = 7 \/
          v = 8 \/ v = 9 \/ v = 10 \/ v = 11 \/ v = 12 \/ v = 13 \/ v = 14 \/ v = 15) as D by lia.
  clear Hv.
  repeat (destruct D as [->|D];
    [destruct H as [[H ->]|[H [-> | ->]]]; try lia; (eexists; split; [vm_compute; reflexivity|vm_compute; reflexivity])|]).
  subst v. destruct H as [[H ->]|[H [-> | ->]]]; try lia; (eexists; split; [vm_compute; reflexivity|vm_compute; reflexivity]).
Qed.

Lemma high_no_val n : 128 <= n -> n < 256 -> hex_val (byte_of n) = None.
Proof. intros H1 H2. unfold hex_val. rewrite bN_byte_of_small by lia. 
  destruct ((48 <=? n) && (n <=? 57)) eqn:A; [lia|]. destruct ((97 <=? n) && (n <=? 102)) eqn:B; [lia|].
  destruct ((65 <=? n) && (n <=? 70)) eqn:C; [lia|]. reflexivity. Qed.

Lemma enc_first c : c < 1114112 -> c <> 64256 ->
  exists d r, enc c = d :: r /\ forall v, hex_val d = Some v -> r = [] /\ digit c v.
Proof.
  intros Hc Hl. unfold enc, char_upper.
  destruct ((97 <=? c) && (c <=? 122)) eqn:E1.
  - cbn [flat_map]. unfold utf8_char. destruct (c - 32 <? 128) eqn:E2; [|lia]. eexists _, _. split; [reflexivity|].
    intros v. unfold hex_val. rewrite bN_byte_of_small by lia.
    destruct ((48 <=? c - 32) && (c - 32 <=? 57)) eqn:A; [lia|]. destruct ((97 <=? c - 32) && (c - 32 <=? 102)) eqn:B; [lia|].
    destruct ((65 <=? c - 32) && (c - 32 <=? 70)) eqn:C; [|discriminate]. intros [= <-]. split; [reflexivity|]. unfold digit. lia.
  - destruct (N.eqb_spec c 64256) as [E|_]; [contradiction|]. cbn [flat_map]. unfold utf8_char.
    destruct (c <? 128) eqn:E2.
    + eexists _, _. split; [reflexivity|]. intros v. unfold hex_val. rewrite bN_byte_of_small by lia.
      destruct ((48 <=? c) && (c <=? 57)) eqn:A; [intros [= <-]; split; [reflexivity|]; unfold digit; lia|].
      destruct ((97 <=? c) && (c <=? 102)) eqn:B; [lia|].
      destruct ((65 <=? c) && (c <=? 70)) eqn:C; [|discriminate]. intros [= <-]. split; [reflexivity|]. unfold digit. lia.
    + destruct (c <? 2048) eqn:E3; [|destruct (c <? 65536) eqn:E4];
        (eexists _, _; split; [reflexivity|]; intros v; rewrite high_no_val by lia; discriminate).
Qed.

(** No upper-cased string contains an 'x'. *)
Lemma enc_no_x c : c < 1114112 -> Forall (fun b => b <> x78) (enc c).
Proof.
  intros Hc.
  assert (forall n, 121 <= n \/ n < 120 -> n < 256 -> byte_of n <> x78) as Hb.
  { intros n H1 H2 E. apply (f_equal bN) in E. rewrite bN_byte_of_small in E by lia. change (bN x78) with 120 in E. lia. }
  unfold enc, char_upper. destruct ((97 <=? c) && (c <=? 122)) eqn:E1.
  - cbn [flat_map]. rewrite app_nil_r. unfold utf8_char. destruct (c - 32 <? 128) eqn:E2; [|lia].
    constructor; [apply Hb; lia|constructor].
  - destruct (c =? 64256); [cbn; repeat constructor; discriminate|].
    cbn [flat_map]. rewrite app_nil_r. unfold utf8_char.
    destruct (c <? 128) eqn:E2; [constructor; [apply Hb; lia|constructor]|].
    assert (forall a, a mod 64 < 64) as Hm by (intros; apply N.mod_lt; lia).
    assert (forall a, byte_of (128 + a mod 64) <> x78) as Hb' by (intros a; specialize (Hm a); apply Hb; lia).
    destruct (c <? 2048) eqn:E3; [|destruct (c <? 65536) eqn:E4]; repeat constructor; try apply Hb'; apply Hb; lia.
Qed.

Definition code (c : N) : Prop := c < 1114112 /\ c <> 64256.

Lemma clean_text_plain t : plain t -> Forall code (clean_text t).
Proof.
  intros H. destruct t as [|a [|b r]]; cbn [clean_text]; try exact H.
  destruct ((a =? 48) && (b =? 120)); [|exact H]. apply Forall_inv_tail, Forall_inv_tail in H. exact H.
Qed.

Lemma clean_0x_as_hex t : plain t -> clean_0x (as_hex t) = as_hex t.
Proof.
  intros H. rewrite as_hex_enc. apply clean_text_plain in H.
  assert (Forall (fun b => b <> x78) (flat_map enc (clean_text t))) as X.
  { induction H as [|c l [Hc _] _ IH]; [constructor|]. cbn [flat_map]. apply Forall_app. split; [apply enc_no_x, Hc|exact IH]. }
  destruct (flat_map enc (clean_text t)) as [|a [|b r]]; try reflexivity. cbn [clean_0x].
  apply Forall_inv_tail, Forall_inv in X. destruct (beqb a x30 && beqb b x78) eqn:E; [|reflexivity].
  apply andb_true_iff in E as [_ E]. apply beqb_eq in E. contradiction.
Qed.

(** The prefix is removed exactly when it is there. *)
Lemma clean_text_body t : unprefixed t (clean_text t).
Proof.
  destruct t as [|a [|b r]]; try (left; reflexivity). cbn [clean_text]. destruct ((a =? 48) && (b =? 120)) eqn:E; [|left; reflexivity].
  right. apply andb_true_iff in E as [E1 E2]. apply N.eqb_eq in E1, E2. subst. reflexivity.
Qed.
Lemma unprefixed_clean t body : unprefixed t body -> (forall r, body <> 48 :: 120 :: r) -> clean_text t = body.
Proof.
  intros [->| ->] H; [|reflexivity]. destruct body as [|a [|b r]]; try reflexivity. cbn [clean_text].
  destruct ((a =? 48) && (b =? 120)) eqn:E; [|reflexivity]. apply andb_true_iff in E as [E1 E2]. apply N.eqb_eq in E1, E2. subst.
  exfalso. eapply H. reflexivity.
Qed.

Lemma not_digit_x v : ~ digit 120 v.
Proof. unfold digit. lia. Qed.
Lemma not_digit_plus v : ~ digit 43 v.
Proof. unfold digit. lia. Qed.

Lemma spell_no_prefix body b : spell body b -> forall r, body <> 48 :: 120 :: r.
Proof. intros H r ->. inversion H; subst. eapply not_digit_x. eassumption. Qed.

Lemma pairs_spell body b : Forall code body -> hex_pairs (flat_map enc body) = Ok b <-> spell body b.
Proof.
  intros Hc. split.
  - revert b. induction body as [body IH] using (induction_ltof1 _ (@length N)). unfold ltof in IH. intros b.
    destruct body as [|h body]; [intros [= <-]; constructor|].
    pose proof (Forall_inv Hc) as [Hh1 Hh2]. apply Forall_inv_tail in Hc.
    destruct (enc_first h Hh1 Hh2) as (d & r & Ed & Hd). cbn [flat_map]. rewrite Ed.
    destruct (hex_val d) as [a|] eqn:Ea.
    2:{ destruct r as [|y r]; cbn [app]; [destruct (flat_map enc body)|]; cbn [hex_pairs]; rewrite ?Ea; discriminate. }
    destruct (Hd _ eq_refl) as [-> Da]. cbn [app].
    destruct body as [|l body]; [discriminate|].
    pose proof (Forall_inv Hc) as [Hl1 Hl2]. apply Forall_inv_tail in Hc.
    destruct (enc_first l Hl1 Hl2) as (d' & r' & Ed' & Hd'). cbn [flat_map]. rewrite Ed'. cbn [app hex_pairs].
    rewrite Ea. cbn [ok_or rbind]. destruct (hex_val d') as [v|] eqn:Ev; [|discriminate]. cbn [ok_or rbind].
    destruct (Hd' _ eq_refl) as [-> Dv]. cbn [app].
    destruct (hex_pairs (flat_map enc body)) as [t| |] eqn:Er; try discriminate. cbn [rbind]. intros [= <-].
    constructor; [exact Da|exact Dv|]. apply IH; [cbn [length]; lia|exact Hc|exact Er].
  - intros H. induction H as [|h l a b' t r Da Db _ IH]; [reflexivity|].
    apply Forall_inv_tail, Forall_inv_tail in Hc. destruct (digit_cases _ _ Da) as (d & Ed & Vd). destruct (digit_cases _ _ Db) as (d' & Ed' & Vd').
    cbn [flat_map]. rewrite Ed, Ed'. cbn [app hex_pairs]. rewrite Vd, Vd'. cbn [ok_or rbind]. rewrite (IH Hc). reflexivity.
Qed.

Lemma decode_spells t b : plain t -> hex_decode (as_hex t) = Ok b <-> spells t b.
Proof.
  intros H. rewrite hex_decode_spec, <- hex_pairs_spec, as_hex_enc, pairs_spell by (apply clean_text_plain, H). split.
  - intros Hs. exists (clean_text t). split; [apply clean_text_body|exact Hs].
  - intros (body & Hu & Hs). rewrite (unprefixed_clean _ _ Hu (spell_no_prefix _ _ Hs)). exact Hs.
Qed.

Lemma decode_text_spells t b : plain t -> decode_hex_text (as_hex t) = Ok b <-> spells t b.
Proof.
  intros H. unfold decode_hex_text. rewrite (clean_0x_as_hex _ H), <- (decode_spells t b H).
  destruct (hex_decode (as_hex t)); cbn [map_err]; split; intros X; try discriminate; congruence.
Qed.

Lemma vec_spells t b : plain t -> hex_to_vec_u8 (as_hex t) = Ok b <-> spells t b.
Proof.
  intros H. unfold hex_to_vec_u8. rewrite <- (decode_spells t b H).
  destruct (hex_decode (as_hex t)); cbn [map_err]; split; intros X; try discriminate; congruence.
Qed.

(** Nothing here panics. *)
Lemma hex_decode_np s : hex_decode s <> Panic.
Proof. unfold hex_decode. destruct (Nat.even (length s)); [apply hex_pairs_no_panic|discriminate]. Qed.

(** ** Numbers *)
Lemma number_of_ge vs acc : acc <= number_of vs acc.
Proof. revert acc. induction vs as [|v vs IH]; intros acc; cbn [number_of]; [lia|]. specialize (IH (16 * acc + v)). lia. Qed.

Lemma radix_spec ds acc n : Forall code ds -> acc < two64 ->
  radix_loop acc (flat_map enc ds) = Ok n <-> exists vs, Forall2 digit ds vs /\ u64v n = number_of vs acc.
Proof.
  intros Hc. revert acc. induction Hc as [|c ds [Hc1 Hc2] Hc IH]; intros acc Ha.
  - cbn [flat_map radix_loop]. split.
    + intros [= <-]. exists []. split; [constructor|]. cbn [number_of]. unfold wrap64. cbn [u64v]. apply N.mod_small, Ha.
    + intros (vs & Hv & En). inversion Hv; subst. cbn [number_of] in En. f_equal. apply u64_eq. rewrite En.
      unfold wrap64. cbn [u64v]. apply N.mod_small, Ha.
  - destruct (enc_first c Hc1 Hc2) as (d & r & Ed & Hd). cbn [flat_map]. rewrite Ed. cbn [app radix_loop]. split.
    + destruct (hex_val d) as [v|] eqn:Ev; [|discriminate]. cbn [ok_or rbind]. destruct (Hd _ eq_refl) as [-> Dv]. cbn [app].
      destruct (two64 <=? acc * 16) eqn:E1; [discriminate|]. destruct (two64 <=? acc * 16 + v) eqn:E2; [discriminate|].
      intros Hr. apply IH in Hr as (vs & Hv & En); [|apply N.leb_gt in E2; exact E2]. exists (v :: vs). split; [constructor; assumption|].
      cbn [number_of]. replace (16 * acc) with (acc * 16) by lia. exact En.
    + intros (vs & Hv & En). inversion Hv as [|? v ? vs' Dv Hv']; subst. destruct (digit_cases _ _ Dv) as (d' & Ed' & Vd).
      rewrite Ed' in Ed. injection Ed as <- <-. rewrite Vd. cbn [ok_or rbind app]. cbn [number_of] in En.
      pose proof (number_of_ge vs' (16 * acc + v)). pose proof (u64_lt n). 
      destruct (two64 <=? acc * 16) eqn:E1; [apply N.leb_le in E1; lia|].
      destruct (two64 <=? acc * 16 + v) eqn:E2; [apply N.leb_le in E2; lia|].
      apply IH; [apply N.leb_gt in E2; exact E2|]. exists vs'. split; [exact Hv'|]. replace (acc * 16) with (16 * acc) by lia. exact En.
Qed.

Lemma enc_plus c : code c -> forall r, enc c = x2b :: r -> c = 43 /\ r = [].
Proof.
  intros [H1 H2] r. unfold enc, char_upper. 
  assert (forall n, n < 256 -> byte_of n = x2b -> n = 43) as Hb.
  { intros n Hn E. apply (f_equal bN) in E. rewrite bN_byte_of_small in E by lia. exact E. }
  destruct ((97 <=? c) && (c <=? 122)) eqn:E1.
  - cbn [flat_map]. unfold utf8_char. destruct (c - 32 <? 128) eqn:E2; [|lia]. intros [= E _]. apply Hb in E; lia.
  - destruct (N.eqb_spec c 64256) as [E|_]; [contradiction|]. cbn [flat_map]. unfold utf8_char.
    destruct (c <? 128) eqn:E2; [intros [= E <-]; apply Hb in E; [auto|lia]|].
    destruct (c <? 2048) eqn:E3; [|destruct (c <? 65536) eqn:E4]; intros [= E _]; apply Hb in E; lia.
Qed.

Lemma enc_nonempty c : code c -> enc c <> [].
Proof. intros [H1 H2]. destruct (enc_first c H1 H2) as (d & r & -> & _). discriminate. Qed.

Lemma u64_spells t n : plain t -> hex_to_u64 (as_hex t) = Ok n <-> spells_number t (u64v n).
Proof.
  intros Hp. unfold hex_to_u64. rewrite as_hex_enc. pose proof (clean_text_plain t Hp) as Hc. split.
  - pose proof (clean_text_body t) as Hu. revert Hu Hc. generalize (clean_text t) as body. intros body Hu Hc.
    destruct body as [|c body]; [discriminate|]. pose proof (Forall_inv Hc) as Hcc. apply Forall_inv_tail in Hc.
    destruct (enc c) as [|d r] eqn:Ed; [exfalso; apply (enc_nonempty c Hcc), Ed|]. cbn [flat_map]. rewrite Ed. cbn [app from_str_radix16].
    destruct (beqb d x2b) eqn:Ep; cbv zeta iota.
    + apply beqb_eq in Ep. subst d. destruct (enc_plus c Hcc _ Ed) as [-> ->]. cbn [app].
      destruct (flat_map enc body) as [|y ys] eqn:Eb; [discriminate|]. rewrite <- Eb. intros Hr.
      apply radix_spec in Hr as (vs & Hv & En); [|exact Hc|reflexivity].
      exists (43 :: body), body, vs. repeat split; try assumption; [right; reflexivity|].
      intros ->. discriminate Eb.
    + replace (d :: r ++ flat_map enc body) with (flat_map enc (c :: body)) by (cbn [flat_map]; rewrite Ed; reflexivity).
      intros Hr. apply radix_spec in Hr as (vs & Hv & En); [|constructor; assumption|reflexivity].
      exists (c :: body), (c :: body), vs. repeat split; try assumption; [left; reflexivity|discriminate].
  - intros (body & ds & vs & Hu & Hb & Hne & Hv & En).
    assert (forall r, body <> 48 :: 120 :: r) as Hn.
    { intros r Er. destruct Hb as [->| ->]; [|discriminate]. subst ds. inversion Hv as [|? ? ? ? _ Hv']; subst.
      inversion Hv' as [|? ? ? ? Hx _]; subst. apply (not_digit_x _ Hx). }
    rewrite (unprefixed_clean _ _ Hu Hn) in *.
    destruct ds as [|c ds]; [contradiction|]. inversion Hv as [|? v ? vs' Dv Hv']; subst ds vs. 
    destruct (digit_cases _ _ Dv) as (d & Ed & Vd).
    assert (beqb d x2b = false) as Ep.
    { destruct (beqb d x2b) eqn:Ep; [|reflexivity]. apply beqb_eq in Ep. subst d. discriminate Vd. }
    destruct Hb as [->| ->].
    + cbn [flat_map]. rewrite Ed. cbn [app from_str_radix16]. rewrite Ep. cbv zeta.
      change (d :: flat_map enc l) with ([d] ++ flat_map enc l). rewrite <- Ed. change (enc c ++ flat_map enc l) with (flat_map enc (c :: l)).
      apply radix_spec; [exact Hc|reflexivity|]. exists (v :: vs'). split; [constructor; assumption|exact En].
    + apply Forall_inv_tail in Hc. cbn [flat_map]. change (enc 43) with [x2b]. rewrite Ed. cbn [app from_str_radix16].
      change (beqb x2b x2b) with true. cbv zeta iota.
      change (d :: flat_map enc l) with ([d] ++ flat_map enc l). rewrite <- Ed. change (enc c ++ flat_map enc l) with (flat_map enc (c :: l)).
      apply radix_spec; [exact Hc|reflexivity|]. exists (v :: vs'). split; [constructor; assumption|exact En].
Qed.

(** ** Amounts *)
Lemma number_of_bytes body b : spell body b -> forall acc, exists vs,
  Nat.Even (length body) /\ Forall2 digit body vs /\ number_of vs acc = fold_left (fun a x => a * 256 + bN x) b acc.
Proof.
  induction 1 as [|h l a b' t r Da Db _ IH]; intros acc.
  - exists []. split; [exists 0%nat; reflexivity|]. split; [constructor|reflexivity].
  - destruct (IH (acc * 256 + (a * 16 + b'))) as (vs & [k Hk] & Hv & En). exists (a :: b' :: vs).
    split; [exists (S k); cbn [length]; lia|]. split; [constructor; [exact Da|constructor; assumption]|].
    cbn [number_of fold_left]. rewrite bN_byte_of_small by (destruct Da, Db; lia). rewrite <- En. f_equal. lia.
Qed.
Lemma spell_of_digits body vs : Nat.Even (length body) -> Forall2 digit body vs -> exists b, spell body b.
Proof.
  intros [k Hk]. revert body vs Hk. induction k as [|k IH]; intros body vs Hk Hv.
  - destruct body; [|discriminate]. exists []. constructor.
  - destruct body as [|h [|l body]]; cbn [length] in Hk; try lia. inversion Hv as [|? a ? vs1 Da Hv1]; subst.
    inversion Hv1 as [|? b ? vs2 Db Hv2]; subst. destruct (IH body vs2 ltac:(lia) Hv2) as [r Hr].
    eexists. constructor; eassumption.
Qed.
Lemma digit_fun c v w : digit c v -> digit c w -> v = w.
Proof. unfold digit. lia. Qed.
Lemma digits_fun ds vs ws : Forall2 digit ds vs -> Forall2 digit ds ws -> vs = ws.
Proof.
  intros H. revert ws. induction H as [|c v ds vs Hc _ IH]; intros ws Hw; inversion Hw; subst; [reflexivity|].
  f_equal; [eapply digit_fun; eassumption|apply IH; assumption].
Qed.
Lemma amount_spells t n : plain t ->
  (exists b, hex_to_vec_u8 (as_hex t) = Ok b /\ biguint_from_bytes_be b = n) <-> spells_amount t n.
Proof.
  intros Hp. split.
  - intros (b & Hb & En). apply (vec_spells t b Hp) in Hb as (body & Hu & Hs).
    destruct (number_of_bytes _ _ Hs 0) as (vs & He & Hv & Ev). exists body, vs. repeat split; try assumption.
    rewrite Ev, <- En. reflexivity.
  - intros (body & vs & Hu & He & Hv & En). destruct (spell_of_digits _ _ He Hv) as [b Hs]. exists b. split.
    { apply (vec_spells t b Hp). exists body. auto. }
    destruct (number_of_bytes _ _ Hs 0) as (ws & _ & Hw & Ev). rewrite (digits_fun _ _ _ Hv Hw) in En. rewrite En, Ev. reflexivity.
Qed.

(** ** Typed values *)
From Verif Require Import FixedCodecFacts CodecProps RlpFacts.
Lemma rbind_ok {X A B} (r : res X A) (k : A -> res X B) b : rbind r k = Ok b <-> exists a, r = Ok a /\ k a = Ok b.
Proof. destruct r; cbn [rbind]; split; intros H; [eauto|destruct H as (? & [= <-] & H); exact H|discriminate|destruct H as (? & ? & _); discriminate..|discriminate|destruct H as (? & ? & _); discriminate]. Qed.
Lemma map_err_ok {X Y A} (f : X -> Y) (r : res X A) a : map_err f r = Ok a <-> r = Ok a.
Proof. destruct r; cbn [map_err]; split; congruence. Qed.

Lemma hash_spells t h : plain t -> map_err ATypes (hash_from_hex (as_hex t)) = Ok h <-> spells t (sbytes h).
Proof.
  intros Hp. rewrite map_err_ok. unfold hash_from_hex. rewrite rbind_ok. split.
  - intros (b & Hb & Hh). apply hash_from_bytes_spec in Hh as ->. apply decode_text_spells; assumption.
  - intros Hs. exists (sbytes h). split; [apply decode_text_spells; assumption|apply hash_from_bytes_spec; reflexivity].
Qed.
Lemma user_spells t u : plain t -> map_err ATypes (user_from_hex (as_hex t)) = Ok u <-> spells t (ua u).
Proof.
  intros Hp. rewrite map_err_ok. unfold user_from_hex. rewrite rbind_ok. split.
  - intros (b & Hb & Hh). apply user_from_bytes_spec in Hh as ->. apply decode_text_spells; assumption.
  - intros Hs. exists (ua u). split; [apply decode_text_spells; assumption|apply user_from_bytes_spec; reflexivity].
Qed.
Lemma address_spells t a : plain t -> map_err ATypes (address_from_hex (as_hex t)) = Ok a <-> spells t (address_bytes a).
Proof.
  intros Hp. rewrite map_err_ok. unfold address_from_hex. rewrite rbind_ok. split.
  - intros (b & Hb & Hh). apply address_from_bytes_spec in Hh as ->. apply decode_text_spells; assumption.
  - intros Hs. exists (address_bytes a). split; [apply decode_text_spells; assumption|apply address_from_bytes_spec; reflexivity].
Qed.

(** ** Panics *)
Lemma map_err_np {X Y A} (f : X -> Y) (r : res X A) : r <> Panic -> map_err f r <> Panic.
Proof. destruct r; cbn [map_err]; congruence. Qed.
Lemma vec_np s : hex_to_vec_u8 s <> Panic.
Proof. apply map_err_np, hex_decode_np. Qed.
Lemma hash_np s : map_err ATypes (hash_from_hex s) <> Panic.
Proof. apply map_err_np, rbind_no_panic; [apply map_err_np, hex_decode_np|intros; apply hash_from_bytes_np]. Qed.
Lemma user_np s : map_err ATypes (user_from_hex s) <> Panic.
Proof. apply map_err_np, rbind_no_panic; [apply map_err_np, hex_decode_np|intros; apply user_from_bytes_np]. Qed.
Lemma address_np s : map_err ATypes (address_from_hex s) <> Panic.
Proof. apply map_err_np, rbind_no_panic; [apply map_err_np, hex_decode_np|intros; apply address_from_bytes_np]. Qed.
Lemma radix_np s acc : radix_loop acc s <> Panic.
Proof.
  revert acc. induction s as [|c s IH]; intros acc; cbn [radix_loop]; [discriminate|].
  destruct (hex_val c); cbn [ok_or rbind]; [|discriminate]. destruct (two64 <=? acc * 16); [discriminate|].
  destruct (two64 <=? acc * 16 + n); [discriminate|]. apply IH.
Qed.
Lemma u64_np s : hex_to_u64 s <> Panic.
Proof.
  unfold hex_to_u64, from_str_radix16. destruct s as [|c r]; [discriminate|]. cbv zeta.
  destruct (beqb c x2b); [destruct r; [discriminate|]|]; apply radix_np.
Qed.
Lemma opt_u64_np s : opt_hex_to_u64 s <> Panic.
Proof. destruct s; [|discriminate]. apply rbind_no_panic; [apply u64_np|discriminate]. Qed.
Lemma raw_np a i : cover_to_raw_tx a i <> Panic.
Proof. repeat (apply rbind_no_panic; [first [apply hash_np|apply u64_np]|intros ? _]). discriminate. Qed.
Lemma signed_np a i e : cover_to_signed_tx a i e <> Panic.
Proof. repeat (apply rbind_no_panic; [first [apply raw_np|apply hash_np|apply vec_np]|intros ? _]). discriminate. Qed.
Lemma transfer_np i : cover_transfer_action i <> Panic.
Proof. repeat (apply rbind_no_panic; [first [apply user_np|apply hash_np|apply vec_np]|intros ? _]). discriminate. Qed.
Lemma deploy_np i : cover_deploy_action i <> Panic.
Proof. repeat (apply rbind_no_panic; [first [apply vec_np]|intros ? _]). discriminate. Qed.

(** ** Outputs *)
Lemma digit_of v : v < 16 -> digit (bN (hex_digit v)) v.
Proof.
  intros H. unfold hex_digit, digit. destruct (v <? 10) eqn:E; rewrite bN_byte_of_small by lia; lia.
Qed.
Lemma spell_encode b : spell (text_of (hex_encode b)) b.
Proof.
  induction b as [|x b IH]; [constructor|]. pose proof (bN_lt x).
  cbn [hex_encode text_of map].
  replace x with (byte_of (bN x / 16 * 16 + bN x mod 16)) at 3
    by (rewrite <- (byte_of_bN x) at 3; f_equal; lia).
  constructor; [apply digit_of; lia|apply digit_of; lia|exact IH].
Qed.
Lemma spells_encode b : spells (text_of (hex_encode b)) b.
Proof. exists (text_of (hex_encode b)). split; [left; reflexivity|apply spell_encode]. Qed.
Lemma plain_text_of b : plain (text_of b).
Proof. induction b as [|x b IH]; constructor; [|exact IH]. pose proof (bN_lt x). lia. Qed.
Lemma number_of_encode b : exists vs, Forall2 digit (text_of (hex_encode b)) vs /\ number_of vs 0 = be_val b /\ Nat.Even (length (text_of (hex_encode b))).
Proof. destruct (number_of_bytes _ _ (spell_encode b) 0) as (vs & He & Hv & En). exists vs. auto. Qed.
Lemma out_u64_spells n : spells_number (out_u64 n) (u64v n).
Proof.
  destruct (number_of_encode (u64_to_be_bytes n)) as (vs & Hv & En & _). exists (out_u64 n), (out_u64 n), vs.
  split; [left; reflexivity|]. split; [left; reflexivity|]. split.
  - unfold out_u64. destruct (u64_to_be_bytes n) eqn:E; [|discriminate]. pose proof (u64_to_be_bytes_len n) as L. rewrite E in L. discriminate.
  - split; [exact Hv|]. rewrite En. symmetry. apply u64_to_be_bytes_val.
Qed.
Lemma out_balance_spells n : spells_amount (out_balance n) n.
Proof.
  destruct (number_of_encode (biguint_to_bytes_be n)) as (vs & Hv & En & He). exists (out_balance n), vs.
  split; [left; reflexivity|]. split; [exact He|]. split; [exact Hv|]. rewrite En. symmetry. apply BaseFacts.biguint_roundtrip.
Qed.
