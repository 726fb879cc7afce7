(** * API properties C80, C81.

    Vocabulary (ApiSpec.v): [spells t b], [spells_number t n],
    [spells_amount t n]: the string [t] is a way of writing the bytes [b], the
    number [n], the amount [n]; [plain t]: a Rust string without U+FB00. *)
From Verif Require Import Base BaseFacts Hex Types Rlp RlpFacts FixedCodec StateAdapter Executor ExecSpec
  Mempool MempoolSpec MempoolFacts MempoolProps MempoolMore PropMempool Merkle Bincode ConsMsg Proto Wire Storage StorageSpec
  Consensus ConsSpec Api ApiSpec ApiFacts PropConsensus.
Local Open Scope N_scope.

(** ** The transaction a request describes *)
Definition plain_raw (i : input_raw) : Prop :=
  plain (in_chain_id i) /\ plain (in_nonce i) /\ plain (in_timeout i) /\ plain (in_fee_asset_id i) /\ plain (in_fee_cycle i).
Definition plain_enc (e : input_encryption) : Prop := plain (in_tx_hash e) /\ plain (in_pubkey e) /\ plain (in_signature e).
Definition plain_transfer (a : input_transfer) : Prop := plain (in_receiver a) /\ plain (in_asset_id a) /\ plain (in_amount a).

Definition describes_raw (i : input_raw) (r : raw_tx) : Prop :=
  spells (in_chain_id i) (sbytes (rt_chain_id r)) /\ spells (in_nonce i) (sbytes (rt_nonce r)) /\
  spells_number (in_timeout i) (rt_timeout r) /\ spells (in_fee_asset_id i) (sbytes (fee_asset_id (rt_fee r))) /\
  spells_number (in_fee_cycle i) (fee_cycle (rt_fee r)).
Definition describes_transfer (a : input_transfer) (act : tx_action) : Prop :=
  match act with
  | Transfer r c => spells (in_receiver a) (ua r) /\ spells (in_asset_id a) (sbytes (cr_asset_id c)) /\ spells_amount (in_amount a) (cr_amount c)
  | _ => False
  end.
Definition describes_deploy (a : input_deploy) (act : tx_action) : Prop :=
  match act with
  | Deploy code ty => spells (in_code a) code /\
      match in_contract_type a with InAsset => ty = CtAsset | InApp => ty = CtApp | InLibrary => ty = CtLibrary end
  | _ => False
  end.
Definition describes_signed (i : input_raw) (e : input_encryption) (t : signed_tx) : Prop :=
  describes_raw i (st_raw t) /\ spells (in_tx_hash e) (sbytes (st_tx_hash t)) /\
  spells (in_pubkey e) (st_pubkey t) /\ spells (in_signature e) (st_signature t).

(** ** C80: conversions *)
Ltac got H := match type of H with
  | map_err ATypes (hash_from_hex _) = _ => apply hash_spells in H; [|assumption]
  | map_err ATypes (user_from_hex _) = _ => apply user_spells in H; [|assumption]
  | hex_to_u64 _ = _ => apply u64_spells in H; [|assumption]
  | hex_to_vec_u8 _ = _ => apply vec_spells in H; [|assumption]
  end.
Ltac give x := apply rbind_ok; exists x; split;
  [first [apply hash_spells; assumption|apply user_spells; assumption|apply u64_spells; assumption|apply vec_spells; assumption]|].
Lemma raw_iff i a r : plain_raw i -> cover_to_raw_tx a i = Ok r <-> describes_raw i r /\ rt_action r = a.
Proof.
  intros (P1 & P2 & P3 & P4 & P5). unfold cover_to_raw_tx, describes_raw. split.
  - intros H. apply rbind_ok in H as (h1 & H1 & H). apply rbind_ok in H as (h2 & H2 & H). apply rbind_ok in H as (n1 & H3 & H).
    apply rbind_ok in H as (h3 & H4 & H). apply rbind_ok in H as (n2 & H5 & H). injection H as <-.
    got H1. got H2. got H3. got H4. got H5. cbn [rt_chain_id rt_nonce rt_timeout rt_fee rt_action fee_asset_id fee_cycle]. auto 10.
  - destruct r as [c n t [fa fc] act]. cbn [rt_chain_id rt_nonce rt_timeout rt_fee rt_action fee_asset_id fee_cycle].
    intros ((H1 & H2 & H3 & H4 & H5) & <-). give c. give n. give t. give fa. give fc. reflexivity.
Qed.
Lemma signed_iff i a e t : plain_raw i -> plain_enc e ->
  cover_to_signed_tx a i e = Ok t <-> describes_signed i e t /\ rt_action (st_raw t) = a.
Proof.
  intros Hi (P1 & P2 & P3). unfold cover_to_signed_tx, describes_signed. split.
  - intros H. apply rbind_ok in H as (r & H1 & H). apply rbind_ok in H as (h & H2 & H). apply rbind_ok in H as (pk & H3 & H).
    apply rbind_ok in H as (sg & H4 & H). injection H as <-. got H2. got H3. got H4.
    apply (raw_iff _ _ _ Hi) in H1 as [H1 Ha]. cbn [st_raw st_tx_hash st_pubkey st_signature]. auto 10.
  - destruct t as [r h pk sg]. cbn [st_raw st_tx_hash st_pubkey st_signature]. intros ((H1 & H2 & H3 & H4) & Ha).
    apply rbind_ok. exists r. split; [apply (raw_iff _ _ _ Hi); auto|]. give h. give pk. give sg. reflexivity.
Qed.
Lemma transfer_iff a act : plain_transfer a -> cover_transfer_action a = Ok act <-> describes_transfer a act.
Proof.
  intros (P1 & P2 & P3). unfold cover_transfer_action. split.
  - intros H. apply rbind_ok in H as (u & H1 & H). apply rbind_ok in H as (h & H2 & H). apply rbind_ok in H as (b & H3 & H).
    injection H as <-. got H1. got H2. cbn [describes_transfer cr_asset_id cr_amount].
    split; [exact H1|]. split; [exact H2|]. apply amount_spells; [exact P3|]. eauto.
  - destruct act as [u [h n]| | |]; try contradiction. cbn [describes_transfer cr_asset_id cr_amount]. intros (H1 & H2 & H3).
    apply amount_spells in H3 as (b & Hb & <-); [|exact P3]. give u. give h. apply rbind_ok. exists b. auto.
Qed.
Lemma deploy_iff a act : plain (in_code a) -> cover_deploy_action a = Ok act <-> describes_deploy a act.
Proof.
  intros P. unfold cover_deploy_action. split.
  - intros H. apply rbind_ok in H as (c & H1 & H). injection H as <-. got H1. cbn [describes_deploy]. split; [exact H1|].
    destruct (in_contract_type a); reflexivity.
  - destruct act as [| |c ty|]; try contradiction. cbn [describes_deploy]. intros (H & Ht). give c.
    destruct (in_contract_type a); subst; reflexivity.
Qed.

(** The reply of a mutation to what the mempool answered. *)
Definition reply_of (r : res mp_err unit) (hash_text : text) : ares text :=
  match r with Ok _ => Ok hash_text | Err x => Err (AInsert x) | Panic => Panic end.

Lemma submit_some ins r h t o : submit ins r h = (Some t, o) <-> r = Ok t /\ o = reply_of (ins t) h.
Proof.
  unfold submit, reply_of. destruct r as [t'|x|]; (split; [intros H|intros [H ->]]); try discriminate H.
  - injection H as -> <-. auto.
  - injection H as ->. reflexivity.
Qed.
Lemma submit_none ins r h : r <> Panic -> (forall t, r <> Ok t) -> exists x, submit ins r h = (None, Err x).
Proof. intros Hp Hn. destruct r as [t|x|]; [exfalso; eapply Hn; reflexivity|exists x; reflexivity|contradiction]. Qed.

(** A request describing a transaction hands exactly that transaction to the
    mempool and replies with the hash it was given, or with the mempool's
    error; a request describing none is refused, and nothing is handed over. *)
Theorem C80_send_transfer : forall ins i a e, plain_raw i -> plain_transfer a -> plain_enc e ->
  let described t := describes_signed i e t /\ describes_transfer a (rt_action (st_raw t)) in
  (forall t r, send_transfer ins i a e = (Some t, r) <-> described t /\ r = reply_of (ins t) (in_tx_hash e)) /\
  ((forall t, ~ described t) -> exists x, send_transfer ins i a e = (None, Err x)).
Proof.
  intros ins i a e Hi Ha He described.
  assert (forall t, (let? act := cover_transfer_action a in cover_to_signed_tx act i e) = Ok t <-> described t) as Hd.
  { intros t. rewrite rbind_ok. unfold described. split.
    - intros (act & H1 & H2). apply (transfer_iff _ _ Ha) in H1. apply (signed_iff _ _ _ _ Hi He) in H2 as [H2 <-]. auto.
    - intros [H1 H2]. exists (rt_action (st_raw t)). split; [apply (transfer_iff _ _ Ha), H2|apply (signed_iff _ _ _ _ Hi He); auto]. }
  split.
  - intros t r. unfold send_transfer. rewrite submit_some, Hd. reflexivity.
  - intros Hn. apply submit_none; [apply rbind_no_panic; [apply transfer_np|intros; apply signed_np]|].
    intros t Et. apply (Hn t), Hd, Et.
Qed.
Print Assumptions C80_send_transfer.

Theorem C80_send_deploy : forall ins i a e, plain_raw i -> plain (in_code a) -> plain_enc e ->
  let described t := describes_signed i e t /\ describes_deploy a (rt_action (st_raw t)) in
  (forall t r, send_deploy ins i a e = (Some t, r) <-> described t /\ r = reply_of (ins t) (in_tx_hash e)) /\
  ((forall t, ~ described t) -> exists x, send_deploy ins i a e = (None, Err x)).
Proof.
  intros ins i a e Hi Ha He described.
  assert (forall t, (let? act := cover_deploy_action a in cover_to_signed_tx act i e) = Ok t <-> described t) as Hd.
  { intros t. rewrite rbind_ok. unfold described. split.
    - intros (act & H1 & H2). apply (deploy_iff _ _ Ha) in H1. apply (signed_iff _ _ _ _ Hi He) in H2 as [H2 <-]. auto.
    - intros [H1 H2]. exists (rt_action (st_raw t)). split; [apply (deploy_iff _ _ Ha), H2|apply (signed_iff _ _ _ _ Hi He); auto]. }
  split.
  - intros t r. unfold send_deploy. rewrite submit_some, Hd. reflexivity.
  - intros Hn. apply submit_none; [apply rbind_no_panic; [apply deploy_np|intros; apply signed_np]|].
    intros t Et. apply (Hn t), Hd, Et.
Qed.
Print Assumptions C80_send_deploy.

(** End to end: whatever the pool, if the mutation replies with a hash then the
    pool holds exactly the described transaction under its hash. *)
Theorem C80_transfer_reaches_pool : forall digest verify n gap gap' ops env b i a e t h,
  plain_raw i -> plain_transfer a -> plain_enc e ->
  let p := pool_after digest verify n gap gap' ops in
  send_transfer (fun t => fst (mp_insert digest verify gap p false t env b)) i a e = (Some t, Ok h) ->
  describes_signed i e t /\ describes_transfer a (rt_action (st_raw t)) /\ h = in_tx_hash e /\
  mp_pooled (snd (mp_insert digest verify gap p false t env b)) (st_tx_hash t) = Some t.
Proof.
  intros digest verify n gap gap' ops env b i a e t h Hi Ha He p H.
  apply (C80_send_transfer _ i a e Hi Ha He) in H as [[H1 H2] Hr]. split; [exact H1|]. split; [exact H2|].
  pose proof (C30_insert_outcome digest verify n gap gap' ops false t env b) as Hins. cbv zeta in Hins. fold p in Hins.
  destruct (mp_insert digest verify gap p false t env b) as [r p'] eqn:Ep. cbn [fst snd] in *.
  destruct r as [[]|x|]; cbn [reply_of] in Hr; try discriminate Hr. injection Hr as ->. split; [reflexivity|].
  destruct Hins as [Y N'].
  match type of Y with ?P -> _ => assert (P \/ ~ P) as [Hd|Hd] end.
  { pose proof (insert_outcome digest verify n gap gap' p false t env b (pool_inv digest verify n gap gap' ops)) as Ho.
    rewrite Ep in Ho. destruct Ho as (_ & _ & [(X & _)|(X & _)]); [left|right]; exact X. }
  - apply Y, Hd.
  - exfalso. apply (proj1 (N' Hd) tt). reflexivity.
Qed.
Print Assumptions C80_transfer_reaches_pool.

(** The unsafe mutations sign for the caller: the transaction handed over
    carries the digest of its own encoding and the key's signature of it. *)
Lemma encrypt_iff privkey key h x : plain key ->
  gen_input_tx_encryption privkey key (out_hash h) = Ok x <->
  exists kb k, spells key kb /\ privkey kb = Some k /\ x = MkInEnc (out_hash h) (out_bytes (fst k)) (out_bytes (snd k h)).
Proof.
  intros Hk. unfold gen_input_tx_encryption.
  assert (hex_to_vec_u8 (as_hex (out_hash h)) = Ok (sbytes h)) as Eh by (apply vec_spells; [apply plain_text_of|apply spells_encode]).
  split.
  - intros H. apply rbind_ok in H as (kb & H1 & H). apply rbind_ok in H as (k & H2 & H). rewrite Eh in H. cbn [rbind] in H.
    rewrite FixedCodecFacts.hash_from_bytes_ok in H. cbn [map_err rbind] in H. injection H as <-. got H1.
    exists kb, k. destruct (privkey kb); cbn [ok_or] in H2; [|discriminate]. injection H2 as ->. auto.
  - intros (kb & k & H1 & H2 & ->). give kb. rewrite H2. cbn [ok_or rbind]. rewrite Eh. cbn [rbind].
    rewrite FixedCodecFacts.hash_from_bytes_ok. reflexivity.
Qed.

Section Unsafe.
  Context (digest : bytes -> hash) (privkey : bytes -> option (bytes * (hash -> bytes))).
  (** [t] is [raw] signed with the key written in [key]. *)
  Definition signed_with (key : text) (raw : raw_tx) (t : signed_tx) : Prop :=
    exists kb pk sign, spells key kb /\ privkey kb = Some (pk, sign) /\
      t = MkSigned raw (digest (enc_raw raw)) pk (sign (digest (enc_raw raw))).

  Lemma unsafe_spec ins (act : ares tx_action) i key : plain_raw i -> plain key -> act <> Panic ->
    let described t := act = Ok (rt_action (st_raw t)) /\ describes_raw i (st_raw t) /\ signed_with key (st_raw t) t in
    (forall t r, send_unsafe digest privkey ins act i key = (Some t, r) <->
       described t /\ r = reply_of (ins t) (out_hash (st_tx_hash t))) /\
    ((forall t, ~ described t) -> exists x, send_unsafe digest privkey ins act i key = (None, Err x)).
  Proof.
    intros Hi Hk Hact described. unfold send_unsafe.
    match goal with |- context [match ?r with Ok _ => _ | Err _ => _ | Panic => _ end] => set (res := r) end.
    assert (forall t h, res = Ok (t, h) <-> described t /\ h = out_hash (st_tx_hash t)) as Hd.
    { intros t h. unfold res, described. split.
      - intros H. apply rbind_ok in H as (a & H1 & H). apply rbind_ok in H as (raw & H2 & H). cbv zeta in H.
        apply rbind_ok in H as (e & H3 & H). apply rbind_ok in H as (t' & H4 & H). injection H as <- <-.
        apply encrypt_iff in H3 as (kb & [pk sign] & K1 & K2 & ->); [|exact Hk]. pose proof H2 as H2'. apply (raw_iff _ _ _ Hi) in H2 as [H2 <-].
        unfold cover_to_signed_tx in H4. rewrite H2' in H4. cbn [rbind in_tx_hash in_pubkey in_signature fst snd] in H4.
        rewrite (proj2 (hash_spells (out_hash (digest (enc_raw raw))) (digest (enc_raw raw)) (plain_text_of _)) (spells_encode _)) in H4.
        rewrite (proj2 (vec_spells (out_bytes pk) pk (plain_text_of _)) (spells_encode _)) in H4.
        rewrite (proj2 (vec_spells (out_bytes (sign (digest (enc_raw raw)))) _ (plain_text_of _)) (spells_encode _)) in H4.
        cbn [rbind] in H4. injection H4 as <-. cbn [st_raw st_tx_hash]. split; [|reflexivity]. split; [exact H1|]. split; [exact H2|].
        exists kb, pk, sign. auto.
      - intros [(H1 & H2 & kb & pk & sign & K1 & K2 & Et) ->]. set (raw := st_raw t) in *.
        assert (cover_to_raw_tx (rt_action raw) i = Ok raw) as Er by (apply (raw_iff _ _ _ Hi); auto).
        rewrite H1. cbn [rbind]. rewrite Er. cbn [rbind].
        rewrite (proj2 (encrypt_iff privkey key (digest (enc_raw raw)) _ Hk) (ex_intro _ kb (ex_intro _ (pk, sign) (conj K1 (conj K2 eq_refl))))).
        cbn [rbind]. unfold cover_to_signed_tx. rewrite Er. cbn [rbind in_tx_hash in_pubkey in_signature fst snd].
        rewrite (proj2 (hash_spells (out_hash (digest (enc_raw raw))) (digest (enc_raw raw)) (plain_text_of _)) (spells_encode _)).
        rewrite (proj2 (vec_spells (out_bytes pk) pk (plain_text_of _)) (spells_encode _)).
        rewrite (proj2 (vec_spells (out_bytes (sign (digest (enc_raw raw)))) _ (plain_text_of _)) (spells_encode _)).
        cbn [rbind]. rewrite <- Et. do 2 f_equal. rewrite Et. reflexivity. }
    assert (res <> Panic) as Hnp.
    { unfold res. apply rbind_no_panic; [exact Hact|]. intros a _. apply rbind_no_panic; [apply raw_np|]. intros raw _. cbv zeta.
      apply rbind_no_panic.
      - unfold gen_input_tx_encryption. apply rbind_no_panic; [apply vec_np|]. intros kb _.
        apply rbind_no_panic; [destruct (privkey kb); discriminate|]. intros k _.
        apply rbind_no_panic; [apply vec_np|]. intros hb _. apply rbind_no_panic; [apply map_err_np, CodecProps.hash_from_bytes_np|discriminate].
      - intros e _. apply rbind_no_panic; [apply signed_np|discriminate]. }
    split.
    - intros t r. destruct res as [[t' h]|x|] eqn:E.
      + destruct (proj1 (Hd t' h) eq_refl) as [Hdt ->]. rewrite submit_some. split.
        * intros [[= ->] ->]. auto.
        * intros [Hdt' ->]. assert (Ok (t', out_hash (st_tx_hash t')) = Ok (t, out_hash (st_tx_hash t))) as X by (apply Hd; auto).
          injection X as -> _. auto.
      + split; [discriminate|]. intros [Hdt _]. assert (Err x = Ok (t, out_hash (st_tx_hash t))) as X by (apply Hd; auto). discriminate.
      + contradiction.
    - intros Hn. destruct res as [[t' h]|x|] eqn:E; [|exists x; reflexivity|contradiction].
      exfalso. apply (Hn t'). apply (proj1 (Hd t' h) eq_refl).
  Qed.

  Theorem C80_send_unsafe_transfer : forall ins i a key, plain_raw i -> plain_transfer a -> plain key ->
    let described t := describes_raw i (st_raw t) /\ describes_transfer a (rt_action (st_raw t)) /\ signed_with key (st_raw t) t in
    (forall t r, send_unsafe_transfer digest privkey ins i a key = (Some t, r) <->
       described t /\ r = reply_of (ins t) (out_hash (st_tx_hash t))) /\
    ((forall t, ~ described t) -> exists x, send_unsafe_transfer digest privkey ins i a key = (None, Err x)).
  Proof.
    intros ins i a key Hi Ha Hk described. destruct (unsafe_spec ins (cover_transfer_action a) i key Hi Hk (transfer_np a)) as [H1 H2].
    split.
    - intros t r. unfold send_unsafe_transfer. rewrite H1. rewrite (transfer_iff _ _ Ha). unfold described. tauto.
    - intros Hn. apply H2. intros t (X & Y & Z). apply (Hn t). apply (transfer_iff _ _ Ha) in X. unfold described. auto.
  Qed.

  Theorem C80_send_unsafe_deploy : forall ins i a key, plain_raw i -> plain (in_code a) -> plain key ->
    let described t := describes_raw i (st_raw t) /\ describes_deploy a (rt_action (st_raw t)) /\ signed_with key (st_raw t) t in
    (forall t r, send_unsafe_deploy digest privkey ins i a key = (Some t, r) <->
       described t /\ r = reply_of (ins t) (out_hash (st_tx_hash t))) /\
    ((forall t, ~ described t) -> exists x, send_unsafe_deploy digest privkey ins i a key = (None, Err x)).
  Proof.
    intros ins i a key Hi Ha Hk described. destruct (unsafe_spec ins (cover_deploy_action a) i key Hi Hk (deploy_np a)) as [H1 H2].
    split.
    - intros t r. unfold send_unsafe_deploy. rewrite H1. rewrite (deploy_iff _ _ Ha). unfold described. tauto.
    - intros Hn. apply H2. intros t (X & Y & Z). apply (Hn t). apply (deploy_iff _ _ Ha) in X. unfold described. auto.
  Qed.
End Unsafe.
Print Assumptions C80_send_unsafe_transfer.
Print Assumptions C80_send_unsafe_deploy.

(** Outside [plain]: the ligature U+FB00 is no hexadecimal digit, yet anywhere
    in a field it is accepted in place of the two digits "ff". *)
Theorem C80_ligature_accepted_refuted : forall ins i ty e (p q : text),
  (forall b, ~ spells (p ++ 64256 :: q) b) /\
  send_deploy ins i (MkInDeploy (p ++ 64256 :: q) ty) e = send_deploy ins i (MkInDeploy (p ++ 102 :: 102 :: q) ty) e.
Proof.
  intros ins i ty e p q. split.
  - intros b (body & Hu & Hs).
    assert (64256 ∈ body) as Hin.
    { assert (64256 ∈ p ++ 64256 :: q) as X by (apply elem_of_app; right; left). destruct Hu as [E|E]; rewrite E in X; [exact X|].
      apply elem_of_cons in X as [X|X]; [discriminate|]. apply elem_of_cons in X as [X|X]; [discriminate|exact X]. }
    clear Hu. revert Hin. induction Hs as [|h l a b' t r Da Db _ IH]; intros Hin; [inversion Hin|].
    apply elem_of_cons in Hin as [<-|Hin]; [unfold digit in Da; lia|]. apply elem_of_cons in Hin as [<-|Hin]; [unfold digit in Db; lia|auto].
  - assert (as_hex (p ++ 64256 :: q) = as_hex (p ++ 102 :: 102 :: q)) as E.
    { unfold as_hex. f_equal. destruct p as [|a [|b p]].
      - cbn [app]. unfold clean_text. destruct q; reflexivity.
      - cbn [app clean_text]. change (64256 =? 120) with false. change (102 =? 120) with false. rewrite andb_false_r. reflexivity.
      - cbn [app clean_text]. destruct ((a =? 48) && (b =? 120)); cbn [flat_map]; rewrite !flat_map_app; reflexivity. }
    unfold send_deploy, cover_deploy_action. cbn [in_code in_contract_type]. rewrite E. reflexivity.
Qed.
Print Assumptions C80_ligature_accepted_refuted.

(** ** C80: outputs.  Every value in a reply is a way of writing the stored
    value, so sending it back as an input gives the same value. *)
Definition written_header (o : out_header) (h : epoch_header) : Prop :=
  spells (oh_chain_id o) (sbytes (eh_chain_id h)) /\ spells_number (oh_epoch_id o) (eh_epoch_id h) /\
  spells (oh_pre_hash o) (sbytes (eh_pre_hash h)) /\ spells_number (oh_timestamp o) (eh_timestamp h) /\
  spells (oh_order_root o) (sbytes (eh_order_root h)) /\
  Forall2 (fun t r => spells t (sbytes r)) (oh_confirm_root o) (eh_confirm_root h) /\
  spells (oh_state_root o) (sbytes (eh_state_root h)) /\
  Forall2 (fun t r => spells t (sbytes r)) (oh_receipt_root o) (eh_receipt_root h) /\
  spells_number (oh_cycles_used o) (eh_cycles_used h) /\ spells (oh_proposer o) (ua (eh_proposer h)) /\
  spells_number (oh_validator_version o) (eh_validator_version h).

Lemma hashes_written l : Forall2 (fun t (r : hash) => spells t (sbytes r)) (map out_hash l) l.
Proof. induction l; constructor; [apply spells_encode|assumption]. Qed.

(** Which epoch a query asks for. *)
Definition asks (id : option text) (n : option u64) : Prop :=
  match id, n with
  | None, None => True
  | Some t, Some n => plain t /\ spells_number t n
  | _, _ => False
  end.
Lemma asks_iff id n : (match id with Some t => plain t | None => True end) ->
  opt_hex_to_u64 (option_map as_hex id) = Ok n <-> asks id n.
Proof.
  intros Hp. destruct id as [t|]; cbn [option_map opt_hex_to_u64 asks].
  - rewrite rbind_ok. split.
    + intros (m & H & E). injection E as <-. got H. auto.
    + destruct n as [m|]; [|contradiction]. intros [_ H]. exists m. split; [apply u64_spells; assumption|reflexivity].
  - destruct n; split; try contradiction; try discriminate; auto.
Qed.
Lemma asks_plain id n : asks id n -> match id with Some t => plain t | None => True end.
Proof. destruct id as [t|], n as [m|]; cbn [asks]; tauto. Qed.

(** The stored epoch with that number, or the latest. *)
Definition stored (digest : bytes -> hash) (d : durable) (n : option u64) : sres epoch :=
  match n with Some n => get_epoch_by_epoch_id rocks_col (fst d) n | None => get_latest_epoch rocks_col digest (fst d) end.

Theorem C80_epoch_query : forall digest d id n e, asks id n -> stored digest d n = Ok e ->
  exists o, query_epoch digest d id = Ok o /\ written_header (oe_header o) (ep_header e) /\
    Forall2 (fun t r => spells t (sbytes r)) (oe_ordered_tx_hashes o) (ep_ordered_tx_hashes e).
Proof.
  intros digest d id n e Ha He. exists (out_epoch_of e). split.
  - unfold query_epoch. rewrite (proj2 (asks_iff id n (asks_plain _ _ Ha)) Ha). cbn [rbind]. unfold adapter_get_epoch, stored in *.
    rewrite He. reflexivity.
  - split; [|apply hashes_written]. unfold written_header, out_epoch_of, out_header_of.
    cbn [oe_header oh_chain_id oh_epoch_id oh_pre_hash oh_timestamp oh_order_root oh_confirm_root oh_state_root oh_receipt_root
      oh_cycles_used oh_proposer oh_validator_version].
    repeat split; first [apply spells_encode|apply out_u64_spells|apply hashes_written].
Qed.
Print Assumptions C80_epoch_query.

(** Round trips of the four scalar outputs. *)
Theorem C80_outputs_parse_back :
  (forall h, hash_from_hex (as_hex (out_hash h)) = Ok h) /\
  (forall a, address_from_hex (as_hex (out_address a)) = Ok a) /\
  (forall n, hex_to_u64 (as_hex (out_u64 n)) = Ok n) /\
  (forall b, hex_to_vec_u8 (as_hex (out_bytes b)) = Ok b) /\
  (forall n, exists b, hex_to_vec_u8 (as_hex (out_balance n)) = Ok b /\ biguint_from_bytes_be b = n).
Proof.
  repeat split; intros v.
  - eapply map_err_ok, hash_spells; [apply plain_text_of|apply spells_encode].
  - eapply map_err_ok, address_spells; [apply plain_text_of|apply spells_encode].
  - apply u64_spells; [apply plain_text_of|apply out_u64_spells].
  - apply vec_spells; [apply plain_text_of|apply spells_encode].
  - apply amount_spells; [apply plain_text_of|apply out_balance_spells].
Qed.
Print Assumptions C80_outputs_parse_back.

(** ** C81: balances *)
Section Balance.
  Context (digest : bytes -> hash).
  (** The accounts of the state with root [root] in the state database. *)
  Definition state_at (d : durable) (root : hash) (m : accounts) : Prop :=
    exists chain e p cb x, Executor.from_root digest chain root (snd d) e p cb = Ok x /\ committed x = m.

  Lemma from_root_accounts chain root db e p cb x : Executor.from_root digest chain root db e p cb = Ok x ->
    ad_cache (x_acc x) = ∅ /\ ad_stash (x_acc x) = ∅ /\
    forall chain' e' p' cb', exists x', Executor.from_root digest chain' root db e' p' cb' = Ok x' /\ x_acc x' = x_acc x.
  Proof.
    unfold from_root. intros H. apply rbind_ok in H as (top & H1 & H). apply rbind_ok in H as (acc & H2 & H).
    apply rbind_ok in H as (bank & H3 & H). injection H as <-. cbn [x_acc].
    assert (ad_cache acc = ∅ /\ ad_stash acc = ∅) as [E1 E2].
    { unfold gen_contract_state in H2. apply rbind_ok in H2 as (c & _ & H2). apply rbind_ok in H2 as (m & _ & H2). injection H2 as <-. split; reflexivity. }
    split; [exact E1|]. split; [exact E2|]. intros chain' e' p' cb'.
    exists (MkExec chain' e' p' cb' top acc bank db). split; [|reflexivity].
    apply rbind_ok. exists top. split; [exact H1|]. apply rbind_ok. exists acc. split; [exact H2|]. apply rbind_ok. exists bank. split; [exact H3|reflexivity].
  Qed.

  (** The answer is the balance in the state whose root is in the epoch's
      header, 0 if the account is absent. *)
  Theorem C81_balance_at_header_root : forall d id n e m at_ as_ a asset,
    asks id n -> stored digest d n = Ok e -> state_at d (eh_state_root (ep_header e)) m ->
    plain at_ -> spells at_ (address_bytes a) -> plain as_ -> spells as_ (sbytes asset) ->
    exists t, query_balance digest d at_ as_ id = Ok t /\ spells_amount t (bal m a asset).
  Proof.
    intros d id n e m at_ as_ a asset Ha He (chain & ei & p & cb & x & Hx & <-) P1 S1 P2 S2.
    unfold query_balance. rewrite (proj2 (asks_iff id n (asks_plain _ _ Ha)) Ha). cbn [rbind].
    rewrite (proj2 (address_spells at_ a P1) S1). cbn [rbind]. rewrite (proj2 (hash_spells as_ asset P2) S2). cbn [rbind].
    unfold adapter_get_balance, adapter_get_epoch. unfold stored in He. rewrite He. cbn [map_err rbind].
    destruct (from_root_accounts _ _ _ _ _ _ _ Hx) as (E1 & E2 & Hall).
    destruct (Hall (eh_chain_id (ep_header e)) (eh_epoch_id (ep_header e)) (wrap64 0) (AUser (eh_proposer (ep_header e)))) as (x' & Hx' & Ex).
    rewrite Hx'. cbn [rbind]. unfold exec_get_balance, StateAdapter.ad_get. rewrite Ex, E1, E2, !lookup_empty. unfold bal, committed.
    destruct (ad_trie (x_acc x) !! a) as [acc|]; cbn [ok_or rbind map_err].
    - eexists. split; [reflexivity|apply out_balance_spells].
    - eexists. split; [reflexivity|apply (out_balance_spells 0)].
  Qed.

  (** Every failure to answer is reported as the balance 0. *)
  Theorem C81_errors_become_zero_refuted : forall d id n at_ as_ a (asset : hash),
    asks id n -> plain at_ -> spells at_ (address_bytes a) -> plain as_ -> spells as_ (sbytes asset) ->
    (exists x, stored digest d n = Err x) ->
    exists t, query_balance digest d at_ as_ id = Ok t /\ spells_amount t 0.
  Proof.
    intros d id n at_ as_ a asset Ha P1 S1 P2 S2 [x He].
    unfold query_balance. rewrite (proj2 (asks_iff id n (asks_plain _ _ Ha)) Ha). cbn [rbind].
    rewrite (proj2 (address_spells at_ a P1) S1). cbn [rbind]. rewrite (proj2 (hash_spells as_ asset P2) S2). cbn [rbind].
    unfold adapter_get_balance, adapter_get_epoch. unfold stored in He. rewrite He. cbn [map_err rbind].
    eexists. split; [reflexivity|apply (out_balance_spells 0)].
  Qed.

  (** Malformed arguments are refused. *)
  Theorem C81_malformed_refused : forall d at_ as_ id, plain at_ -> plain as_ ->
    (match id with Some t => plain t | None => True end) ->
    (forall n, ~ asks id n) \/ (forall a : address, ~ spells at_ (address_bytes a)) \/ (forall h : hash, ~ spells as_ (sbytes h)) ->
    exists x, query_balance digest d at_ as_ id = Err x.
  Proof.
    intros d at_ as_ id P1 P2 P3 H. unfold query_balance.
    destruct (opt_hex_to_u64 (option_map as_hex id)) as [n|x|] eqn:E1; cbn [rbind]; [|exists x; reflexivity|exfalso; exact (opt_u64_np _ E1)].
    apply (asks_iff id n P3) in E1.
    destruct (map_err ATypes (address_from_hex (as_hex at_))) as [a|x|] eqn:E2; cbn [rbind]; [|exists x; reflexivity|exfalso; exact (address_np _ E2)].
    apply (address_spells _ _ P1) in E2.
    destruct (map_err ATypes (hash_from_hex (as_hex as_))) as [h|x|] eqn:E3; cbn [rbind]; [|exists x; reflexivity|exfalso; exact (hash_np _ E3)].
    apply (hash_spells _ _ P2) in E3. destruct H as [H|[H|H]]; exfalso; eapply H; eassumption.
  Qed.
End Balance.
Print Assumptions C81_balance_at_header_root.
Print Assumptions C81_errors_become_zero_refuted.
Print Assumptions C81_malformed_refused.

(** An epoch carrying, as every proposal does (C60_next_proposal), the state
    root its proposer had before executing it: once the node has executed and
    stored it, asking for the balance at that epoch gives the balance before
    it.  Together with [balance_lags] below this refutes the property. *)
Section Before.
  Context (digest : bytes -> hash) (root_of : gmap bytes bytes -> hash) (show : exec_err -> rstring)
          (verify : bytes -> bytes -> bytes -> bool) (shapes : nat -> shape) (cf : config).
  Notation run_call := (run_call digest root_of show verify shapes cf).
  Notation history := (Consensus.history digest root_of show verify shapes cf).
  Notation always C := (along digest root_of show verify shapes cf C (Down (∅, ∅))).
  Notation epochs_ok := (epochs_ok digest root_of show verify shapes cf).

  Theorem C81_balance_before_epoch_refuted : forall l n id p pf txs os r n' t before at_ as_ a asset,
    epochs_ok l -> always replies_match l -> history l = Up n ->
    nd_busy n = Committing id p pf txs ->
    eh_state_root (ep_header (pl_epoch p)) = cs_state_root (nd_status n) ->
    run_call (CallCommitRest os (Ok tt)) n = (Ok r, n', t) -> db_fits (nd_disk n').1 ->
    state_at digest (nd_disk n') (cs_state_root (nd_status n)) before ->
    plain at_ -> spells at_ (address_bytes a) -> plain as_ -> spells as_ (sbytes asset) ->
    forall qid, (qid = None \/ exists s, qid = Some s /\ plain s /\ spells_number s (eh_epoch_id (ep_header (pl_epoch p)))) ->
    exists ans, query_balance digest (nd_disk n') at_ as_ qid = Ok ans /\ spells_amount ans (bal before a asset).
  Proof.
    intros l n id p pf txs os r n' t before at_ as_ a asset Hok Hrm Hh Eb Er E Hf Hst P1 S1 P2 S2 qid Hq.
    destruct (C60_commit_finishes _ _ _ _ _ _ l n id p pf txs os r n' t Hok Hrm Hh Eb E Hf) as (_ & Hl & Hat & _).
    destruct Hq as [->|(s & -> & Ps & Ss)].
    - apply (C81_balance_at_header_root digest _ None None (pl_epoch p) before at_ as_ a asset); try assumption; [exact I|].
      rewrite Er. exact Hst.
    - apply (C81_balance_at_header_root digest _ (Some s) (Some (eh_epoch_id (ep_header (pl_epoch p)))) (pl_epoch p) before at_ as_ a asset);
        try assumption; [split; assumption|]. rewrite Er. exact Hst.
  Qed.
End Before.
Print Assumptions C81_balance_before_epoch_refuted.
