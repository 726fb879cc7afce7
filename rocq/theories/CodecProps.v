(** * Lemmas behind the codec properties (C02, C03, C05-C09). *)
From Verif Require Import Base BaseFacts Hex Types Rlp RlpFacts FixedCodec FixedCodecFacts.
From Coq Require Import ZifyBool ZifyNat ZifyN Sorting.Sorted Permutation.
Local Open Scope N_scope.

(** ** C02 *)
Lemma enc_raw_nonempty r : is_approve (rt_action r) = false -> enc_raw r <> [].
Proof.
  intros Ha H. unfold enc_raw in H.
  destruct (rt_action r) as [? ?|? ? ?|? ?|? ? ? [?|]]; try discriminate;
  unfold enc_list in H; apply app_eq_nil in H as [H _]; exact (enc_len_nonempty _ _ _ H).
Qed.

Lemma enc_raw_inj r1 r2 :
  is_approve (rt_action r1) = false -> fits (enc_raw r1) ->
  enc_raw r1 = enc_raw r2 -> r1 = r2.
Proof.
  intros A1 F1 E.
  assert (A2 : is_approve (rt_action r2) = false).
  { destruct (rt_action r2) eqn:Ea; try reflexivity. exfalso.
    apply (enc_raw_nonempty r1 A1). rewrite E. unfold enc_raw. rewrite Ea. reflexivity. }
  pose proof (dec_enc_raw r1 A1 F1) as D1. rewrite E in F1, D1.
  rewrite (dec_enc_raw r2 A2 F1) in D1. congruence.
Qed.

Lemma enc_epoch_inj e1 e2 : fits (enc_epoch e1) -> enc_epoch e1 = enc_epoch e2 -> e1 = e2.
Proof.
  intros F E. pose proof (dec_enc_epoch e1 F) as D1. rewrite E in F, D1.
  rewrite (dec_enc_epoch e2 F) in D1. congruence.
Qed.

Lemma enc_account_inj e1 e2 : fits (enc_account e1) -> enc_account e1 = enc_account e2 -> e1 = e2.
Proof.
  intros F E. pose proof (dec_enc_account e1 F) as D1. rewrite E in F, D1.
  rewrite (dec_enc_account e2 F) in D1. congruence.
Qed.

Lemma tx_hash_binds (digest : bytes -> hash) r1 r2 :
  is_approve (rt_action r1) = false -> fits (enc_raw r1) ->
  digest (enc_raw r1) = digest (enc_raw r2) ->
  r1 = r2 \/ (enc_raw r1 <> enc_raw r2 /\ digest (enc_raw r1) = digest (enc_raw r2)).
Proof.
  intros A F E. destruct (decide (enc_raw r1 = enc_raw r2)) as [H|H].
  - left. apply enc_raw_inj; assumption.
  - right. auto.
Qed.

Lemma epoch_hash_binds (digest : bytes -> hash) e1 e2 :
  fits (enc_epoch e1) ->
  digest (enc_epoch e1) = digest (enc_epoch e2) ->
  e1 = e2 \/ (enc_epoch e1 <> enc_epoch e2 /\ digest (enc_epoch e1) = digest (enc_epoch e2)).
Proof.
  intros F E. destruct (decide (enc_epoch e1 = enc_epoch e2)) as [H|H].
  - left. apply enc_epoch_inj; assumption.
  - right. auto.
Qed.

(** ** C03 *)
Lemma approve_enc_empty r : is_approve (rt_action r) = true -> enc_raw r = [].
Proof. unfold enc_raw. destruct (rt_action r); try discriminate. reflexivity. Qed.

Lemma approve_undecodable r :
  is_approve (rt_action r) = true -> dec_raw (enc_raw r) = Err RlpExpectedToBeList.
Proof. intros H. rewrite approve_enc_empty by exact H. reflexivity. Qed.

(** ** C05 *)
Lemma inv_len_ok {E A} (r : res E A) a : inv_len r = Ok a <-> r = Ok a.
Proof. destruct r; cbn; split; congruence. Qed.

Lemma to_ua_spec b u : to_ua b = Some u <-> b = ua u.
Proof.
  split.
  - unfold to_ua. destruct (bool_dec _ _); intros [= <-]; reflexivity.
  - intros ->. apply to_ua_ua.
Qed.
Lemma to_ca_spec b u : to_ca b = Some u <-> b = ca u.
Proof.
  split.
  - unfold to_ca. destruct (bool_dec _ _); intros [= <-]; reflexivity.
  - intros ->. apply to_ca_ca.
Qed.

Lemma hash_from_bytes_spec b h : hash_from_bytes b = Ok h <-> b = sbytes h.
Proof.
  split.
  - unfold hash_from_bytes. destruct (to_sized 32 b) eqn:E; cbn; [|discriminate].
    intros [= <-]. symmetry. apply to_sized_Some, E.
  - intros ->. apply hash_from_bytes_ok.
Qed.

Lemma user_from_bytes_spec b u : user_from_bytes b = Ok u <-> b = ua u.
Proof.
  split; [|intros ->; apply user_from_bytes_ok].
  unfold user_from_bytes. destruct b as [|m r]; [discriminate|].
  destruct (beqb m ACCOUNT_ADDRESS_MAGIC); [|discriminate].
  destruct (to_ua (m :: r)) eqn:E; cbn; [|discriminate].
  intros [= <-]. apply to_ua_spec, E.
Qed.

Lemma contract_from_bytes_spec b u : contract_from_bytes b = Ok u <-> b = ca u.
Proof.
  split; [|intros ->; apply contract_from_bytes_ok].
  unfold contract_from_bytes. destruct b as [|m r]; [discriminate|].
  destruct (magic_contract_type m); [|discriminate].
  destruct (to_ca (m :: r)) eqn:E; cbn; [|discriminate].
  intros [= <-]. apply to_ca_spec, E.
Qed.

Lemma address_from_bytes_spec b a : address_from_bytes b = Ok a <-> b = address_bytes a.
Proof.
  split; [|intros ->; apply address_from_bytes_ok].
  unfold address_from_bytes. destruct b as [|m r]; [discriminate|].
  destruct (beqb m ACCOUNT_ADDRESS_MAGIC).
  - destruct (user_from_bytes (m :: r)) eqn:E; cbn; try discriminate.
    intros [= <-]. apply user_from_bytes_spec, E.
  - destruct (contract_from_bytes (m :: r)) eqn:E; cbn; try discriminate.
    intros [= <-]. apply contract_from_bytes_spec, E.
Qed.

Lemma decode_hex_text_spec s b :
  decode_hex_text s = Ok b <-> map lower (clean_0x s) = hex_encode b.
Proof.
  rewrite <- hex_decode_spec. unfold decode_hex_text.
  destruct (hex_decode (clean_0x s)); cbn; split; congruence.
Qed.

Lemma from_hex_spec {A} (from : bytes -> res types_err A) (to : A -> bytes) s a :
  (forall b a, from b = Ok a <-> b = to a) ->
  (let? b := decode_hex_text s in from b) = Ok a <-> map lower (clean_0x s) = hex_encode (to a).
Proof.
  intros S. destruct (decode_hex_text s) as [b|e|] eqn:E; cbn [rbind].
  - rewrite S. apply decode_hex_text_spec in E. rewrite E. split.
    + intros ->. reflexivity.
    + apply hex_encode_inj.
  - split; [discriminate|]. intros H. apply decode_hex_text_spec in H. congruence.
  - split; [discriminate|]. intros H. apply decode_hex_text_spec in H. congruence.
Qed.

Lemma hash_from_hex_spec s h : hash_from_hex s = Ok h <-> map lower (clean_0x s) = hash_as_hex h.
Proof. apply (from_hex_spec _ sbytes), hash_from_bytes_spec. Qed.
Lemma user_from_hex_spec s h : user_from_hex s = Ok h <-> map lower (clean_0x s) = user_as_hex h.
Proof. apply (from_hex_spec _ ua), user_from_bytes_spec. Qed.
Lemma contract_from_hex_spec s h : contract_from_hex s = Ok h <-> map lower (clean_0x s) = contract_as_hex h.
Proof. apply (from_hex_spec _ ca), contract_from_bytes_spec. Qed.
Lemma address_from_hex_spec s h : address_from_hex s = Ok h <-> map lower (clean_0x s) = address_as_hex h.
Proof. apply (from_hex_spec _ address_bytes), address_from_bytes_spec. Qed.

Lemma lower_hex_digit n : n < 16 -> lower (hex_digit n) = hex_digit n.
Proof. intros H. apply hex_val_lower_spec with (v := n), hex_val_digit, H. Qed.

Lemma lower_hex_encode b : map lower (hex_encode b) = hex_encode b.
Proof. apply hex_decode_spec, hex_decode_encode. Qed.

(** Any mixed-case rendering, with or without "0x". *)
Lemma mixed_case_clean s b : map lower s = hex_encode b -> clean_0x s = s.
Proof.
  destruct s as [|a [|c r]]; try reflexivity. destruct b as [|x b]; [discriminate|].
  cbn [map hex_encode]. intros [= Ea Ec _]. cbn [clean_0x].
  destruct (beqb c x78) eqn:E; [|rewrite andb_false_r; reflexivity].
  apply beqb_eq in E. subst c. exfalso. change (lower x78) with x78 in Ec.
  pose proof (hex_digit_not_x (bN x mod 16) ltac:(apply N.mod_lt; lia)) as D.
  rewrite <- Ec in D. discriminate.
Qed.

Lemma user_accepts_spec b :
  (exists u, user_from_bytes b = Ok u) <-> length b = 21%nat /\ nth_error b 0 = Some x10.
Proof.
  split.
  - intros [u H]. apply user_from_bytes_spec in H as ->. split; [apply ua_len|].
    pose proof (ua_ok u) as O. destruct (ua u) as [|m r]; [discriminate|].
    cbn [user_addr_ok] in O. apply andb_true_iff in O as [O _]. apply beqb_eq in O. subst m. reflexivity.
  - intros [L H]. destruct b as [|m r]; [discriminate|]. injection H as ->.
    assert (O : user_addr_ok (x10 :: r) = true).
    { cbn [user_addr_ok]. rewrite L. reflexivity. }
    exists (UA _ O). apply user_from_bytes_spec. reflexivity.
Qed.

Lemma contract_accepts_spec b :
  (exists u, contract_from_bytes b = Ok u) <->
  length b = 21%nat /\ exists t, nth_error b 0 = Some (contract_magic t).
Proof.
  split.
  - intros [u H]. apply contract_from_bytes_spec in H as ->. split; [apply ca_len|].
    pose proof (ca_ok u) as O. destruct (ca u) as [|m r]; [discriminate|].
    cbn [contract_addr_ok] in O. destruct (magic_contract_type m) as [t|] eqn:E; [|discriminate].
    exists t. cbn. f_equal. revert E. destruct m; cbn; intros [= <-]; reflexivity.
  - intros [L [t H]]. destruct b as [|m r]; [discriminate|]. injection H as ->.
    assert (O : contract_addr_ok (contract_magic t :: r) = true).
    { cbn [contract_addr_ok]. destruct t; cbn [contract_magic]; cbn; apply Nat.eqb_eq; cbn in L; lia. }
    exists (CA _ O). apply contract_from_bytes_spec. reflexivity.
Qed.

Lemma user_contract_disjoint u c : ua u <> ca c.
Proof.
  pose proof (ua_ok u) as U. pose proof (ca_ok c) as C. intros E. rewrite E in U.
  destruct (ca c) as [|m r]; [discriminate|]. cbn [user_addr_ok contract_addr_ok] in *.
  destruct (magic_contract_type m) eqn:Em; [|discriminate].
  rewrite (magic_not_user _ _ Em) in U. discriminate.
Qed.

Lemma address_bytes_inj a b : address_bytes a = address_bytes b -> a = b.
Proof.
  destruct a as [u|c], b as [v|d]; cbn; intros H.
  - f_equal. apply ua_eq, H.
  - exfalso. exact (user_contract_disjoint _ _ H).
  - exfalso. symmetry in H. exact (user_contract_disjoint _ _ H).
  - f_equal. apply ca_eq, H.
Qed.

(** ** C06 *)
Lemma firstn_hex n b : firstn (2 * n) (hex_encode b) = hex_encode (firstn n b).
Proof.
  revert b. induction n as [|n IH]; intros b; [reflexivity|].
  replace (2 * S n)%nat with (S (S (2 * n))) by lia.
  destruct b as [|x b]; [reflexivity|]. cbn [hex_encode firstn]. rewrite IH. reflexivity.
Qed.

Lemma user_from_pubkey_spec (digest : bytes -> hash) pk :
  exists a, user_from_pubkey digest pk = Ok a /\ ua a = x10 :: firstn 20 (sbytes (digest pk)).
Proof.
  assert (L : length (x10 :: firstn 20 (sbytes (digest pk))) = 21%nat).
  { cbn [length]. rewrite firstn_length, sized_len. reflexivity. }
  destruct (proj2 (user_accepts_spec (x10 :: firstn 20 (sbytes (digest pk)))) (conj L eq_refl)) as [a Ha].
  exists a. split; [|symmetry; apply user_from_bytes_spec, Ha].
  unfold user_from_pubkey, hash_as_hex. change 40%nat with (2 * 20)%nat.
  rewrite firstn_hex, <- hex_encode_app, hex_decode_encode. exact Ha.
Qed.

Lemma contract_from_code_spec (digest : bytes -> hash) code nonce t :
  exists c, contract_from_code digest code nonce t = Ok c /\
    ca c = contract_magic t :: firstn 20 (sbytes (digest (code ++ u64_to_be_bytes nonce))) /\
    contract_type_of c = t.
Proof.
  set (h := firstn 20 (sbytes (digest (code ++ u64_to_be_bytes nonce)))).
  assert (L : length (contract_magic t :: h) = 21%nat).
  { cbn [length]. unfold h. rewrite firstn_length, sized_len. reflexivity. }
  destruct (proj2 (contract_accepts_spec (contract_magic t :: h)) (conj L (ex_intro _ t eq_refl))) as [c Hc].
  exists c. apply contract_from_bytes_spec in Hc as E. split; [|split].
  - unfold contract_from_code. fold h. destruct t; exact Hc.
  - symmetry; exact E.
  - unfold contract_type_of. rewrite <- E. destruct t; reflexivity.
Qed.

(** ** C07 *)
Ltac nopanic :=
  repeat first
    [ apply check_list_len_no_panic | apply at_data_no_panic
    | apply rlp_at_no_panic | apply rlp_data_no_panic
    | apply dec_u64_no_panic | apply dec_u8_no_panic | apply dec_sized_no_panic
    | apply dec_string_no_panic
    | (apply at_dec_no_panic; intros ?)
    | (apply rbind_no_panic; [|intros ? ?])
    | discriminate ].

Lemma inv_len_no_panic {E A} (r : res E A) : r <> Panic -> inv_len r <> Panic.
Proof. destruct r; cbn; congruence. Qed.
Lemma ok_or_no_panic {E A} (o : option A) (e : E) : ok_or o e <> Panic.
Proof. destruct o; discriminate. Qed.
Lemma hash_from_bytes_np b : hash_from_bytes b <> Panic.
Proof. apply ok_or_no_panic. Qed.
Lemma user_from_bytes_np b : user_from_bytes b <> Panic.
Proof.
  unfold user_from_bytes. destruct b; [discriminate|]. destruct (beqb _ _); [apply ok_or_no_panic|discriminate].
Qed.
Lemma contract_from_bytes_np b : contract_from_bytes b <> Panic.
Proof.
  unfold contract_from_bytes. destruct b; [discriminate|].
  destruct (magic_contract_type _); [apply ok_or_no_panic|discriminate].
Qed.
Lemma address_from_bytes_np b : address_from_bytes b <> Panic.
Proof.
  unfold address_from_bytes. destruct b as [|m r]; [discriminate|].
  pose proof (user_from_bytes_np (m :: r)) as U. pose proof (contract_from_bytes_np (m :: r)) as C.
  destruct (beqb _ _); [destruct (user_from_bytes _)|destruct (contract_from_bytes _)]; cbn; congruence.
Qed.
Lemma at_utf8_np b i : at_utf8 b i <> Panic.
Proof. unfold at_utf8. nopanic. apply ok_or_no_panic. Qed.
Lemma at_bal_np b i : at_bal b i <> Panic.
Proof. unfold at_bal. nopanic. Qed.
Lemma dec_hash_np b : dec_hash b <> Panic.
Proof. unfold dec_hash. nopanic. apply inv_len_no_panic, hash_from_bytes_np. Qed.
Lemma dec_user_np b : dec_user b <> Panic.
Proof. unfold dec_user. nopanic. apply inv_len_no_panic, user_from_bytes_np. Qed.
Lemma dec_contract_np b : dec_contract b <> Panic.
Proof. unfold dec_contract. nopanic. apply inv_len_no_panic, contract_from_bytes_np. Qed.
Lemma dec_address_np b : dec_address b <> Panic.
Proof. unfold dec_address. nopanic. apply inv_len_no_panic, address_from_bytes_np. Qed.
Ltac nopanic2 :=
  repeat first [ apply dec_hash_np | apply dec_user_np | apply dec_contract_np | apply dec_address_np
               | apply at_utf8_np | apply at_bal_np
               | apply check_list_len_no_panic | apply at_data_no_panic
               | apply rlp_at_no_panic | apply rlp_data_no_panic
               | apply dec_u64_no_panic | apply dec_u8_no_panic | apply dec_sized_no_panic
               | apply dec_string_no_panic
               | (apply at_dec_no_panic; intros ?)
               | (apply rbind_no_panic; [|intros ? ?])
               | discriminate ].
Lemma dec_asset_np b : dec_asset b <> Panic.
Proof. unfold dec_asset. nopanic2. Qed.
Lemma dec_fee_np b : dec_fee b <> Panic.
Proof. unfold dec_fee. nopanic2. Qed.
Lemma dec_proof_np b : dec_proof b <> Panic.
Proof. unfold dec_proof. nopanic2. Qed.
Lemma dec_validator_np b : dec_validator b <> Panic.
Proof. unfold dec_validator. nopanic2. Qed.
Lemma dec_epoch_id_np b : dec_epoch_id b <> Panic.
Proof. unfold dec_epoch_id. nopanic2. Qed.
Lemma dec_gasset_np b : dec_gasset b <> Panic.
Proof. unfold dec_gasset. nopanic2. Qed.
Lemma flag_ctype_np b : flag_ctype b <> Panic.
Proof. unfold flag_ctype. repeat (destruct (_ =? _); [discriminate|]). discriminate. Qed.
Lemma dec_result_np b : dec_result b <> Panic.
Proof.
  unfold dec_result. nopanic2.
  destruct (_ =? 0); [nopanic2|]. destruct (_ =? 1); [nopanic2; apply flag_ctype_np|].
  destruct (_ =? 2); [nopanic2|]. destruct (_ =? 3); nopanic2.
Qed.
Lemma dec_receipt_np b : dec_receipt b <> Panic.
Proof. unfold dec_receipt. apply rbind_no_panic; [nopanic2|intros _ _].
  apply rbind_no_panic; [apply at_dec_no_panic, dec_fee_np|intros ? _].
  apply rbind_no_panic; [nopanic2|intros ? _].
  apply rbind_no_panic; [apply at_dec_no_panic, dec_result_np|intros ? _]. nopanic2. Qed.

(** Witnesses for the crashing decoders: a list field that contains an empty
    list where a value is expected. *)
Definition bad_list : bytes := enc_list [enc_list []].
Definition h0 : bytes := repeat x00 32.
Definition bad_raw : bytes :=
  enc_list [enc_u8 x03; enc_str h0; enc_str h0; enc_str []; enc_str h0; enc_str []; bad_list].
Definition bad_signed : bytes := enc_list [enc_str []; bad_raw].
Definition bad_header : bytes := enc_list [enc_list [enc_str h0]; bad_list].
Definition bad_epoch : bytes := enc_list [bad_header].
Definition bad_pill : bytes := enc_list [bad_epoch].
Definition bad_account : bytes := enc_list [enc_u8 x00; bad_list].
Definition bad_gtoken : bytes := enc_list [enc_str []].
Definition bad_galloc : bytes := enc_list [enc_str []; bad_list].
Definition bad_genesis : bytes := enc_list [enc_str []; bad_list].

Lemma list_decoders_panic :
  dec_raw bad_raw = Panic /\ dec_signed bad_signed = Panic /\ dec_header bad_header = Panic /\
  dec_epoch bad_epoch = Panic /\ dec_pill bad_pill = Panic /\ dec_account bad_account = Panic /\
  dec_gtoken bad_gtoken = Panic /\ dec_galloc bad_galloc = Panic /\ dec_genesis bad_genesis = Panic.
Proof. vm_compute. repeat split. Qed.

(** ** C08 *)
Section SortedUnique.
  Context `{Countable K} {V : Type} (key : K -> bytes) (key_inj : forall a b, key a = key b -> a = b).

  Definition strictly_ascending (l : list (K * V)) : Prop :=
    StronglySorted (fun p q => bytes_leb (key (fst p)) (key (fst q)) = true /\ key (fst p) <> key (fst q)) l.

  Lemma sorted_nodup_strict (l : list (K * V)) :
    StronglySorted (key_le key) l -> NoDup (fst <$> l) -> strictly_ascending l.
  Proof.
    induction 1 as [|p l Hs IH Hp]; intros Hn; [constructor|].
    cbn [fmap list_fmap] in Hn. apply NoDup_cons in Hn as [Hk Hn].
    constructor; [apply IH, Hn|].
    apply Forall_forall. intros q Hq. split.
    - eapply Forall_forall in Hp; [exact Hp|exact Hq].
    - intros E. apply key_inj in E. apply Hk. rewrite E. apply elem_of_list_fmap_1, Hq.
  Qed.

  Lemma sorted_entries_strict (m : gmap K V) : strictly_ascending (sorted_entries key m).
  Proof.
    apply sorted_nodup_strict; [apply sort_entries_sorted|].
    unfold sorted_entries. rewrite (sort_entries_perm key (map_to_list m)).
    apply NoDup_fst_map_to_list.
  Qed.

  Lemma sorted_entries_elem (m : gmap K V) k v : (k, v) ∈ sorted_entries key m <-> m !! k = Some v.
  Proof.
    unfold sorted_entries. rewrite (sort_entries_perm key (map_to_list m)).
    apply elem_of_map_to_list.
  Qed.

  (** The ascending list of entries is unique. *)
  Lemma strict_unique (l1 l2 : list (K * V)) :
    strictly_ascending l1 -> strictly_ascending l2 ->
    (forall p, p ∈ l1 <-> p ∈ l2) -> l1 = l2.
  Proof.
    intros S1. revert l2. induction S1 as [|p l1 S1 IH Hp]; intros l2 S2 E.
    - destruct l2 as [|q l2]; [reflexivity|]. exfalso.
      assert (q ∈ @nil (K * V)) as A by (apply E; left). inversion A.
    - destruct l2 as [|q l2].
      { exfalso. assert (p ∈ @nil (K * V)) as A by (apply E; left). inversion A. }
      inversion S2 as [|? ? S2' Hq]; subst.
      assert (p = q) as ->.
      { assert (P : p ∈ q :: l2) by (apply E; left).
        assert (Q : q ∈ p :: l1) by (apply E; left).
        apply elem_of_cons in P as [P|P]; [exact P|].
        apply elem_of_cons in Q as [Q|Q]; [symmetry; exact Q|].
        eapply Forall_forall in Hq; [|exact P]. eapply Forall_forall in Hp; [|exact Q].
        destruct Hq as [Hq1 Hq2], Hp as [Hp1 Hp2]. exfalso. apply Hp2.
        apply bytes_leb_antisym; assumption. }
      f_equal. apply IH; [exact S2'|]. intros r. specialize (E r).
      rewrite !elem_of_cons in E. split; intros R.
      + destruct (proj1 E (or_intror R)) as [->|R']; [|exact R'].
        exfalso. eapply Forall_forall in Hp; [|exact R]. destruct Hp as [_ Hp]. congruence.
      + destruct (proj2 E (or_intror R)) as [->|R']; [|exact R'].
        exfalso. eapply Forall_forall in Hq; [|exact R]. destruct Hq as [_ Hq]. congruence.
  Qed.
End SortedUnique.

(** The entry lists written for an account are the unique strictly ascending
    listings of its maps. *)
Lemma account_bytes_canonical u (entries : list (hash * asset_info)) :
  strictly_ascending sbytes entries ->
  (forall k v, (k, v) ∈ entries <-> uac_assets u !! k = Some v) ->
  enc_account (AccUser u) =
    enc_list [enc_u8 x00; enc_list (map enc_user_asset entries); enc_u64 (uac_nonce u)].
Proof.
  intros S E. cbn [enc_account].
  replace (sorted_entries sbytes (uac_assets u)) with entries; [reflexivity|].
  apply (strict_unique sbytes); [exact S| |].
  - apply sorted_entries_strict. apply @sized_eq.
  - intros [k v]. rewrite E, sorted_entries_elem. reflexivity.
Qed.

Lemma approvals_bytes_canonical h i (entries : list (contract_address * approved_info)) :
  strictly_ascending ca entries ->
  (forall k v, (k, v) ∈ entries <-> ai_approved i !! k = Some v) ->
  enc_user_asset (h, i) =
    enc_list [enc_list (map enc_approved entries); enc_bal (ai_balance i); enc_hash h].
Proof.
  intros S E. unfold enc_user_asset. cbn [fst snd].
  replace (sorted_entries ca (ai_approved i)) with entries; [reflexivity|].
  apply (strict_unique ca); [exact S| |].
  - apply sorted_entries_strict. apply ca_eq.
  - intros [k v]. rewrite E, sorted_entries_elem. reflexivity.
Qed.

Lemma contract_account_bytes_canonical c (entries : list (hash * balance)) :
  strictly_ascending sbytes entries ->
  (forall k v, (k, v) ∈ entries <-> cac_assets c !! k = Some v) ->
  enc_account (AccContract c) =
    enc_list [enc_u8 x01; enc_list (map enc_contract_asset entries); enc_u64 (cac_nonce c);
              enc_hash (cac_storage_root c)].
Proof.
  intros S E. cbn [enc_account].
  replace (sorted_entries sbytes (cac_assets c)) with entries; [reflexivity|].
  apply (strict_unique sbytes); [exact S| |].
  - apply sorted_entries_strict. apply @sized_eq.
  - intros [k v]. rewrite E, sorted_entries_elem. reflexivity.
Qed.

(** History independence: two histories of inserts and removals. *)
Inductive map_op (K V : Type) := MInsert (k : K) (v : V) | MRemove (k : K).
Arguments MInsert {K V} k v.
Arguments MRemove {K V} k.
Definition run_map_ops `{Countable K} {V} (ops : list (map_op K V)) : gmap K V :=
  fold_left (fun m o => match o with MInsert k v => <[k := v]> m | MRemove k => delete k m end) ops ∅.

Lemma account_history_independent n (h1 h2 : list (map_op hash asset_info)) :
  (forall k, run_map_ops h1 !! k = run_map_ops h2 !! k) ->
  enc_account (AccUser (MkUserAccount n (run_map_ops h1))) =
  enc_account (AccUser (MkUserAccount n (run_map_ops h2))).
Proof. intros E. apply map_eq in E. rewrite E. reflexivity. Qed.

(** ** C09: decoding is not injective. *)
Lemma dec_hash_extra h : dec_hash (enc_list [enc_str (sbytes h); enc_str []]) = Ok h.
Proof.
  unfold dec_hash. erewrite at_data_list; [| | |reflexivity|apply fits_sized32].
  - cbn [rbind]. rewrite hash_from_bytes_ok. reflexivity.
  - repeat constructor; [apply item_str, fits_sized32|apply item_str; reflexivity].
  - cbn [concat]. rewrite app_nil_r. apply fits_small. rewrite app_length.
    pose proof (enc_str_len_le (sbytes h) ltac:(rewrite sized_len; lia)) as L. rewrite sized_len in L.
    change (length (enc_str [])) with 1%nat. lia.
Qed.
