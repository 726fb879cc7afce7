(** * The model's encoders write the published formats. *)
From Verif Require Import Base BaseFacts Hex Types Rlp RlpFacts FixedCodec FixedCodecFacts CodecProps Proto ProtoFacts Wire FormatSpec.
From Coq Require Import ZifyBool ZifyNat ZifyN Sorting.Sorted.
Local Open Scope N_scope.

Scheme rlp_ind2 := Induction for rlp Sort Prop
  with rlps_ind2 := Induction for rlps Sort Prop.
Combined Scheme rlp_rlps_ind from rlp_ind2, rlps_ind2.

(** ** The formats determine the bytes *)
Lemma number_lt d : number d < 256 ^ N.of_nat (length d).
Proof.
  induction d as [|x r IH]; [reflexivity|]. cbn [number length].
  pose proof (bN_lt x) as L. unfold bN in L.
  rewrite Nat2N.inj_succ, N.pow_succ_r'. nia.
Qed.
Lemma number_inj a b : length a = length b -> number a = number b -> a = b.
Proof.
  revert b. induction a as [|x a IH]; intros [|y b] L E; try discriminate; [reflexivity|].
  cbn [number length] in *. injection L as L. rewrite L in E.
  pose proof (number_lt a) as Ha. pose proof (number_lt b) as Hb. rewrite L in Ha.
  assert (Byte.to_N x = Byte.to_N y) as Exy by nia.
  f_equal; [apply (bN_inj x y), Exy|]. apply IH; [exact L|]. rewrite Exy in E. clear -E. nia.
Qed.
Lemma number_ge x r : Byte.to_N x <> 0 -> 256 ^ N.of_nat (length r) <= number (x :: r).
Proof. cbn [number]. nia. Qed.
Lemma shortest_unique n d d' : shortest n d -> shortest n d' -> d = d'.
Proof.
  intros [E H] [E' H']. subst n. apply number_inj; [|symmetry; exact E'].
  assert (forall a b, number a = number b -> match a with [] => True | x :: _ => Byte.to_N x <> 0 end -> (length a <= length b)%nat) as K.
  { intros a b E Ha. destruct a as [|x r]; [cbn; lia|].
    pose proof (number_ge x r Ha) as G. pose proof (number_lt b) as L. rewrite E in G.
    assert (256 ^ N.of_nat (length r) < 256 ^ N.of_nat (length b)) as Q by lia.
    apply N.pow_lt_mono_r_iff in Q; [cbn; lia|lia]. }
  pose proof (K d d' (eq_sym E') H). pose proof (K d' d E' H'). lia.
Qed.
Lemma prefix_unique s l n p p' : prefix s l n p -> prefix s l n p' -> p = p'.
Proof.
  intros H H'. inversion H; inversion H'; subst; try lia.
  - f_equal. apply (bN_inj p0 p1). unfold bN. congruence.
  - assert (d0 = d) as -> by (eapply shortest_unique; eassumption).
    f_equal. apply (bN_inj p0 p1). unfold bN. congruence.
Qed.
Lemma rlp_unique_both :
  (forall t e, rlp t e -> forall e', rlp t e' -> e = e') /\
  (forall l e, rlps l e -> forall e', rlps l e' -> e = e').
Proof.
  apply (rlp_rlps_ind (fun t e _ => forall e', rlp t e' -> e = e') (fun l e _ => forall e', rlps l e' -> e = e')).
  - intros x Hx e' H. inversion H; subst; [reflexivity|]. specialize (H1 x eq_refl). lia.
  - intros b p Hb Hp e' H. inversion H; subst; [specialize (Hb x eq_refl); lia|].
    f_equal. eapply prefix_unique; eassumption.
  - intros n d e Hd H IH e' H'. inversion H'; subst. apply IH.
    replace d with d0 by (eapply shortest_unique; eassumption). assumption.
  - intros n e Hn H IH e' H'. inversion H'; subst; [apply IH; assumption|congruence].
  - intros e H IH e' H'. inversion H'; subst; [congruence|]. apply IH; assumption.
  - intros l body p H IH Hp e' H'. inversion H'; subst. rewrite <- (IH _ H1) in *.
    f_equal. eapply prefix_unique; eassumption.
  - intros e' H'. inversion H'. reflexivity.
  - intros t l e body H IH H0 IH0 e' H'. inversion H'; subst. f_equal; [apply IH|apply IH0]; assumption.
Qed.
Lemma rlp_unique t e e' : rlp t e -> rlp t e' -> e = e'.
Proof. intros H. apply (proj1 rlp_unique_both t e H). Qed.

Lemma vint_unique n b b' : vint n b -> vint n b' -> b = b'.
Proof.
  intros H. revert b'. induction H as [n x Hn E|n x r Hn E H IH]; intros b' H'; inversion H'; subst; try lia.
  - f_equal. apply (bN_inj x x0). unfold bN. congruence.
  - f_equal; [|apply IH; assumption]. apply (bN_inj x x0). unfold bN. congruence.
Qed.
Lemma message_unique fs b b' : message fs b -> message fs b' -> b = b'.
Proof.
  intros H. revert b'. induction H; intros b' H'.
  - inversion H'. reflexivity.
  - inversion H'; subst; [auto|congruence].
  - inversion H'; subst; [congruence|].
    f_equal; [eapply vint_unique; eassumption|]. f_equal; [eapply vint_unique; eassumption|auto].
  - inversion H'; subst; [auto|congruence].
  - inversion H'; subst; [congruence|auto].
  - inversion H'; subst. f_equal; [eapply vint_unique; eassumption|].
    f_equal; [eapply vint_unique; eassumption|]. f_equal. auto.
  - inversion H'; subst. apply IHmessage2.
    match goal with Hm : message sub ?y |- _ => replace x with y; [assumption|symmetry; auto] end.
Qed.

(** ** RLP encoders *)
Lemma number_be_val d : number d = be_val d.
Proof. induction d as [|x r IH]; [reflexivity|]. rewrite be_val_cons, <- IH. reflexivity. Qed.
Lemma shortest_min n : shortest n (be_min n).
Proof.
  split; [rewrite number_be_val; apply be_val_min|].
  destruct (N.eq_dec n 0) as [->|Hn]; [rewrite be_min_0; exact I|].
  destruct (be_min_cons n Hn) as (b & l & -> & Hb). exact Hb.
Qed.
Lemma prefix_len s l n : s + 55 < 256 -> l + 8 < 256 -> n < two64 -> prefix s l n (enc_len s l n).
Proof.
  intros Hs Hl Hn. unfold enc_len. destruct (n <=? 55) eqn:E.
  - apply prefix_short; [lia|]. apply bN_byte_of_small. lia.
  - assert (blen (be_min n) <= 8) as L by (apply be_min_len; exact Hn).
    apply prefix_long; [lia|apply shortest_min|]. apply bN_byte_of_small. unfold blen in *. lia.
Qed.
Lemma rlp_enc_str b : fits b -> rlp (Str b) (enc_str b).
Proof.
  intros F. assert (prefix 128 183 (N.of_nat (length b)) (enc_len 128 183 (blen b))) as P by (apply prefix_len; [lia|lia|exact F]).
  destruct b as [|x [|y r]].
  - change (enc_str []) with ([x80] ++ []). apply rlp_str; [intros y E; discriminate E|].
    apply prefix_short; [cbn; lia|reflexivity].
  - cbn [enc_str]. destruct (bN x <? 128) eqn:E.
    + apply rlp_byte. unfold bN in E. lia.
    + apply rlp_str; [|exact P]. intros z [= <-]. unfold bN in E. lia.
  - unfold enc_str. apply rlp_str; [intros z E; discriminate E|exact P].
Qed.

(** [e] is the encoding of [t], provided it fits in memory. *)
Definition enc_is (t : item) (e : bytes) : Prop := fits e -> rlp t e.
Lemma str_is b : enc_is (Str b) (enc_str b).
Proof. intros F. apply rlp_enc_str. apply fits_str, F. Qed.
Lemma num_is n : enc_is (Num n) (enc_str (be_min n)).
Proof. intros F. eapply rlp_num; [apply shortest_min|]. apply str_is, F. Qed.
Lemma u64_is (n : u64) : enc_is (Num (u64v n)) (enc_u64 n).
Proof. apply num_is. Qed.
Lemma u8_is (b : byte) : enc_is (Num (Byte.to_N b)) (enc_u8 b).
Proof. apply num_is. Qed.
Lemma bal_is n : enc_is (Big n) (enc_bal n).
Proof.
  intros F. unfold enc_bal, biguint_to_bytes_be in *. destruct (n =? 0) eqn:E.
  - apply N.eqb_eq in E as ->. apply rlp_zero, str_is, F.
  - apply N.eqb_neq in E. apply rlp_big; [exact E|]. apply num_is, F.
Qed.
Lemma list_is l ps : Forall2 enc_is l ps -> enc_is (Lst l) (enc_list ps).
Proof.
  intros H F. unfold enc_list in *. pose proof (fits_app_r _ _ F) as Fc.
  apply rlp_list; [|apply prefix_len; [lia|lia|exact Fc]].
  clear F. induction H as [|t e l ps Ht H IH]; cbn [concat] in *; [constructor|].
  constructor; [apply Ht, (fits_app_l _ _ Fc)|apply IH, (fits_app_r _ _ Fc)].
Qed.
Lemma map_is {A} (f : A -> item) (g : A -> bytes) l : (forall a, enc_is (f a) (g a)) -> enc_is (Lst (map f l)) (enc_list (map g l)).
Proof. intros H. apply list_is. induction l; cbn [map]; constructor; auto. Qed.

Lemma hex_digit_table n : n < 16 -> hex_digit n = hexdigit n.
Proof.
  intros H. assert (In n (map N.of_nat (seq 0 16))) as HI.
  { apply in_map_iff. exists (N.to_nat n). split; [lia|]. apply in_seq. lia. }
  cbn in HI. repeat (destruct HI as [<-|HI]; [reflexivity|]). destruct HI.
Qed.
Lemma hex_encode_text b : hex_encode b = hextext b.
Proof.
  induction b as [|x r IH]; [reflexivity|]. cbn [hex_encode]. unfold hextext in *. cbn [flat_map app].
  pose proof (bN_lt x) as L. rewrite IH. unfold bN in *.
  rewrite !hex_digit_table; [reflexivity| |]; [apply N.mod_lt; lia|apply N.div_lt_upper_bound; lia].
Qed.

Lemma hash_is h : enc_is (hash_f h) (enc_hash h).
Proof. apply list_is. repeat constructor. apply str_is. Qed.
Lemma user_is h : enc_is (user_f h) (enc_user h).
Proof. apply list_is. repeat constructor. apply str_is. Qed.
Lemma contract_is h : enc_is (contract_f h) (enc_contract h).
Proof. apply list_is. repeat constructor. apply str_is. Qed.
Ltac fs := apply list_is; repeat (apply @List.Forall2_cons; [first [apply str_is|apply u64_is|apply u8_is|apply bal_is|apply hash_is|apply user_is|apply contract_is|idtac]|]); try apply @List.Forall2_nil.
Lemma fee_is f : enc_is (fee_f f) (enc_fee f).
Proof. fs. Qed.
Lemma asset_is f : enc_is (asset_f f) (enc_asset f).
Proof. fs. Qed.
Lemma kind_is t : enc_is (Num (kind_f t)) (enc_u8 (ctype_flag t)).
Proof. destruct t; [exact (u8_is x00)|exact (u8_is x01)|exact (u8_is x02)|exact (u8_is x03)]. Qed.
Lemma args_is args : enc_is (Lst (map (fun a => Str (hextext a)) args)) (enc_list (map (fun a => enc_str (hex_encode a)) args)).
Proof. apply map_is. intros a. rewrite hex_encode_text. apply str_is. Qed.
Lemma transaction_is r t : transaction_f r t -> enc_is t (enc_raw r).
Proof.
  destruct 1; unfold r, enc_raw, head_f, enc_basic; cbn [rt_action rt_chain_id rt_fee rt_nonce rt_timeout app cr_amount cr_asset_id].
  all: fs; first [exact (u8_is x00)|exact (u8_is x01)|exact (u8_is x02)|exact (u8_is x03)|apply kind_is|apply args_is].
Qed.
Lemma transaction_has r : is_approve (rt_action r) = false -> exists t, transaction_f r t.
Proof.
  destruct r as [chain nonce timeout f [receiver [asset amount]|s i m|code kind|contract method args [[asset amount]|]]]; cbn; intros H; try discriminate; eexists; constructor.
Qed.
Lemma transaction_det r t t' : transaction_f r t -> transaction_f r t' -> t = t'.
Proof. intros H H'. destruct H; inversion H'; subst; reflexivity. Qed.
Lemma transaction_not r t : transaction_f r t -> is_approve (rt_action r) = false.
Proof. destruct 1; reflexivity. Qed.

Lemma signed_is s t : signed_f s t -> enc_is t (enc_signed s).
Proof.
  destruct 1 as [raw t h pubkey signature H]. unfold enc_signed. cbn [st_pubkey st_raw st_signature st_tx_hash].
  fs. apply (transaction_is _ _ H).
Qed.
Lemma signed_has s : is_approve (rt_action (st_raw s)) = false -> exists t, signed_f s t.
Proof.
  destruct s as [raw h pk sg]. cbn [st_raw]. intros H. destruct (transaction_has raw H) as [t Ht].
  eexists. constructor. exact Ht.
Qed.
Lemma signed_det r t t' : signed_f r t -> signed_f r t' -> t = t'.
Proof. intros H H'. destruct H; inversion H'; subst. f_equal. f_equal. f_equal. eapply transaction_det; eassumption. Qed.

Lemma result_is r t : result_f r t -> enc_is t (enc_result r).
Proof.
  destruct 1; unfold enc_result; fs; first [exact (u8_is x00)|exact (u8_is x01)|exact (u8_is x02)|exact (u8_is x03)|apply kind_is].
Qed.
Lemma result_det r t t' : result_f r t -> result_f r t' -> t = t'.
Proof. intros H H'. destruct H; inversion H'; subst; reflexivity. Qed.
Lemma receipt_is s t : receipt_f s t -> enc_is t (enc_receipt s).
Proof.
  destruct 1 as [state epoch tx cycles result t H]. unfold enc_receipt. cbn [rc_state_root rc_epoch_id rc_tx_hash rc_cycles_used rc_result].
  fs; [apply fee_is|apply (result_is _ _ H)].
Qed.
Definition is_rapprove (r : receipt_result) : bool := match r with RApprove _ _ _ => true | _ => false end.
Lemma receipt_has s : is_rapprove (rc_result s) = false -> exists t, receipt_f s t.
Proof.
  destruct s as [a b c d [ | | | | ]]; cbn; intros H; try discriminate; eexists; constructor; constructor.
Qed.
Lemma receipt_det r t t' : receipt_f r t -> receipt_f r t' -> t = t'.
Proof. intros H H'. destruct H; inversion H'; subst. f_equal. f_equal. f_equal. f_equal. eapply result_det; eassumption. Qed.

Lemma proof_is p : enc_is (proof_f p) (enc_proof p).
Proof. fs. Qed.
Lemma validator_is p : enc_is (validator_f p) (enc_validator p).
Proof. fs. Qed.
Lemma hashes_is l : enc_is (Lst (map hash_f l)) (enc_list (map enc_hash l)).
Proof. apply map_is, hash_is. Qed.
Lemma header_is h : enc_is (header_f h) (enc_header h).
Proof. fs; first [apply hashes_is|apply proof_is|apply map_is, validator_is]. Qed.
Lemma epoch_is h : enc_is (epoch_f h) (enc_epoch h).
Proof. fs; first [apply hashes_is|apply header_is]. Qed.
Lemma pill_is h : enc_is (pill_f h) (enc_pill h).
Proof. fs; first [apply hashes_is|apply epoch_is]. Qed.
Lemma epoch_id_is h : enc_is (epoch_id_f h) (enc_epoch_id h).
Proof. fs. Qed.
Lemma gtoken_is h : enc_is (gtoken_f h) (enc_gtoken h).
Proof. fs. Qed.
Lemma gasset_is h : enc_is (gasset_f h) (enc_gasset h).
Proof. fs. Qed.
Lemma galloc_is h : enc_is (galloc_f h) (enc_galloc h).
Proof. fs. apply map_is, gasset_is. Qed.
Lemma genesis_is h : enc_is (genesis_f h) (enc_genesis h).
Proof. fs; [apply map_is, galloc_is|apply gtoken_is]. Qed.

(** ** Accounts *)
Lemma before_lt a b : before a b -> bytes_leb a b = true /\ a <> b.
Proof.
  intros (p & x & y & r & s & -> & -> & H). split.
  - induction p as [|z p IH]; cbn [app bytes_leb].
    + unfold bN. destruct (N.ltb_spec (Byte.to_N x) (Byte.to_N y)); [reflexivity|lia].
    + rewrite N.ltb_irrefl, N.eqb_refl. exact IH.
  - intros E. apply app_inv_head in E. injection E as E _. subst. lia.
Qed.
Lemma lt_before a b : length a = length b -> bytes_leb a b = true -> a <> b -> before a b.
Proof.
  revert b. induction a as [|x a IH]; intros [|y b] L H Hn; try discriminate; [congruence|].
  cbn [bytes_leb length] in *. destruct (N.ltb_spec (bN x) (bN y)) as [Q|Q].
  - exists [], x, y, a, b. auto.
  - destruct (N.eqb_spec (bN x) (bN y)) as [E|E]; [|discriminate]. apply bN_inj in E as ->.
    destruct (IH b ltac:(lia) H ltac:(congruence)) as (p & x & y' & r & s & -> & -> & Hlt).
    exists (y :: p), x, y', r, s. auto.
Qed.
Section Listing.
  Context {K : Type} `{Countable K} {V : Type} (key : K -> bytes) (n : nat).
  Hypothesis key_len : forall k, length (key k) = n.
  Hypothesis key_inj : forall a b, key a = key b -> a = b.
  Lemma ordered_strict (l : list (K * V)) : ordered (map (fun p => key (fst p)) l) <-> strictly_ascending key l.
  Proof using key_len.
    induction l as [|p l IH]; cbn [map ordered]; [split; [constructor|trivial]|]. rewrite IH. split.
    - intros [Hb Hs]. constructor; [exact Hs|]. apply List.Forall_forall. intros q Hq.
      apply before_lt, Hb. apply in_map_iff. eauto.
    - intros Hs. inversion Hs as [|? ? Hs' Hf]; subst. split; [|exact Hs'].
      intros b Hb. apply in_map_iff in Hb as (q & <- & Hq). rewrite List.Forall_forall in Hf.
      destruct (Hf q Hq) as [Hl Hn]. apply lt_before; [rewrite !key_len; reflexivity|exact Hl|exact Hn].
  Qed.
  Lemma listing_sorted (m : gmap K V) (l : list (K * V)) : listing key m l <-> l = sorted_entries key m.
  Proof using key_len key_inj.
    unfold listing. rewrite ordered_strict. split.
    - intros [Hs Hl]. apply (strict_unique key); [exact Hs|apply sorted_entries_strict, key_inj|].
      intros [k v]. rewrite sorted_entries_elem, elem_of_list_In. apply Hl.
    - intros ->. split; [apply sorted_entries_strict, key_inj|].
      intros k v. rewrite <- elem_of_list_In. apply sorted_entries_elem.
  Qed.
End Listing.
Lemma listing_hash {V} (m : gmap hash V) l : listing sbytes m l <-> l = sorted_entries sbytes m.
Proof. apply (listing_sorted sbytes 32); [apply sized_len|apply @sized_eq]. Qed.
Lemma listing_contract {V} (m : gmap contract_address V) l : listing ca m l <-> l = sorted_entries ca m.
Proof. apply (listing_sorted ca 21); [apply ca_len|apply ca_eq]. Qed.

Lemma user_entry_is p t : user_entry_f p t -> enc_is t (enc_user_asset p).
Proof.
  destruct 1 as [asset balance approved l H]. apply listing_contract in H as ->.
  unfold enc_user_asset. cbn [fst snd ai_approved ai_balance]. fs. apply map_is. intros q. fs.
Qed.
Lemma user_entry_has p : exists t, user_entry_f p t.
Proof. destruct p as [h [b a]]. eexists. constructor. apply listing_contract. reflexivity. Qed.
Lemma user_entry_det p t t' : user_entry_f p t -> user_entry_f p t' -> t = t'.
Proof.
  intros H H'. destruct H as [asset balance approved l H]. inversion H'; subst.
  apply listing_contract in H, H4. subst. reflexivity.
Qed.
Lemma account_is a t : account_f a t -> enc_is t (enc_account a).
Proof.
  destruct 1 as [nonce assets l ts Hl Hts|nonce assets root l Hl]; apply listing_hash in Hl as ->; unfold enc_account;
    cbn [uac_assets uac_nonce cac_assets cac_nonce cac_storage_root]; fs; try exact (u8_is x00); try exact (u8_is x01).
  - apply list_is. induction Hts as [|p t l ts Hp Hts IH]; cbn [map]; [constructor|].
    constructor; [apply (user_entry_is _ _ Hp)|exact IH].
  - apply map_is. intros q. fs.
Qed.
Lemma account_has a : exists t, account_f a t.
Proof.
  destruct a as [[n m]|[n m r]].
  - assert (exists ts, Forall2 user_entry_f (sorted_entries sbytes m) ts) as [ts Hts].
    { induction (sorted_entries sbytes m) as [|p l IH]; [exists []; constructor|].
      destruct IH as [ts Hts], (user_entry_has p) as [t Ht]. exists (t :: ts). constructor; assumption. }
    eexists. econstructor; [apply listing_hash; reflexivity|exact Hts].
  - eexists. constructor. apply listing_hash. reflexivity.
Qed.
Lemma account_det a t t' : account_f a t -> account_f a t' -> t = t'.
Proof.
  intros H H'. destruct H as [nonce assets l ts Hl Hts|nonce assets root l Hl].
  - inversion H' as [? ? l' ts' Hl' Hts'|]; subst. apply listing_hash in Hl, Hl'. rewrite Hl' in Hts'. rewrite Hl in Hts.
    do 2 f_equal. f_equal. f_equal. clear -Hts Hts'. revert ts' Hts'. induction Hts; intros ts' H'; inversion H'; subst; [reflexivity|].
    f_equal; [eapply user_entry_det; eassumption|auto].
  - inversion H' as [|? ? ? l' Hl']; subst. apply listing_hash in Hl, Hl'. subst. reflexivity.
Qed.

(** ** Protocol buffers encoders *)
Lemma vint_f fuel n : n < 128 ^ N.of_nat fuel -> (0 < fuel)%nat -> vint n (varint_f fuel n).
Proof.
  revert n. induction fuel as [|f IH]; intros n H Hf; [lia|]. cbn [varint_f].
  destruct (N.ltb_spec n 128) as [L|L].
  - apply vint_last; [exact L|]. apply bN_byte_of_small. lia.
  - rewrite Nat2N.inj_succ, N.pow_succ_r' in H.
    assert (f <> O) by (intros ->; change (128 ^ N.of_nat 0) with 1 in H; lia).
    apply vint_more; [exact L| |apply IH; [|lia]].
    + apply bN_byte_of_small. assert (n mod 128 < 128) by (apply N.mod_lt; lia). lia.
    + apply N.div_lt_upper_bound; lia.
Qed.
Lemma vint_is n : n < two64 -> vint n (varint n).
Proof. intros H. apply vint_f; [|lia]. assert (two64 < 128 ^ N.of_nat 10) by reflexivity. lia. Qed.

Lemma message_app f1 b1 f2 b2 : message f1 b1 -> message f2 b2 -> message (f1 ++ f2) (b1 ++ b2).
Proof.
  intros Ha Hb. induction Ha; cbn [app].
  - exact Hb.
  - apply msg_zero; auto.
  - rewrite <- !app_assoc. apply msg_num; auto.
  - apply msg_empty; auto.
  - apply msg_bytes; auto.
  - rewrite <- !app_assoc. apply msg_item; auto.
  - eapply msg_sub; eauto.
Qed.

(** The fields [w] are written as [fs] says. *)
Definition out_is (fs : list (N * value)) (w : list wfield) : Prop := fits (ser w) -> message fs (ser w).
Lemma out_nil : out_is [] [].
Proof. intros _. constructor. Qed.
Lemma out_app f1 w1 f2 w2 : out_is f1 w1 -> out_is f2 w2 -> out_is (f1 ++ f2) (w1 ++ w2).
Proof.
  intros H1 H2 F. destruct (fits_ser_app _ _ F) as [F1 F2]. rewrite ser_app. apply message_app; auto.
Qed.
Lemma ser1 f : ser [f] = ser_field f.
Proof. unfold ser. cbn. apply app_nil_r. Qed.
Lemma out_item t b : t < 1000 -> out_is [(t, VItem b)] [(t, WLen b)].
Proof.
  intros Ht F. pose proof (fits_ser_wlen _ _ F) as L. rewrite ser1. unfold ser_field. cbn [fst snd wire_type wire_payload].
  replace (varint (blen b) ++ b) with (varint (blen b) ++ b ++ []) by (rewrite app_nil_r; reflexivity).
  apply msg_item; [|apply vint_is; exact L|constructor].
  rewrite N.mul_comm. apply vint_is. unfold two64. lia.
Qed.
Lemma out_bytes t b : t < 1000 -> out_is [(t, VBytes b)] (pc_out (p_bytes t) b).
Proof.
  intros Ht. cbn [p_bytes pc_out]. destruct b as [|x r].
  - intros _. apply msg_empty. constructor.
  - intros F. apply msg_bytes; [discriminate|]. exact (out_item t (x :: r) Ht F).
Qed.
Lemma out_string t s : t < 1000 -> out_is [(t, VBytes (rs s))] (pc_out (p_string t) s).
Proof. exact (out_bytes t (rs s)). Qed.
Lemma out_num t n : t < 1000 -> n < two64 -> out_is [(t, VNum n)] (if n =? 0 then [] else [(t, WVar n)]).
Proof.
  intros Ht Hn F. destruct (n =? 0) eqn:E.
  - apply N.eqb_eq in E as ->. apply msg_zero. constructor.
  - apply N.eqb_neq in E. rewrite ser1. unfold ser_field. cbn [fst snd wire_type wire_payload].
    replace (varint n) with (varint n ++ []) by apply app_nil_r.
    apply msg_num; [exact E| |apply vint_is, Hn|constructor].
    rewrite N.mul_comm, N.add_0_r. apply vint_is. unfold two64. lia.
Qed.
Lemma out_u64 t (n : u64) : t < 1000 -> out_is [(t, VNum (u64v n))] (pc_out (p_u64 t) n).
Proof. intros Ht. apply out_num; [exact Ht|apply u64_lt]. Qed.
Lemma out_u32 t n : t < 1000 -> n < 256 -> out_is [(t, VNum n)] (pc_out (p_u32 t) (wrap32 n)).
Proof.
  intros Ht Hn. cbn [p_u32 pc_out]. cbn [u32v wrap32]. rewrite N.mod_small by (unfold two32; lia).
  apply out_num; [exact Ht|unfold two64; lia].
Qed.
Lemma out_sub t sub w : t < 1000 -> out_is sub w -> out_is [(t, VMsg sub)] [(t, WLen (ser w))].
Proof.
  intros Ht H F. pose proof (fits_ser_wlen _ _ F) as L. eapply msg_sub; [apply H, L|]. apply (out_item t _ Ht F).
Qed.
Lemma out_map {A} (f : A -> list (N * value)) (g : A -> list wfield) l : (forall a, out_is (f a) (g a)) -> out_is (flat_map f l) (flat_map g l).
Proof. intros H. induction l; cbn [flat_map]; [apply out_nil|apply out_app; auto]. Qed.
Lemma flat_single {A B} (f : A -> B) l : map f l = flat_map (fun a => [f a]) l.
Proof. induction l; cbn; congruence. Qed.

(** ** Messages *)
Lemma shortest_nonzero n : n <> 0 -> biguint_to_bytes_be n = be_min n.
Proof. intros H. unfold biguint_to_bytes_be. apply N.eqb_neq in H. rewrite H. reflexivity. Qed.
Lemma amount_fields n : exists fs, amount_m n (VMsg fs) /\ out_is fs (pc_out m_balance (to_balance n)).
Proof.
  exists [(1, VBytes (biguint_to_bytes_be n))]. split.
  - destruct (N.eq_dec n 0) as [->|H]; [constructor|]. apply amount_pos; [exact H|]. rewrite shortest_nonzero by exact H. apply shortest_min.
  - apply (out_app [_] _ []); [apply out_bytes; lia|apply out_nil].
Qed.
Lemma amount_det n v v' : amount_m n v -> amount_m n v' -> v = v'.
Proof. intros H H'. destruct H; inversion H'; subst; try congruence. do 2 f_equal. f_equal. f_equal. eapply shortest_unique; eassumption. Qed.

(** One field of a message and the others. *)
Lemma out_cons f fs w ws : out_is [f] w -> out_is fs ws -> out_is (f :: fs) (w ++ ws).
Proof. intros H1 H2. exact (out_app [f] w fs ws H1 H2). Qed.
Lemma out_pcons {A B} (c : pcodec A) (m : pcodec B) a b f fs :
  out_is [f] (pc_out c a) -> out_is fs (pc_out m b) -> out_is (f :: fs) (pc_out (pcons c m) (a, b)).
Proof. intros H1 H2. exact (out_cons _ _ _ _ H1 H2). Qed.
Lemma out_pcons_many {A B} (c : pcodec A) (m : pcodec B) a b f fs :
  out_is f (pc_out c a) -> out_is fs (pc_out m b) -> out_is (f ++ fs) (pc_out (pcons c m) (a, b)).
Proof. intros H1 H2. exact (out_app _ _ _ _ H1 H2). Qed.
Lemma out_opt {A} t (m : pcodec A) a sub : t < 1000 -> out_is sub (pc_out m a) -> out_is [(t, VMsg sub)] (pc_out (p_opt t m) (Some a)).
Proof. intros Ht H. exact (out_sub t sub _ Ht H). Qed.
Lemma out_rep {A X} t (m : pcodec A) (g : X -> A) (f : X -> list (N * value)) l : t < 1000 -> (forall x, out_is (f x) (pc_out m (g x))) ->
  out_is (map (fun x => (t, VMsg (f x))) l) (pc_out (p_rep t m) (map g l)).
Proof.
  intros Ht H. cbn [p_rep pc_out]. rewrite map_map, !flat_single. apply out_map. intros x. apply (out_sub t _ _ Ht (H x)).
Qed.
Lemma out_rep_bytes t l : t < 1000 -> out_is (map (fun x => (t, VItem x)) l) (pc_out (p_rep_bytes t) l).
Proof. intros Ht. cbn [p_rep_bytes pc_out]. rewrite !flat_single. apply out_map. intros x. apply (out_item t x Ht). Qed.

Lemma hash_fields h : out_is [(1, VBytes (sbytes h))] (pc_out m_hash (to_hash h)).
Proof. apply out_pcons; [apply out_bytes; lia|apply out_nil]. Qed.
Lemma id_fields h : out_is [(1, hash_m h)] (pc_out m_root (to_root h)).
Proof. apply out_pcons; [apply out_opt; [lia|apply hash_fields]|apply out_nil]. Qed.
Lemma user_fields a : out_is [(1, VMsg [(1, VBytes (ua a))])] (pc_out m_user (to_user a)).
Proof.
  apply out_pcons; [apply out_opt; [lia|]|apply out_nil].
  apply out_pcons; [apply out_bytes; lia|apply out_nil].
Qed.
Lemma wire_ctype_small t : wire_ctype t < 256.
Proof. destruct t; reflexivity. Qed.
Lemma contract_fields a : exists fs, contract_m a (VMsg fs) /\ out_is fs (pc_out m_contract (to_contract a)).
Proof.
  exists [(1, VMsg [(1, VBytes (ca a))]); (2, VNum (wire_ctype (contract_type_of a)))]. split.
  - apply (contract_m_intro a _ (tl (ca a))). pose proof (ca_ok a) as Ho. unfold contract_addr_ok in Ho. unfold contract_type_of.
    destruct (ca a) as [|k r]; [discriminate|]. exists k. split; [reflexivity|].
    destruct (magic_contract_type k) as [t|] eqn:E; [|discriminate]. unfold magic_contract_type in E.
    destruct (beqb k x20) eqn:E0; [apply beqb_eq in E0 as ->; injection E as <-; auto|].
    destruct (beqb k x21) eqn:E1; [apply beqb_eq in E1 as ->; injection E as <-; auto|].
    destruct (beqb k x22) eqn:E2; [apply beqb_eq in E2 as ->; injection E as <-; auto|].
    destruct (beqb k x23) eqn:E3; [apply beqb_eq in E3 as ->; injection E as <-; auto 6|discriminate].
  - apply out_pcons; [apply out_opt; [lia|]|].
    + apply out_pcons; [apply out_bytes; lia|apply out_nil].
    + apply out_pcons; [apply out_u32; [lia|apply wire_ctype_small]|apply out_nil].
Qed.
Lemma contract_det a v v' : contract_m a v -> contract_m a v' -> v = v'.
Proof.
  intros H H'. destruct H as [a n rest (k & E & Hk)]. inversion H' as [? n' rest' (k' & E' & Hk')]; subst. rewrite E in E'. injection E' as -> ->.
  assert (n = n') as ->; [|reflexivity].
  destruct Hk as [[-> ->]|[[-> ->]|[[-> ->]|[-> ->]]]]; destruct Hk' as [[Q ->]|[[Q ->]|[[Q ->]|[Q ->]]]]; try reflexivity; discriminate Q.
Qed.
Lemma fee_fields f : out_is [(1, id_m (fee_asset_id f)); (2, VNum (u64v (fee_cycle f)))] (pc_out m_fee (to_fee f)).
Proof.
  apply out_pcons; [apply out_opt; [lia|apply id_fields]|]. apply out_pcons; [apply out_u64; lia|apply out_nil].
Qed.
Lemma carrying_fields c : exists fs, carrying_m c (VMsg fs) /\ out_is fs (pc_out m_carrying (to_carrying c)).
Proof.
  destruct c as [asset n]. destruct (amount_fields n) as (fn & Hn & On). eexists. split; [constructor; exact Hn|].
  apply out_pcons; [apply out_opt; [lia|apply id_fields]|]. apply out_pcons; [apply out_opt; [lia|exact On]|apply out_nil].
Qed.
Lemma carrying_det c v v' : carrying_m c v -> carrying_m c v' -> v = v'.
Proof. intros H H'. destruct H as [asset n v H]. inversion H'; subst. do 3 f_equal. f_equal. eapply amount_det; eassumption. Qed.
Lemma asset_fields a : exists fs, asset_m a fs /\ out_is fs (pc_out m_asset (to_asset a)).
Proof.
  destruct a as [id name symbol supply manager root].
  destruct (amount_fields supply) as (fn & Hn & On), (contract_fields manager) as (fc & Hc & Oc).
  eexists. split; [constructor; eassumption|].
  apply out_pcons; [apply out_opt; [lia|apply id_fields]|].
  apply out_pcons; [apply out_string; lia|]. apply out_pcons; [apply out_string; lia|].
  apply out_pcons; [apply out_opt; [lia|exact On]|]. apply out_pcons; [apply out_opt; [lia|exact Oc]|].
  apply out_pcons; [apply out_opt; [lia|apply id_fields]|]. apply out_nil.
Qed.

Lemma kind_small t : kind_f t < 256.
Proof. destruct t; reflexivity. Qed.
Lemma out_kind t k : t < 1000 -> out_is [(t, VNum (kind_f k))] (pc_out (p_u32 t) (wrap32 (ctype_as_i32 k))).
Proof. intros Ht. destruct k; (apply out_u32; [exact Ht|reflexivity]). Qed.

Lemma action_fields a : exists f, action_m a f /\ out_is [f] (pc_out (p_oneof o_action) (Some (to_action a))).
Proof.
  destruct a as [receiver c|spender asset n|code kind|contract method args [c|]].
  - destruct (carrying_fields c) as (fc & Hc & Oc). eexists. split; [constructor; exact Hc|].
    apply (out_sub 5 _ (pc_out m_transfer _)); [lia|].
    apply out_pcons; [apply out_opt; [lia|apply user_fields]|]. apply out_pcons; [apply out_opt; [lia|exact Oc]|apply out_nil].
  - destruct (contract_fields spender) as (fs & Hs & Os), (amount_fields n) as (fn & Hn & On).
    eexists. split; [constructor; eassumption|].
    apply (out_sub 6 _ (pc_out m_approve _)); [lia|].
    apply out_pcons; [apply out_opt; [lia|exact Os]|]. apply out_pcons; [apply out_opt; [lia|apply id_fields]|].
    apply out_pcons; [apply out_opt; [lia|exact On]|apply out_nil].
  - eexists. split; [constructor|]. apply (out_sub 7 _ (pc_out m_deploy _)); [lia|].
    apply out_pcons; [apply out_bytes; lia|]. apply out_pcons; [apply out_kind; lia|apply out_nil].
  - destruct (contract_fields contract) as (fc & Hc & Oc), (carrying_fields c) as (fv & Hv & Ov).
    eexists. split; [constructor; eassumption|]. apply (out_sub 8 _ (pc_out m_call _)); [lia|]. cbn [app].
    apply out_pcons; [apply out_opt; [lia|exact Oc]|]. apply out_pcons; [apply out_string; lia|].
    apply out_pcons_many; [apply out_rep_bytes; lia|]. apply out_pcons; [apply out_opt; [lia|exact Ov]|apply out_nil].
  - destruct (contract_fields contract) as (fc & Hc & Oc).
    eexists. split; [constructor; eassumption|]. apply (out_sub 8 _ (pc_out m_call _)); [lia|]. cbn [app].
    apply out_pcons; [apply out_opt; [lia|exact Oc]|]. apply out_pcons; [apply out_string; lia|].
    rewrite <- (app_nil_r (map _ args)).
    apply out_pcons_many; [apply out_rep_bytes; lia|]. exact out_nil.
Qed.
Ltac det := repeat match goal with
  | H : carrying_m ?c ?a, H' : carrying_m ?c ?b |- _ => pose proof (carrying_det _ _ _ H H'); subst; clear H'
  | H : contract_m ?c ?a, H' : contract_m ?c ?b |- _ => pose proof (contract_det _ _ _ H H'); subst; clear H'
  | H : amount_m ?c ?a, H' : amount_m ?c ?b |- _ => pose proof (amount_det _ _ _ H H'); subst; clear H'
  end; try reflexivity.
Lemma asset_det a v v' : asset_m a v -> asset_m a v' -> v = v'.
Proof. intros H H'. destruct H; inversion H'; subst; det. Qed.
Lemma action_det a v v' : action_m a v -> action_m a v' -> v = v'.
Proof. intros H H'. destruct H; inversion H'; subst; det. Qed.
Lemma transaction_fields r : exists fs, transaction_m r fs /\ out_is fs (pc_out m_raw (to_raw r)).
Proof.
  destruct r as [chain nonce timeout f a]. destruct (action_fields a) as (fa & Ha & Oa).
  eexists. split; [constructor; exact Ha|].
  apply out_pcons; [apply out_opt; [lia|apply hash_fields]|]. apply out_pcons; [apply out_opt; [lia|apply hash_fields]|].
  apply out_pcons; [apply out_u64; lia|]. apply out_pcons; [apply out_opt; [lia|apply fee_fields]|].
  apply out_pcons; [exact Oa|apply out_nil].
Qed.
Lemma transaction_m_det a v v' : transaction_m a v -> transaction_m a v' -> v = v'.
Proof. intros H H'. destruct H as [? ? ? ? ? f H]. inversion H'; subst. rewrite (action_det _ _ _ H H6). reflexivity. Qed.
Lemma signed_fields s : exists fs, signed_m s fs /\ out_is fs (pc_out m_signed (to_signed s)).
Proof.
  destruct s as [raw h pk sg]. destruct (transaction_fields raw) as (fr & Hr & Or).
  eexists. split; [constructor; exact Hr|].
  apply out_pcons; [apply out_opt; [lia|exact Or]|]. apply out_pcons; [apply out_opt; [lia|apply hash_fields]|].
  apply out_pcons; [apply out_bytes; lia|]. apply out_pcons; [apply out_bytes; lia|apply out_nil].
Qed.
Lemma signed_m_det a v v' : signed_m a v -> signed_m a v' -> v = v'.
Proof. intros H H'. destruct H as [? f ? ? ? H]. inversion H'; subst. rewrite (transaction_m_det _ _ _ H H5). reflexivity. Qed.

Lemma result_fields r : exists f, result_m r f /\ out_is [f] (pc_out (p_oneof o_result) (Some (to_result r))).
Proof.
  destruct r as [receiver asset b a|spender asset n|contract kind|contract value bloom|system user].
  - destruct (amount_fields b) as (fb & Hb & Ob), (amount_fields a) as (fa & Ha & Oa).
    eexists. split; [constructor; eassumption|]. apply (out_sub 5 _ (pc_out m_rtransfer _)); [lia|].
    apply out_pcons; [apply out_opt; [lia|apply user_fields]|]. apply out_pcons; [apply out_opt; [lia|apply id_fields]|].
    apply out_pcons; [apply out_opt; [lia|exact Ob]|]. apply out_pcons; [apply out_opt; [lia|exact Oa]|apply out_nil].
  - destruct (contract_fields spender) as (fs & Hs & Os), (amount_fields n) as (fn & Hn & On).
    eexists. split; [constructor; eassumption|]. apply (out_sub 6 _ (pc_out m_rapprove _)); [lia|].
    apply out_pcons; [apply out_opt; [lia|exact Os]|]. apply out_pcons; [apply out_opt; [lia|apply id_fields]|].
    apply out_pcons; [apply out_opt; [lia|exact On]|apply out_nil].
  - destruct (contract_fields contract) as (fc & Hc & Oc). eexists. split; [constructor; eassumption|].
    apply (out_sub 7 _ (pc_out m_rdeploy _)); [lia|].
    apply out_pcons; [apply out_opt; [lia|exact Oc]|]. apply out_pcons; [apply out_kind; lia|apply out_nil].
  - destruct (contract_fields contract) as (fc & Hc & Oc). eexists. split; [constructor; eassumption|].
    apply (out_sub 8 _ (pc_out m_rcall _)); [lia|].
    apply out_pcons; [apply out_opt; [lia|exact Oc]|]. apply out_pcons; [apply out_bytes; lia|].
    apply out_pcons; [apply out_bytes; lia|apply out_nil].
  - eexists. split; [constructor|]. apply (out_sub 9 _ (pc_out m_rfail _)); [lia|].
    apply out_pcons; [apply out_string; lia|]. apply out_pcons; [apply out_string; lia|apply out_nil].
Qed.
Lemma result_m_det a v v' : result_m a v -> result_m a v' -> v = v'.
Proof. intros H H'. destruct H; inversion H'; subst; det. Qed.
Lemma receipt_fields r : exists fs, receipt_m r fs /\ out_is fs (pc_out m_receipt (to_receipt r)).
Proof.
  destruct r as [state epoch tx cycles result]. destruct (result_fields result) as (fr & Hr & Or).
  eexists. split; [constructor; exact Hr|].
  apply out_pcons; [apply out_opt; [lia|apply hash_fields]|]. apply out_pcons; [apply out_u64; lia|].
  apply out_pcons; [apply out_opt; [lia|apply hash_fields]|]. apply out_pcons; [apply out_opt; [lia|apply fee_fields]|].
  apply out_pcons; [exact Or|apply out_nil].
Qed.
Lemma receipt_m_det a v v' : receipt_m a v -> receipt_m a v' -> v = v'.
Proof. intros H H'. destruct H as [? ? ? ? ? f H]. inversion H'; subst. rewrite (result_m_det _ _ _ H H6). reflexivity. Qed.

Lemma proof_fields p : out_is (proof_m p) (pc_out m_proof (to_proof p)).
Proof.
  apply out_pcons; [apply out_u64; lia|]. apply out_pcons; [apply out_u64; lia|].
  apply out_pcons; [apply out_opt; [lia|apply hash_fields]|]. apply out_pcons; [apply out_bytes; lia|].
  apply out_pcons; [apply out_bytes; lia|apply out_nil].
Qed.
Lemma validator_fields v : out_is (validator_m v) (pc_out m_validator (to_validator v)).
Proof.
  apply out_pcons; [apply out_opt; [lia|apply user_fields]|].
  apply out_pcons; [apply out_u32; [lia|apply bN_lt]|]. apply out_pcons; [apply out_u32; [lia|apply bN_lt]|apply out_nil].
Qed.
Lemma header_fields h : out_is (header_m h) (pc_out m_header (to_header h)).
Proof.
  unfold header_m. cbn [app].
  apply out_pcons; [apply out_opt; [lia|apply hash_fields]|]. apply out_pcons; [apply out_u64; lia|].
  apply out_pcons; [apply out_opt; [lia|apply hash_fields]|]. apply out_pcons; [apply out_u64; lia|].
  apply out_pcons; [apply out_bytes; lia|]. apply out_pcons; [apply out_opt; [lia|apply hash_fields]|].
  apply out_pcons_many; [apply out_rep; [lia|apply hash_fields]|].
  apply out_pcons; [apply out_opt; [lia|apply hash_fields]|].
  apply out_pcons_many; [apply out_rep; [lia|apply hash_fields]|].
  apply out_pcons; [apply out_u64; lia|]. apply out_pcons; [apply out_opt; [lia|apply user_fields]|].
  apply out_pcons; [apply out_opt; [lia|apply proof_fields]|]. apply out_pcons; [apply out_u64; lia|].
  rewrite <- (app_nil_r (map _ (eh_validators h))).
  apply out_pcons_many; [apply out_rep; [lia|apply validator_fields]|apply out_nil].
Qed.
Lemma epoch_fields e : out_is (epoch_m e) (pc_out m_epoch (to_epoch e)).
Proof.
  apply out_pcons; [apply out_opt; [lia|apply header_fields]|].
  rewrite <- (app_nil_r (map _ (ep_ordered_tx_hashes e))).
  apply out_pcons_many; [apply out_rep; [lia|apply hash_fields]|apply out_nil].
Qed.
Lemma pill_fields p : out_is (pill_m p) (pc_out m_pill (to_pill p)).
Proof.
  apply out_pcons; [apply out_opt; [lia|apply epoch_fields]|].
  rewrite <- (app_nil_r (map _ (pl_propose_hashes p))).
  apply out_pcons_many; [apply out_rep; [lia|apply hash_fields]|apply out_nil].
Qed.
Lemma epoch_id_fields e : out_is (epoch_id_m e) (pc_out m_epoch_id (to_epoch_id e)).
Proof. apply out_pcons; [apply out_u64; lia|apply out_nil]. Qed.
