(** * Round trips of the fixed codec. *)
From Verif Require Import Base BaseFacts Hex Types Rlp RlpFacts FixedCodec.
From Coq Require Import ZifyBool ZifyNat ZifyN Sorting.Sorted Permutation.
Local Open Scope N_scope.

(** ** Types facts *)
Lemma hash_from_bytes_ok h : hash_from_bytes (sbytes h) = Ok h.
Proof. unfold hash_from_bytes. rewrite to_sized_bytes. reflexivity. Qed.

Lemma user_from_bytes_ok a : user_from_bytes (ua a) = Ok a.
Proof.
  pose proof (to_ua_ua a) as T. pose proof (ua_ok a) as Hb. unfold user_from_bytes.
  destruct (ua a) as [|m r]; [discriminate|]. cbn [user_addr_ok] in Hb.
  apply andb_true_iff in Hb as [E _]. rewrite E, T. reflexivity.
Qed.

Lemma contract_from_bytes_ok a : contract_from_bytes (ca a) = Ok a.
Proof.
  pose proof (to_ca_ca a) as T. pose proof (ca_ok a) as Hb. unfold contract_from_bytes.
  destruct (ca a) as [|m r]; [discriminate|]. cbn [contract_addr_ok] in Hb.
  destruct (magic_contract_type m) eqn:E; [|discriminate].
  rewrite T. reflexivity.
Qed.

Lemma magic_not_user m t : magic_contract_type m = Some t -> beqb m ACCOUNT_ADDRESS_MAGIC = false.
Proof. destruct m; cbn; try reflexivity; discriminate. Qed.

Lemma address_from_bytes_ok a : address_from_bytes (address_bytes a) = Ok a.
Proof.
  destruct a as [u|c]; cbn [address_bytes]; unfold address_from_bytes.
  - pose proof (user_from_bytes_ok u) as E. pose proof (ua_ok u) as Hb.
    destruct (ua u) as [|m r]; [discriminate|].
    cbn [user_addr_ok] in Hb. apply andb_true_iff in Hb as [E1 _].
    rewrite E1, E. reflexivity.
  - pose proof (contract_from_bytes_ok c) as E. pose proof (ca_ok c) as Hb.
    destruct (ca c) as [|m r]; [discriminate|]. cbn [contract_addr_ok] in Hb.
    destruct (magic_contract_type m) as [t|] eqn:Et; [|discriminate].
    rewrite (magic_not_user _ _ Et), E. reflexivity.
Qed.

Lemma ua_len a : length (ua a) = 21%nat.
Proof.
  destruct a as [b Hb]; cbn [ua]. destruct b as [|m r]; [discriminate|].
  cbn [user_addr_ok] in Hb. apply andb_true_iff in Hb as [_ Hb]. apply Nat.eqb_eq in Hb. exact Hb.
Qed.
Lemma ca_len a : length (ca a) = 21%nat.
Proof.
  destruct a as [b Hb]; cbn [ca]. destruct b as [|m r]; [discriminate|].
  cbn [contract_addr_ok] in Hb. destruct (magic_contract_type m); [|discriminate].
  apply Nat.eqb_eq in Hb. exact Hb.
Qed.
Lemma address_len a : length (address_bytes a) = 21%nat.
Proof. destruct a; [apply ua_len|apply ca_len]. Qed.

(** ** Generic steps *)
Lemma at_dec_list {A} (f : bytes -> rlp_res A) l i e :
  Forall item l -> fits (concat l) -> nth_error l i = Some e ->
  at_dec f (enc_list l) i = f e.
Proof. intros. unfold at_dec. erewrite at_list by eassumption. reflexivity. Qed.

Lemma at_data_list l i b :
  Forall item l -> fits (concat l) -> nth_error l i = Some (enc_str b) -> fits b ->
  at_data (enc_list l) i = Ok b.
Proof. intros. unfold at_data. erewrite at_list by eassumption. apply data_str. assumption. Qed.

Lemma at_utf8_list l i s :
  Forall item l -> fits (concat l) -> nth_error l i = Some (enc_str (rs s)) -> fits (rs s) ->
  at_utf8 (enc_list l) i = Ok s.
Proof.
  intros. unfold at_utf8. erewrite at_data_list by eassumption. cbn [rbind].
  unfold utf8_or. rewrite from_utf8_rs. reflexivity.
Qed.

Lemma at_bal_list l i n :
  Forall item l -> fits (concat l) -> nth_error l i = Some (enc_bal n) -> fits (enc_bal n) ->
  at_bal (enc_list l) i = Ok n.
Proof.
  intros. unfold at_bal. erewrite at_data_list by (try eassumption; apply fits_str; assumption).
  cbn [rbind]. rewrite biguint_roundtrip. reflexivity.
Qed.

Lemma fits_sized32 (h : hash) : fits (sbytes h).
Proof. apply fits_small. rewrite sized_len. lia. Qed.
Lemma fits_bloom (h : Bloom) : fits (sbytes h).
Proof. apply fits_small. rewrite sized_len. lia. Qed.
Lemma fits_ua a : fits (ua a).
Proof. apply fits_small. rewrite ua_len. lia. Qed.
Lemma fits_ca a : fits (ca a).
Proof. apply fits_small. rewrite ca_len. lia. Qed.

Lemma at_hash_list l i h :
  Forall item l -> fits (concat l) -> nth_error l i = Some (enc_str (sbytes h)) ->
  at_hash (enc_list l) i = Ok h.
Proof.
  intros. unfold at_hash. erewrite at_data_list by (try eassumption; apply fits_sized32).
  cbn [rbind]. rewrite hash_from_bytes_ok. reflexivity.
Qed.
Lemma at_user_list l i a :
  Forall item l -> fits (concat l) -> nth_error l i = Some (enc_str (ua a)) ->
  at_user (enc_list l) i = Ok a.
Proof.
  intros. unfold at_user. erewrite at_data_list by (try eassumption; apply fits_ua).
  cbn [rbind]. rewrite user_from_bytes_ok. reflexivity.
Qed.
Lemma at_contract_list l i a :
  Forall item l -> fits (concat l) -> nth_error l i = Some (enc_str (ca a)) ->
  at_contract (enc_list l) i = Ok a.
Proof.
  intros. unfold at_contract. erewrite at_data_list by (try eassumption; apply fits_ca).
  cbn [rbind]. rewrite contract_from_bytes_ok. reflexivity.
Qed.

(** Anything that is an [enc_list] or [enc_str] and fits is an item. *)
Lemma item_fits_list l : fits (enc_list l) -> item (enc_list l).
Proof. intros H. apply item_list, fits_list_concat, H. Qed.
Lemma item_fits_str b : fits (enc_str b) -> item (enc_str b).
Proof. intros H. apply item_str, fits_str, H. Qed.

(** Lengths of short encodings. *)
Lemma enc_len_short a b n : n <= 55 -> length (enc_len a b n) = 1%nat.
Proof. intros H. unfold enc_len. destruct (N.leb_spec n 55); [reflexivity|lia]. Qed.

Lemma enc_str_len_le b : (length b <= 55)%nat -> (length (enc_str b) <= 1 + length b)%nat.
Proof.
  intros H. destruct (enc_str_cases b) as [(x & -> & _ & ->)|[-> _]]; [cbn; lia|].
  rewrite app_length, enc_len_short by (unfold blen; lia). lia.
Qed.

Lemma enc_list1_fits b : (length b <= 54)%nat -> fits (enc_list [enc_str b]).
Proof.
  intros H. pose proof (enc_str_len_le b ltac:(lia)) as L. apply fits_small.
  unfold enc_list. cbn [concat]. rewrite app_nil_r, app_length, enc_len_short by (unfold blen; lia).
  lia.
Qed.

Lemma fits_enc_hash h : fits (enc_hash h).
Proof. apply enc_list1_fits. rewrite sized_len. lia. Qed.
Lemma fits_enc_user a : fits (enc_user a).
Proof. apply enc_list1_fits. rewrite ua_len. lia. Qed.
Lemma fits_enc_contract a : fits (enc_contract a).
Proof. apply enc_list1_fits. rewrite ca_len. lia. Qed.
Lemma fits_enc_address a : fits (enc_address a).
Proof. apply enc_list1_fits. rewrite address_len. lia. Qed.

Ltac solve_item :=
  first [ apply item_u64 | apply item_u8
        | apply item_fits_str; assumption
        | apply item_fits_list; assumption
        | assumption ].

(** From [H : fits (enc_list l)] get what the rewriting lemmas need. *)
Ltac prep H :=
  match type of H with
  | fits (enc_list ?l) =>
      let Hc := fresh "Hc" in let Hf := fresh "Hf" in let HI := fresh "HI" in
      pose proof (fits_list_concat _ H) as Hc;
      pose proof (fits_list _ H) as Hf;
      repeat (let h := fresh "Hfit" in apply Forall_cons_1 in Hf as [h Hf]);
      assert (HI : Forall item l);
        [repeat (apply Forall_cons_2; [try solve_item|]); try apply Forall_nil_2
        |try clear Hf]
  end.

Ltac step :=
  first
    [ rewrite check_list_len_ok by assumption
    | erewrite at_utf8_list by (first [eassumption | reflexivity | apply fits_str; assumption])
    | erewrite at_bal_list by (first [eassumption | reflexivity])
    | erewrite at_data_list by (first [eassumption | reflexivity | apply fits_str; assumption])
    | erewrite at_hash_list by (first [eassumption | reflexivity])
    | erewrite at_user_list by (first [eassumption | reflexivity])
    | erewrite at_contract_list by (first [eassumption | reflexivity])
    | erewrite at_dec_list by (first [eassumption | reflexivity])
    | erewrite at_list by (first [eassumption | reflexivity])
    | rewrite dec_enc_u64 | rewrite dec_enc_u8 ];
  cbn [rbind].

Lemma dec_enc_hash h : dec_hash (enc_hash h) = Ok h.
Proof.
  pose proof (fits_enc_hash h) as H. unfold enc_hash, dec_hash in *. prep H.
  step. rewrite hash_from_bytes_ok. reflexivity.
Qed.
Lemma dec_enc_user h : dec_user (enc_user h) = Ok h.
Proof.
  pose proof (fits_enc_user h) as H. unfold enc_user, dec_user in *. prep H.
  step. rewrite user_from_bytes_ok. reflexivity.
Qed.
Lemma dec_enc_contract h : dec_contract (enc_contract h) = Ok h.
Proof.
  pose proof (fits_enc_contract h) as H. unfold enc_contract, dec_contract in *. prep H.
  step. rewrite contract_from_bytes_ok. reflexivity.
Qed.
Lemma dec_enc_address h : dec_address (enc_address h) = Ok h.
Proof.
  pose proof (fits_enc_address h) as H. unfold enc_address, dec_address in *. prep H.
  step. rewrite address_from_bytes_ok. reflexivity.
Qed.

Ltac solve_item ::=
  first [ apply item_u64 | apply item_u8
        | apply item_fits_str; assumption
        | apply item_fits_list; assumption
        | apply item_fits_list; apply fits_enc_hash
        | apply item_fits_list; apply fits_enc_user
        | apply item_fits_list; apply fits_enc_contract
        | apply item_fits_list; apply fits_enc_address
        | assumption ].

Ltac steps :=
  repeat first [step | rewrite dec_enc_hash; cbn [rbind] | rewrite dec_enc_user; cbn [rbind]
    | rewrite dec_enc_contract; cbn [rbind] | rewrite dec_enc_address; cbn [rbind] ].

Lemma dec_enc_asset a : fits (enc_asset a) -> dec_asset (enc_asset a) = Ok a.
Proof.
  intros H. unfold enc_asset, dec_asset in *. prep H. steps. destruct a; reflexivity.
Qed.

Lemma item_hash h : item (enc_hash h).
Proof. apply item_fits_list, fits_enc_hash. Qed.
Lemma item_user h : item (enc_user h).
Proof. apply item_fits_list, fits_enc_user. Qed.
Lemma item_contract h : item (enc_contract h).
Proof. apply item_fits_list, fits_enc_contract. Qed.

Lemma dec_enc_fee a : dec_fee (enc_fee a) = Ok a.
Proof.
  assert (H : fits (enc_fee a)).
  { unfold enc_fee. apply fits_small. unfold enc_list. cbn [concat]. rewrite app_nil_r.
    pose proof (enc_str_len_le (sbytes (fee_asset_id a)) ltac:(rewrite sized_len; lia)) as L.
    rewrite sized_len in L.
    pose proof (enc_str_len_le (be_min (fee_cycle a)) ltac:(pose proof (be_min_u64 (fee_cycle a)); lia)) as L2.
    pose proof (be_min_u64 (fee_cycle a)) as L3.
    assert (L4 : (length (enc_hash (fee_asset_id a)) <= 34)%nat).
    { unfold enc_hash, enc_list. cbn [concat].
      rewrite app_nil_r, app_length, enc_len_short by (unfold blen; lia). lia. }
    unfold enc_u64. rewrite app_length, enc_len_short.
    - rewrite app_length. lia.
    - unfold blen. rewrite app_length. lia. }
  unfold enc_fee, dec_fee in *. prep H. steps. destruct a; reflexivity.
Qed.

Lemma dec_enc_list {A} (f : bytes -> rlp_res A) (g : A -> bytes) l :
  (forall a, fits (g a) -> item (g a)) ->
  (forall a, fits (g a) -> f (g a) = Ok a) ->
  fits (enc_list (map g l)) -> dec_list f (enc_list (map g l)) = Ok l.
Proof.
  intros Hi Hd H. pose proof (fits_list_concat _ H) as Hc. pose proof (fits_list _ H) as Hf.
  rewrite Forall_map in Hf.
  apply dec_list_map; [|exact Hc|]; eapply Forall_impl; try exact Hf; auto.
Qed.

(** ** Sorted maps *)
Section SortedFacts.
  Context `{Countable K} {V : Type} (key : K -> bytes).

  Definition key_le (p q : K * V) : Prop := bytes_leb (key (fst p)) (key (fst q)) = true.

  Lemma insert_sorted_perm (p : K * V) l : Permutation (insert_sorted key p l) (p :: l).
  Proof.
    induction l as [|q r IH]; [reflexivity|]. cbn [insert_sorted].
    destruct (bytes_leb _ _); [reflexivity|]. rewrite IH. apply Permutation_swap.
  Qed.

  Lemma sort_entries_perm (l : list (K * V)) : Permutation (sort_entries key l) l.
  Proof.
    induction l as [|p l IH]; [reflexivity|]. unfold sort_entries in *. cbn [fold_right].
    rewrite insert_sorted_perm, IH. reflexivity.
  Qed.

  Lemma insert_sorted_sorted (p : K * V) l :
    StronglySorted key_le l -> StronglySorted key_le (insert_sorted key p l).
  Proof.
    induction 1 as [|q r Hs IH Hq]; [repeat constructor|]. cbn [insert_sorted].
    destruct (bytes_leb (key (fst p)) (key (fst q))) eqn:E.
    - constructor; [constructor; assumption|]. constructor; [exact E|].
      eapply Forall_impl; [exact Hq|]. intros x Hx. unfold key_le in *. eapply bytes_leb_trans; eassumption.
    - constructor; [exact IH|].
      assert (E' : key_le q p).
      { unfold key_le. destruct (bytes_leb_total (key (fst p)) (key (fst q))); congruence. }
      apply (Permutation_Forall (Permutation_sym (insert_sorted_perm p r))).
      constructor; assumption.
  Qed.

  Lemma sort_entries_sorted (l : list (K * V)) : StronglySorted key_le (sort_entries key l).
  Proof.
    induction l as [|p l IH]; [constructor|]. unfold sort_entries in *. cbn [fold_right].
    apply insert_sorted_sorted, IH.
  Qed.

  Lemma collect_map_acc (l : list (K * V)) (m : gmap K V) :
    NoDup (fst <$> l) -> (forall p, p ∈ l -> m !! (fst p) = None) ->
    fold_left (fun m p => <[fst p := snd p]> m) l m = list_to_map l ∪ m.
  Proof.
    revert m. induction l as [|[k v] l IH]; intros m Hn Hm.
    - cbn. rewrite left_id_L; [reflexivity|apply _].
    - cbn [fold_left fst snd]. cbn [fmap list_fmap] in Hn. apply NoDup_cons in Hn as [Hk Hn].
      cbn [fst] in Hk.
      rewrite IH; [|exact Hn|].
      + cbn [list_to_map foldr fst snd uncurry]. rewrite <- insert_union_l.
        rewrite insert_union_r; [reflexivity|]. apply not_elem_of_list_to_map_1, Hk.
      + intros p Hp. rewrite lookup_insert_ne; [apply Hm; right; exact Hp|].
        intros E. apply Hk. rewrite E. apply elem_of_list_fmap_1, Hp.
  Qed.

  Lemma collect_map_nodup (l : list (K * V)) :
    NoDup (fst <$> l) -> collect_map l = list_to_map l.
  Proof.
    intros Hn. unfold collect_map. rewrite collect_map_acc; [|exact Hn|intros; apply lookup_empty].
    apply right_id_L. apply _.
  Qed.

  Lemma collect_sorted (m : gmap K V) : collect_map (sorted_entries key m) = m.
  Proof.
    pose proof (sort_entries_perm (map_to_list m)) as P.
    assert (N1 : NoDup (fst <$> sorted_entries key m)).
    { unfold sorted_entries. rewrite P. apply NoDup_fst_map_to_list. }
    rewrite collect_map_nodup by exact N1.
    rewrite <- (list_to_map_to_list m) at 2.
    apply list_to_map_proper; assumption.
  Qed.
End SortedFacts.

Lemma item_approved p : fits (enc_approved p) -> item (enc_approved p).
Proof. apply item_fits_list. Qed.

Lemma dec_enc_approved p : fits (enc_approved p) -> dec_approved (enc_approved p) = Ok p.
Proof.
  intros H. unfold enc_approved, dec_approved in *. prep H. steps.
  destruct p as [c [mx us]]; reflexivity.
Qed.

Lemma dec_enc_user_asset p : fits (enc_user_asset p) -> dec_user_asset (enc_user_asset p) = Ok p.
Proof.
  intros H. unfold enc_user_asset, dec_user_asset in *. prep H. steps.
  rewrite dec_enc_list; [|apply item_approved|apply dec_enc_approved|assumption].
  cbn [rbind]. steps. rewrite collect_sorted. destruct p as [h [b a]]; reflexivity.
Qed.

Lemma dec_enc_contract_asset p :
  fits (enc_contract_asset p) -> dec_contract_asset (enc_contract_asset p) = Ok p.
Proof.
  intros H. unfold enc_contract_asset, dec_contract_asset in *. prep H. steps.
  destruct p; reflexivity.
Qed.

Lemma dec_enc_account a : fits (enc_account a) -> dec_account (enc_account a) = Ok a.
Proof.
  intros H. unfold dec_account. destruct a as [u|c]; cbn [enc_account] in *; prep H; steps.
  - change (bN x00 =? 0) with true. cbv iota. steps.
    rewrite dec_enc_list; [|intros; apply item_fits_list; assumption|apply dec_enc_user_asset|assumption].
    cbn [rbind]. steps. rewrite collect_sorted. destruct u; reflexivity.
  - change (bN x01 =? 0) with false. change (bN x01 =? 1) with true. cbv iota. steps.
    rewrite dec_enc_list; [|intros; apply item_fits_list; assumption|apply dec_enc_contract_asset|assumption].
    cbn [rbind]. steps. rewrite collect_sorted. destruct c; reflexivity.
Qed.

(** ** Transactions *)
Lemma ctype_flag_ok t : flag_ctype (ctype_flag t) = Ok t.
Proof. destruct t; reflexivity. Qed.

Lemma hex_to_bytes_ok a (s : rstring) : rs s = hex_encode a -> hex_to_bytes s = Ok a.
Proof.
  intros E. unfold hex_to_bytes. rewrite E, clean_0x_encode, hex_decode_encode. reflexivity.
Qed.

Definition hex_string (a : bytes) : rstring := RString (hex_encode a) (hex_encode_utf8 a).

Lemma dec_args args :
  fits (enc_list (map (fun a => enc_str (hex_encode a)) args)) ->
  dec_list dec_string (enc_list (map (fun a => enc_str (hex_encode a)) args)) =
    Ok (map hex_string args).
Proof.
  intros H.
  assert (E : map (fun a => enc_str (hex_encode a)) args =
              map (fun s => enc_str (rs s)) (map hex_string args)).
  { rewrite map_map. reflexivity. }
  rewrite E in *. apply dec_enc_list; [| |exact H].
  - intros s Hs. apply item_fits_str, Hs.
  - intros s Hs. apply dec_enc_string, fits_str, Hs.
Qed.

Lemma map_res_hex args : map_res hex_to_bytes (map hex_string args) = Ok args.
Proof.
  induction args as [|a l IH]; [reflexivity|]. cbn [map map_res].
  rewrite (hex_to_bytes_ok a) by reflexivity. cbn [rbind]. rewrite IH. reflexivity.
Qed.

Definition is_approve (a : tx_action) : bool := match a with Approve _ _ _ => true | _ => false end.

Ltac flagsimpl :=
  change (bN x00 =? 0) with true; change (bN x01 =? 0) with false;
  change (bN x01 =? 1) with true; change (bN x02 =? 0) with false;
  change (bN x02 =? 1) with false; change (bN x02 =? 2) with true;
  change (bN x03 =? 0) with false; change (bN x03 =? 1) with false;
  change (bN x03 =? 2) with false; change (bN x03 =? 3) with true;
  cbn [orb]; cbv iota.

Lemma dec_enc_raw r :
  is_approve (rt_action r) = false -> fits (enc_raw r) -> dec_raw (enc_raw r) = Ok r.
Proof.
  intros Ha H. unfold dec_raw, enc_raw in *. destruct r as [chain nonce timeout [fa fc] act].
  cbn [rt_action] in *. destruct act as [rcv [aid am]|? ? ?|code t|ctr m args [[aid am]|]].
  - unfold enc_basic in *. cbn [app rt_chain_id rt_fee rt_nonce rt_timeout fee_asset_id fee_cycle cr_amount cr_asset_id] in *. prep H. steps. flagsimpl.
    unfold dec_basic. steps. reflexivity.
  - discriminate.
  - unfold enc_basic in *. cbn [app rt_chain_id rt_fee rt_nonce rt_timeout fee_asset_id fee_cycle] in *. prep H. steps. flagsimpl.
    unfold dec_basic. steps. rewrite ctype_flag_ok. reflexivity.
  - unfold enc_basic in *. cbn [app rt_chain_id rt_fee rt_nonce rt_timeout fee_asset_id fee_cycle cr_amount cr_asset_id] in *. prep H. steps. flagsimpl.
    unfold dec_basic. steps. rewrite dec_args by assumption. cbn [rbind].
    rewrite map_res_hex. cbn [rbind]. steps. reflexivity.
  - unfold enc_basic in *. cbn [app rt_chain_id rt_fee rt_nonce rt_timeout fee_asset_id fee_cycle] in *. prep H. steps. flagsimpl.
    unfold dec_basic. steps. rewrite dec_args by assumption. cbn [rbind].
    rewrite map_res_hex. cbn [rbind]. steps. reflexivity.
Qed.

Lemma item_raw r :
  is_approve (rt_action r) = false -> fits (enc_raw r) -> item (enc_raw r).
Proof.
  intros Ha H. unfold enc_raw in *. destruct (rt_action r) as [? ?|? ? ?|? ?|? ? ? [?|]]; try discriminate;
    apply item_fits_list; assumption.
Qed.

Lemma dec_enc_signed t :
  is_approve (rt_action (st_raw t)) = false -> fits (enc_signed t) -> dec_signed (enc_signed t) = Ok t.
Proof.
  intros Ha H. unfold dec_signed, enc_signed in *. prep H; [apply item_raw; assumption|].
  steps. rewrite dec_enc_raw by assumption. cbn [rbind]. steps. destruct t; reflexivity.
Qed.

(** ** Receipts *)
Definition is_rapprove (a : receipt_result) : bool := match a with RApprove _ _ _ => true | _ => false end.

Lemma dec_enc_result r :
  is_rapprove r = false -> fits (enc_result r) -> dec_result (enc_result r) = Ok r.
Proof.
  intros Ha H. unfold dec_result, enc_result in *.
  destruct r as [rcv aid b a|? ? ?|c t|c ret bl|sys usr]; try discriminate; prep H; steps; flagsimpl; steps.
  - reflexivity.
  - rewrite ctype_flag_ok. reflexivity.
  - rewrite dec_enc_sized by apply fits_bloom. cbn [rbind]. steps. reflexivity.
  - reflexivity.
Qed.

Lemma item_result r : is_rapprove r = false -> fits (enc_result r) -> item (enc_result r).
Proof. intros Ha H. destruct r; try discriminate; apply item_fits_list; assumption. Qed.

Lemma dec_enc_receipt r :
  is_rapprove (rc_result r) = false -> fits (enc_receipt r) -> dec_receipt (enc_receipt r) = Ok r.
Proof.
  intros Ha H. unfold dec_receipt, enc_receipt in *. prep H; [apply item_result; assumption|].
  steps. rewrite dec_enc_fee. cbn [rbind]. steps. rewrite dec_enc_result by assumption.
  cbn [rbind]. steps. destruct r; reflexivity.
Qed.

(** ** Epochs *)
Lemma dec_enc_proof p : fits (enc_proof p) -> dec_proof (enc_proof p) = Ok p.
Proof. intros H. unfold dec_proof, enc_proof in *. prep H. steps. destruct p; reflexivity. Qed.

Lemma dec_enc_validator p : fits (enc_validator p) -> dec_validator (enc_validator p) = Ok p.
Proof. intros H. unfold dec_validator, enc_validator in *. prep H. steps. destruct p; reflexivity. Qed.

Lemma dec_enc_hashes l :
  fits (enc_list (map enc_hash l)) -> dec_list dec_hash (enc_list (map enc_hash l)) = Ok l.
Proof.
  intros H. apply dec_enc_list; [|intros; apply dec_enc_hash|exact H].
  intros; apply item_fits_list, fits_enc_hash.
Qed.

Lemma dec_enc_header h : fits (enc_header h) -> dec_header (enc_header h) = Ok h.
Proof.
  intros H. unfold dec_header, enc_header in *. prep H. steps.
  rewrite dec_enc_hashes by assumption. cbn [rbind]. steps.
  rewrite dec_enc_sized by apply fits_bloom. cbn [rbind]. steps.
  rewrite dec_enc_proof by assumption. cbn [rbind]. steps.
  rewrite dec_enc_hashes by assumption. cbn [rbind]. steps.
  rewrite dec_enc_list; [|intros; apply item_fits_list; assumption|apply dec_enc_validator|assumption].
  cbn [rbind]. destruct h; reflexivity.
Qed.

Lemma dec_enc_epoch e : fits (enc_epoch e) -> dec_epoch (enc_epoch e) = Ok e.
Proof.
  intros H. unfold dec_epoch, enc_epoch in *. prep H. steps.
  rewrite dec_enc_header by assumption. cbn [rbind]. steps.
  rewrite dec_enc_hashes by assumption. cbn [rbind]. destruct e; reflexivity.
Qed.

Lemma dec_enc_pill e : fits (enc_pill e) -> dec_pill (enc_pill e) = Ok e.
Proof.
  intros H. unfold dec_pill, enc_pill in *. prep H. steps.
  rewrite dec_enc_epoch by assumption. cbn [rbind]. steps.
  rewrite dec_enc_hashes by assumption. cbn [rbind]. destruct e; reflexivity.
Qed.

Lemma dec_enc_epoch_id e : dec_epoch_id (enc_epoch_id e) = Ok e.
Proof.
  assert (H : fits (enc_epoch_id e)).
  { apply enc_list1_fits. pose proof (be_min_u64 (eid_id e)). lia. }
  unfold dec_epoch_id, enc_epoch_id in *. prep H. steps. destruct e; reflexivity.
Qed.

(** ** Genesis *)
Lemma dec_enc_gtoken t : fits (enc_gtoken t) -> dec_gtoken (enc_gtoken t) = Ok t.
Proof.
  intros H. unfold dec_gtoken, enc_gtoken in *. prep H. steps.
  rewrite items_list by assumption. cbn [dec_all].
  unfold enc_u64 at 1.
  rewrite !data_str by first [apply fits_str; assumption | apply fits_be_min_u64].
  cbn [rbind index nth_error]. unfold utf8_or. rewrite !from_utf8_rs. cbn [ok_or rbind]. steps.
  destruct t; reflexivity.
Qed.

Lemma dec_enc_gasset t : fits (enc_gasset t) -> dec_gasset (enc_gasset t) = Ok t.
Proof. intros H. unfold dec_gasset, enc_gasset in *. prep H. steps. destruct t; reflexivity. Qed.

Lemma dec_enc_galloc t : fits (enc_galloc t) -> dec_galloc (enc_galloc t) = Ok t.
Proof.
  intros H. unfold dec_galloc, enc_galloc in *. prep H. steps.
  rewrite dec_enc_list; [|intros; apply item_fits_list; assumption|apply dec_enc_gasset|assumption].
  cbn [rbind]. destruct t; reflexivity.
Qed.

Lemma dec_enc_genesis t : fits (enc_genesis t) -> dec_genesis (enc_genesis t) = Ok t.
Proof.
  intros H. unfold dec_genesis, enc_genesis in *. prep H. steps.
  rewrite dec_enc_list; [|intros; apply item_fits_list; assumption|apply dec_enc_galloc|assumption].
  cbn [rbind]. steps. rewrite dec_enc_gtoken by assumption. cbn [rbind]. steps.
  destruct t; reflexivity.
Qed.
