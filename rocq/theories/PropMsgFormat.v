(** * C108: messages between nodes, the file of peers and the database have the published layout *)
From Verif Require Import Base BaseFacts Hex Types Rlp FixedCodec FixedCodecFacts Proto Wire Bincode ConsMsg Endpoint NetMsg PeerManager PeerFile Storage FormatSpec FormatFacts PropFormat PropStorage StorageExamples PropPeerFile.
From Coq Require Import ZifyBool ZifyNat ZifyN.
From Coq Require Strings.String.
Import String.StringSyntax.
Delimit Scope string_scope with string.
Local Open Scope N_scope.

(** ** The layout: bincode *)

(** [n] in [k] bytes, least significant first. *)
Definition little (k : nat) (n : N) (b : bytes) : Prop := length b = k /\ number (rev b) = n.
(** A byte string after its length. *)
Definition counted (x b : bytes) : Prop := exists l, little 8 (N.of_nat (length x)) l /\ b = l ++ x.
(** Elements after their number. *)
Definition sequence (es : list bytes) (b : bytes) : Prop :=
  exists l, little 8 (N.of_nat (length es)) l /\ b = l ++ concat es.

Definition hashes_b (l : list hash) (b : bytes) : Prop :=
  exists es, Forall2 (fun h e => exists m, message [(1, VBytes (sbytes h))] m /\ counted m e) l es /\ sequence es b.
Definition transactions_b (l : list signed_tx) (b : bytes) : Prop :=
  exists es, Forall2 (fun t e => exists fs m, signed_m t fs /\ message fs m /\ counted m e) l es /\ sequence es b.

(** Questions between nodes: the number of the variant first. *)
Inductive request_b : rpc_request -> bytes -> Prop :=
| ask_epoch id tag n : little 4 0 tag -> little 8 (u64v id) n -> request_b (RqEpoch id) (tag ++ n)
| ask_transactions l tag b : little 4 1 tag -> hashes_b l b -> request_b (RqTxs l) (tag ++ b).
(** Answers: a letter at the end.  The epoch is in the consensus format. *)
Inductive response_b : ConsMsg.rpc_response -> bytes -> Prop :=
| answer_epoch e b : rlp (epoch_f e) b -> response_b (RpEpoch e) (b ++ ascii "a"%string)
| answer_transactions l b : transactions_b l b -> response_b (RpTxs l) (b ++ ascii "b"%string).

(** ** The encoders write it *)
Lemma number_snoc b x : number (b ++ [x]) = number b * 256 + Byte.to_N x.
Proof. rewrite !number_be_val. apply be_val_snoc. Qed.
Lemma le_little k n : n < 256 ^ N.of_nat k -> little k n (le k n).
Proof.
  revert n. induction k as [|k IH]; intros n H; split; try apply le_length.
  - cbn in *. lia.
  - cbn [le rev]. rewrite number_snoc. change (Byte.to_N (byte_of (n mod 256))) with (bN (byte_of (n mod 256))).
    assert (n mod 256 < 256) by (apply N.mod_lt; lia).
    rewrite bN_byte_of_small by assumption. rewrite Nat2N.inj_succ, N.pow_succ_r' in H.
    rewrite (proj2 (IH (n / 256) ltac:(apply N.div_lt_upper_bound; lia))).
    pose proof (N.div_mod n 256). lia.
Qed.
Lemma little_unique k n b b' : little k n b -> little k n b' -> b = b'.
Proof.
  intros [L E] [L' E']. rewrite <- (rev_involutive b), <- (rev_involutive b'). f_equal.
  apply number_inj; [rewrite !rev_length; congruence|congruence].
Qed.
Lemma le_pinned k n b : n < 256 ^ N.of_nat k -> (little k n b <-> b = le k n).
Proof. intros H. split; [intros Hb; exact (little_unique _ _ _ _ Hb (le_little k n H))|intros ->; apply le_little, H]. Qed.
Lemma counted_pinned x b : fits x -> (counted x b <-> b = benc_bytes x).
Proof.
  intros F. unfold counted, benc_bytes. split.
  - intros (l & Hl & ->). apply le_pinned in Hl as ->; [reflexivity|exact F].
  - intros ->. exists (le 8 (blen x)). split; [apply le_little; exact F|reflexivity].
Qed.
Lemma u64_pinned (n : u64) b : little 8 (u64v n) b <-> b = benc_u64 n.
Proof. apply le_pinned. exact (u64_lt n). Qed.

(** A vector whose elements are pinned. *)
Lemma vec_pinned {A} (R : A -> bytes -> Prop) (e : A -> bytes) l b :
  fits (benc_vec e l) -> (forall a, (1 <= length (e a))%nat) -> (forall a x, a ∈ l -> fits (e a) -> (R a x <-> x = e a)) ->
  ((exists es, Forall2 R l es /\ sequence es b) <-> b = benc_vec e l).
Proof.
  intros F H1 H. unfold benc_vec in *. pose proof (fits_app_r _ _ F) as Fc.
  assert (N.of_nat (length l) < 256 ^ N.of_nat 8) as Hl.
  { pose proof (concat_long e l H1) as Q. unfold fits, blen in Fc. change (256 ^ N.of_nat 8) with two64. lia. }
  assert (forall es, Forall2 R l es <-> es = map e l) as HF.
  { clear -Fc H. induction l as [|a l IH]; intros es; cbn [map concat] in *.
    - split; [intros Q; inversion Q; reflexivity|intros ->; constructor].
    - assert (forall es, Forall2 R l es <-> es = map e l) as IH'.
      { apply IH; [|exact (fits_app_r _ _ Fc)]. intros a' x Ha. apply H. apply elem_of_cons; right; exact Ha. }
      pose proof (H a) as Ha. split.
      + intros Q. inversion Q; subst. f_equal; [|apply IH'; assumption].
        apply Ha; [apply elem_of_cons; left; reflexivity|exact (fits_app_l _ _ Fc)|assumption].
      + intros ->. constructor; [|apply IH'; reflexivity].
        apply Ha; [apply elem_of_cons; left; reflexivity|exact (fits_app_l _ _ Fc)|reflexivity]. }
  split.
  - intros (es & He & c & Hc & ->). apply HF in He as ->. rewrite map_length in Hc.
    apply le_pinned in Hc as ->; [reflexivity|exact Hl].
  - intros ->. exists (map e l). split; [apply HF; reflexivity|]. exists (le 8 (N.of_nat (length l))).
    split; [rewrite map_length; apply le_little, Hl|reflexivity].
Qed.
Lemma benc_bytes_long b : (1 <= length (benc_bytes b))%nat.
Proof. unfold benc_bytes. rewrite app_length, le_length. lia. Qed.

Lemma hashes_pinned l b : fits (enc_hashes l) -> (hashes_b l b <-> b = enc_hashes l).
Proof.
  intros F. unfold hashes_b. apply (vec_pinned _ (fun h => benc_bytes (wenc_hash h))); [exact F|intros a; apply benc_bytes_long|].
  intros h x _ Fh. pose proof (fits_app_r _ _ Fh) as Fx. pose proof (proj1 (proj2 C107_wire_primitives)) as P. split.
  - intros (m & Hm & Hc). apply P in Hm as ->; [|exact Fx]. apply counted_pinned in Hc; assumption.
  - intros ->. exists (wenc_hash h). split; [apply P; [exact Fx|reflexivity]|apply counted_pinned; [exact Fx|reflexivity]].
Qed.
Lemma transactions_pinned l b : fits (enc_txs l) -> (transactions_b l b <-> b = enc_txs l).
Proof.
  intros F. unfold transactions_b. apply (vec_pinned _ (fun h => benc_bytes (wenc_signed h))); [exact F|intros a; apply benc_bytes_long|].
  intros h x _ Fh. pose proof (fits_app_r _ _ Fh) as Fx. pose proof (proj2 C107_wire_transaction) as P. split.
  - intros (fs & m & Hf & Hm & Hc). assert (m = wenc_signed h) as -> by (apply P; [exact Fx|eauto]). apply counted_pinned in Hc; assumption.
  - intros ->. destruct (proj2 (P h (wenc_signed h) Fx) eq_refl) as (fs & Hf & Hm).
    exists fs, (wenc_signed h). split; [exact Hf|split; [exact Hm|apply counted_pinned; [exact Fx|reflexivity]]].
Qed.

(** ** Messages between nodes *)
Theorem C108_requests : forall r b, fits (enc_request r) -> (request_b r b <-> b = enc_request r).
Proof.
  intros [id|l] b F; unfold enc_request in *.
  - split.
    + intros H. inversion H as [? ? ? Ht Hn|]; subst. apply (le_pinned 4 0) in Ht as ->; [|reflexivity]. apply u64_pinned in Hn as ->. reflexivity.
    + intros ->. constructor; [apply le_little; reflexivity|apply u64_pinned; reflexivity].
  - pose proof (fits_app_r _ _ F) as Fl. split.
    + intros H. inversion H as [|? ? ? Ht Hn]; subst. apply (le_pinned 4 1) in Ht as ->; [|reflexivity]. apply hashes_pinned in Hn as ->; [reflexivity|exact Fl].
    + intros ->. constructor; [apply le_little; reflexivity|apply hashes_pinned; [exact Fl|reflexivity]].
Qed.
Print Assumptions C108_requests.

Theorem C108_responses : forall r b, fits (enc_response r) -> (response_b r b <-> b = enc_response r).
Proof.
  intros [e|l] b F; unfold enc_response in *; pose proof (fits_app_l _ _ F) as Fl.
  - pose proof (proj1 (proj2 (proj2 (proj2 C107_epoch_format))) e) as P. split.
    + intros H. inversion H as [? ? He|]; subst. apply P in He as ->; [reflexivity|exact Fl].
    + intros ->. apply (answer_epoch e). apply P; [exact Fl|reflexivity].
  - split.
    + intros H. inversion H as [|? ? Ht]; subst. apply transactions_pinned in Ht as ->; [reflexivity|exact Fl].
    + intros ->. apply (answer_transactions l). apply transactions_pinned; [exact Fl|reflexivity].
Qed.
Print Assumptions C108_responses.

(** Gossiped and pulled transactions, hashes asked for by the pool, proposals
    given to the agreement, its own messages, announced numbers. *)
Theorem C108_messages :
  (forall l b, fits (enc_txs l) -> (transactions_b l b <-> b = enc_txs l)) /\
  (forall l b, fits (enc_hashes l) -> (hashes_b l b <-> b = enc_hashes l)) /\
  (forall p b, fits (enc_fixed_pill p) -> (rlp (pill_f p) b <-> b = enc_fixed_pill p)) /\
  (forall x b, fits x -> (counted x b <-> b = enc_blob x)) /\
  (forall (i : u64) b, little 8 (u64v i) b <-> b = enc_fixed_epoch_id i).
Proof.
  split; [exact transactions_pinned|]. split; [exact hashes_pinned|]. split; [|split; [exact counted_pinned|exact u64_pinned]].
  exact (proj1 (proj2 (proj2 (proj2 (proj2 C107_epoch_format))))).
Qed.
Print Assumptions C108_messages.

(** The envelope every message travels in, before compression. *)
Theorem C108_envelope : forall url content b, fits (nm_encode (NetMsg url content)) ->
  (message [(1, VBytes (rs url)); (2, VBytes content)] b <-> b = nm_encode (NetMsg url content)).
Proof.
  intros url content b F. unfold nm_encode in *. cbn [nm_url nm_content] in *. apply msg_pinned; [|exact F].
  apply out_pcons; [apply out_string; lia|]. apply out_pcons; [apply out_bytes; lia|apply out_nil].
Qed.
Print Assumptions C108_envelope.

(** ** The file of peers *)
Inductive ip_b : option proto -> bytes -> Prop :=
| no_ip : ip_b None [x00]
| ip4 o v : length o = 4%nat -> little 4 0 v -> ip_b (Some (Ip4 o)) (x01 :: v ++ o)
| ip6 o v : length o = 16%nat -> little 4 1 v -> ip_b (Some (Ip6 o)) (x01 :: v ++ o).
(** A peer: key, address it is connected from, its addresses in some order, and
    three times in seconds. *)
Inductive peer_b (pk_enc : pubkey -> bytes) (ma_enc : maddr -> bytes) : pubkey * peer_state -> bytes -> Prop :=
| peer_b_intro pk st addresses key ip es adr t1 t2 t3 :
    counted (pk_enc pk) key -> ip_b (connection_ip st) ip ->
    NoDup addresses -> (forall a, a ∈ addresses <-> a ∈ addr_set st) ->
    Forall2 (fun a e => counted (ma_enc a) e) addresses es -> sequence es adr ->
    little 8 (connect_at st) t1 -> little 8 (disconnect_at st) t2 -> little 8 (alive st) t3 ->
    peer_b pk_enc ma_enc (pk, st) (key ++ ip ++ adr ++ t1 ++ t2 ++ t3).
Definition writable (st : peer_state) : Prop :=
  match connection_ip st with
  | None => True | Some (Ip4 o) => length o = 4%nat | Some (Ip6 o) => length o = 16%nat | Some _ => False
  end /\ connect_at st < two64 /\ disconnect_at st < two64 /\ alive st < two64.

Lemma ip_written ip : match ip with
  | None => True | Some (Ip4 o) => length o = 4%nat | Some (Ip6 o) => length o = 16%nat | Some _ => False
  end -> ip_b ip (benc_ip ip).
Proof.
  destruct ip as [[]|]; cbn [benc_ip]; try contradiction; intros H; try constructor; try exact H; apply le_little; reflexivity.
Qed.

Theorem C108_peer_file : forall pk_enc ma_enc order l,
  (forall s, NoDup (order s) /\ forall a, a ∈ order s <-> a ∈ s) ->
  Forall (fun p => writable (snd p)) l -> fits (peer_file pk_enc ma_enc order l) ->
  exists ps, Forall2 (peer_b pk_enc ma_enc) l ps /\ sequence ps (peer_file pk_enc ma_enc order l).
Proof.
  intros pk_enc ma_enc order l Ho Hw F. exists (map (benc_peer pk_enc ma_enc order) l).
  unfold peer_file, benc_vec in *. pose proof (fits_app_r _ _ F) as Fc.
  assert (forall x, (1 <= length (benc_peer pk_enc ma_enc order x))%nat) as H1.
  { intros x. unfold benc_peer. rewrite app_length. pose proof (benc_bytes_long (pk_enc (fst x))). lia. }
  split.
  - clear F H1. induction Hw as [|[pk st] l Hx Hw IH]; cbn [map concat] in *; [constructor|].
    constructor; [|apply IH, (fits_app_r _ _ Fc)]. apply fits_app_l in Fc.
    unfold benc_peer, benc_state in *. cbn [fst snd] in *. destruct Hx as (Hip & H1 & H2 & H3), (Ho (addr_set st)) as [Hn Hs].
    pose proof (fits_app_r _ _ (fits_app_l _ _ Fc)) as Fk. apply fits_app_r, fits_app_r, fits_app_l in Fc.
    assert (exists es, Forall2 (fun a e => counted (ma_enc a) e) (order (addr_set st)) es /\
      sequence es (benc_vec (fun a => benc_bytes (ma_enc a)) (order (addr_set st)))) as (es & He & Hq).
    { apply (vec_pinned _ (fun a => benc_bytes (ma_enc a)) (order (addr_set st)) _ Fc); [intros a; apply benc_bytes_long| |reflexivity].
      intros a x _ Fa. apply counted_pinned. exact (fits_app_r _ _ Fa). }
    refine (peer_b_intro pk_enc ma_enc pk st (order (addr_set st)) _ _ es _ _ _ _ _ _ Hn Hs He Hq _ _ _).
    + apply counted_pinned; [exact Fk|reflexivity].
    + apply ip_written, Hip.
    + apply le_little; exact H1.
    + apply le_little; exact H2.
    + apply le_little; exact H3.
  - exists (le 8 (N.of_nat (length l))). split; [|reflexivity]. rewrite map_length. apply le_little.
    pose proof (concat_long _ l H1) as Q. unfold fits, blen in Fc. change (256 ^ N.of_nat 8) with two64. lia.
Qed.
Print Assumptions C108_peer_file.

(** ** The database *)

(** Rows: column, key, value.  Columns: 1 epochs, 2 transactions, 3 receipts. *)
Notation row := (N * bytes * bytes)%type.
Definition hash_key (h : hash) (k : bytes) : Prop := message [(1, VBytes (sbytes h))] k.
(** The rows an operation of the storage writes.  An epoch is written under its
    number and, once more, as the latest; the hash of its header leads to the number. *)
Inductive rows_of (digest : bytes -> hash) : st_op -> list row -> Prop :=
| rows_transactions l rs :
    Forall2 (fun t r => exists k v fs, r = (2, k, v) /\ hash_key (st_tx_hash t) k /\ signed_m t fs /\ message fs v) l rs ->
    rows_of digest (InsTransactions l) rs
| rows_receipts l rs :
    Forall2 (fun t r => exists k v fs, r = (3, k, v) /\ hash_key (rc_tx_hash t) k /\ receipt_m t fs /\ message fs v) l rs ->
    rows_of digest (InsReceipts l) rs
| rows_epoch e id body header ix latest :
    message [(1, VNum (u64v (eh_epoch_id (ep_header e))))] id -> message (epoch_m e) body ->
    message (header_m (ep_header e)) header -> hash_key (digest header) ix ->
    hash_key (digest (ascii "latest_hash"%string)) latest ->
    rows_of digest (InsEpoch e) [(1, id, body); (1, ix, id); (1, latest, body)]
| rows_proof p k v :
    hash_key (digest (ascii "latest_proof"%string)) k -> message (proof_m p) v ->
    rows_of digest (UpdProof p) [(1, k, v)].
Definition op_fits (op : st_op) : Prop :=
  match op with
  | InsTransactions l => Forall (fun t => fits (wenc_signed t)) l
  | InsReceipts l => Forall (fun t => fits (wenc_receipt t)) l
  | InsEpoch e => fits (wenc_epoch e) /\ fits (wenc_header (ep_header e))
  | UpdProof p => fits (wenc_proof p)
  end.
(** Writing a row. *)
Definition put (m : db) (r : row) : db := <[(fst (fst r), snd (fst r)) := snd r]> m.

Lemma key_pinned h k : hash_key h k <-> k = wenc_hash h.
Proof.
  apply (proj1 (proj2 C107_wire_primitives)). pose proof (WireFacts.len_hash h) as H. unfold fits, two64. lia.
Qed.
Lemma number_pinned i k : message [(1, VNum (u64v i))] k <-> k = wenc_epoch_id (MkEpochId i).
Proof.
  apply (proj2 (proj2 (proj2 (proj2 (proj2 C107_wire_epoch)))) (MkEpochId i)).
  pose proof (WireFacts.len_epoch_id (MkEpochId i)) as H. unfold fits, two64. lia.
Qed.
Definition row_write (r : row) : dbkey * option bytes := ((fst (fst r), snd (fst r)), Some (snd r)).

Lemma batch_rows {V} (s : schema hash V) (key : V -> hash) c (R : V -> list (N * value) -> Prop) l rs :
  rocks_col (sc_cat s) = c -> (sc_kenc s = wenc_hash) ->
  Forall (fun v => forall b, (exists fs, R v fs /\ message fs b) <-> b = sc_venc s v) l ->
  (Forall2 (fun t r => exists k v fs, r = (c, k, v) /\ hash_key (key t) k /\ R t fs /\ message fs v) l rs <->
   map row_write rs = batch_insert rocks_col s key l).
Proof.
  intros Hc Hk Hl. revert rs. induction Hl as [|t l Ht Hl IH]; intros rs; cbn [batch_insert map].
  - split; [intros H; inversion H; reflexivity|]. destruct rs; [constructor|discriminate].
  - split.
    + intros H. inversion H as [|? ? ? ? (k & v & fs & -> & Hkk & Hf & Hm) Hr]; subst. cbn [map]. f_equal; [|apply IH, Hr].
      apply key_pinned in Hkk as ->. assert (v = sc_venc s t) as -> by (apply Ht; eauto).
      unfold row_write, ad_key. cbn [fst snd]. rewrite Hk. reflexivity.
    + destruct rs as [|[[c' k] v] rs]; [discriminate|]. cbn [map]. intros E.
      injection E as E1 E2 E3 E4. unfold ad_key in *. apply @List.Forall2_cons; [|apply IH, E4].
      destruct (proj2 (Ht (sc_venc s t)) eq_refl) as (fs & Hf & Hm).
      exists (wenc_hash (key t)), (sc_venc s t), fs. rewrite Hk in E2. subst. repeat split; try assumption. apply key_pinned. reflexivity.
Qed.

Lemma rows_pinned digest op rs : op_fits op ->
  (rows_of digest op rs <-> map row_write rs = concat (op_writes rocks_col digest op)).
Proof.
  destruct op as [l|l|e|p]; cbn [op_fits op_writes]; intros F.
  - unfold insert_transactions. cbn [concat]. rewrite app_nil_r.
    rewrite <- (batch_rows TransactionSchema st_tx_hash 2 signed_m l rs eq_refl eq_refl).
    + split; [intros H; inversion H; assumption|apply rows_transactions].
    + apply (Forall_impl _ _ _ F). intros t Ft b. apply (proj2 C107_wire_transaction), Ft.
  - unfold insert_receipts. cbn [concat]. rewrite app_nil_r.
    rewrite <- (batch_rows ReceiptSchema rc_tx_hash 3 receipt_m l rs eq_refl eq_refl).
    + split; [intros H; inversion H; assumption|apply rows_receipts].
    + apply (Forall_impl _ _ _ F). intros t Ft b. apply C107_wire_receipt, Ft.
  - destruct F as [Fe Fh]. pose proof C107_wire_epoch as (_ & _ & Ph & Pe & _).
    unfold insert_epoch, ad_insert, ad_key. cbn [concat app sc_cat sc_kenc sc_venc EpochSchema HashEpochSchema LatestEpochSchema rocks_col]. split.
    + intros H. inversion H as [| |e' id body header ix latest H1 H2 H3 H4 H5|]; subst.
      apply number_pinned in H1 as ->. apply Pe in H2 as ->; [|exact Fe]. apply Ph in H3 as ->; [|exact Fh].
      apply key_pinned in H4 as ->. apply key_pinned in H5 as ->. reflexivity.
    + destruct rs as [|[[c1 k1] v1] [|[[c2 k2] v2] [|[[c3 k3] v3] [|]]]]; try discriminate.
      cbn [map row_write fst snd]. intros [= -> -> -> -> -> -> -> -> ->].
      apply (rows_epoch digest e _ _ (wenc_header (ep_header e))).
      * apply number_pinned. reflexivity.
      * apply Pe; [exact Fe|reflexivity].
      * apply Ph; [exact Fh|reflexivity].
      * apply key_pinned. reflexivity.
      * apply key_pinned. reflexivity.
  - pose proof C107_wire_epoch as (Pp & _).
    unfold update_latest_proof, ad_insert, ad_key. cbn [concat app sc_cat sc_kenc sc_venc LatestProofSchema rocks_col]. split.
    + intros H. inversion H as [| | |p' k v H1 H2]; subst. apply key_pinned in H1 as ->. apply Pp in H2 as ->; [reflexivity|exact F].
    + destruct rs as [|[[c1 k1] v1] [|]]; try discriminate. cbn [map row_write fst snd]. intros [= -> -> ->].
      apply rows_proof; [apply key_pinned; reflexivity|apply Pp; [exact F|reflexivity]].
Qed.

Lemma put_writes rs m : fold_left apply1 (map row_write rs) m = fold_left put rs m.
Proof. revert m. induction rs as [|r rs IH]; intros m; [reflexivity|]. cbn [map fold_left]. rewrite <- IH. reflexivity. Qed.
Lemma writes_concat ws m : apply_writes m ws = fold_left apply1 (concat ws) m.
Proof.
  unfold apply_writes. revert m. induction ws as [|w ws IH]; intros m; [reflexivity|].
  cbn [fold_left concat]. rewrite fold_left_app. apply IH.
Qed.

(** After any history of saves the database holds the rows of the history, a
    later row replacing an earlier one; and every operation has its rows. *)
Theorem C108_database : forall digest ops,
  Forall op_fits ops ->
  (exists rows, Forall2 (rows_of digest) ops rows) /\
  forall rows, Forall2 (rows_of digest) ops rows -> after rocks_col digest ops = fold_left put (concat rows) ∅.
Proof.
  intros digest ops F. unfold after, history_writes. rewrite writes_concat. split.
  - induction F as [|op ops Fo F [rows IH]]; [exists []; constructor|].
    exists (map (fun w : dbkey * option bytes => (fst (fst w), snd (fst w), default [] (snd w))) (concat (op_writes rocks_col digest op)) :: rows).
    constructor; [|exact IH]. apply rows_pinned; [exact Fo|]. rewrite map_map. transitivity (map id (concat (op_writes rocks_col digest op))); [|apply map_id].
    apply map_ext_in. intros w Hw. assert (exists v, snd w = Some v) as [v Ev].
    { destruct op as [l|l|e|p]; cbn [op_writes insert_transactions insert_receipts insert_epoch update_latest_proof batch_insert ad_insert concat app] in Hw; rewrite ?app_nil_r in Hw.
      - apply in_map_iff in Hw as (t & <- & _). eexists; reflexivity.
      - apply in_map_iff in Hw as (t & <- & _). eexists; reflexivity.
      - destruct Hw as [<-|[<-|[<-|[]]]]; eexists; reflexivity.
      - destruct Hw as [<-|[]]; eexists; reflexivity. }
    destruct w as [[c k] o]. cbn [snd] in Ev. subst o. reflexivity.
  - intros rows H. rewrite <- put_writes. f_equal. clear -F H. induction H as [|op rs ops rows Ho H IH]; [reflexivity|].
    inversion F as [|? ? Fo F']; subst. cbn [concat map]. rewrite map_app, concat_app.
    rewrite (proj1 (rows_pinned digest op rs Fo) Ho), IH by assumption. reflexivity.
Qed.
Print Assumptions C108_database.

(** ** Examples *)
(** The request for epoch 258 is these twelve bytes and no others. *)
Example C108_request_example : forall b,
  request_b (RqEpoch (wrap64 258)) b <-> b = [x00; x00; x00; x00; x02; x01; x00; x00; x00; x00; x00; x00].
Proof.
  intros b. assert (fits (enc_request (RqEpoch (wrap64 258)))) as F by (apply fits_true; vm_compute; reflexivity).
  rewrite (C108_requests (RqEpoch (wrap64 258)) b F).
  replace (enc_request (RqEpoch (wrap64 258))) with [x00; x00; x00; x00; x02; x01; x00; x00; x00; x00; x00; x00] by (vm_compute; reflexivity).
  reflexivity.
Qed.
(** A transaction sent to another node. *)
Example C108_response_example : exists b, response_b (RpTxs [ex_tx]) b /\ response_b (RpTxs [ex_tx]) (enc_response (RpTxs [ex_tx])) /\
  last b = Some x62 /\ firstn 9 b = [x01; x00; x00; x00; x00; x00; x00; x00] ++ [byte_of (blen (wenc_signed ex_tx))].
Proof.
  assert (fits (enc_response (RpTxs [ex_tx]))) as F by (apply fits_true; vm_compute; reflexivity).
  exists (enc_response (RpTxs [ex_tx])). pose proof (proj2 (C108_responses (RpTxs [ex_tx]) _ F) eq_refl) as H.
  split; [exact H|]. split; [exact H|]. split; vm_compute; reflexivity.
Qed.
(** A history with rows: a proof, a receipt, a transaction and two epochs. *)
Example C108_database_example : Forall op_fits ex_ops.
Proof.
  unfold ex_ops. constructor; [|constructor; [|constructor; [|constructor; [|constructor; [|constructor]]]]]; cbn [op_fits].
  - apply fits_true; vm_compute; reflexivity.
  - constructor; [|constructor]. apply fits_true; vm_compute; reflexivity.
  - constructor; [|constructor]. apply fits_true; vm_compute; reflexivity.
  - split; apply fits_true; vm_compute; reflexivity.
  - split; apply fits_true; vm_compute; reflexivity.
Qed.
(** A file of two peers, one with an address, one connected from one. *)
Example C108_peer_file_example : exists ps,
  Forall2 (peer_b id ma_enc0) peers0 ps /\ sequence ps (peer_file id ma_enc0 elements peers0).
Proof.
  destruct (C108_peer_file id ma_enc0 elements peers0) as (ps & H & Hq).
  - intros s0. split; [apply NoDup_elements|]. intros a. apply elem_of_elements.
  - repeat apply Forall_cons_2; [| |apply Forall_nil_2]; unfold writable; cbn [snd connection_ip connect_at disconnect_at alive]; repeat split.
  - apply fits_true. vm_compute. reflexivity.
  - exists ps. split; [exact H|exact Hq].
Qed.
