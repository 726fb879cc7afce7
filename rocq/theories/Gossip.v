(** * core/mempool/src/adapter/message.rs:37-63: what a node does with a batch
    of gossiped transactions. *)
From Verif Require Import Base BaseFacts Hex Types Rlp RlpFacts FixedCodec FixedCodecFacts CodecProps Proto ProtoFacts Wire WireFacts
  Bincode ConsMsg Storage StorageSpec StorageFacts Mempool MempoolSpec MempoolFacts MempoolProps MempoolMore PropConsMsg.
From Coq Require Import Permutation.
Local Open Scope N_scope.

Section Gossip.
  Context (digest : bytes -> hash) (verify : bytes -> bytes -> bytes -> bool) (gap : u64).

  (** The inserts spawned for one message, message.rs:47-61, in some order;
      [e] is what the storage answers during each of them.  The context is
      marked [network_origin], so the flag of [OpInsert] is [true] and its
      broadcast answer is not used. *)
  Definition gossip_ops (l : list (signed_tx * env)) : list mp_op :=
    map (fun te => OpInsert true (fst te) (snd te) (Ok tt)) l.

  (** [NewTxsHandler::process] on the bytes [msg] of one gossip message, for a
      node whose storage is in a state of [E] meanwhile.  A message that does
      not decode does not reach the handler (core/network/src/reactor).
      Simplification: each spawned insert is one step (interleavings inside
      an insert: C27, C40-C43).  An insert that fails does not stop the
      others, which are tasks of their own. *)
  Inductive received (E : env -> Prop) (p : mempool) (msg : bytes) : mempool -> Prop :=
  | rc_refused : (forall l, dec_txs msg <> Ok l) -> received E p msg p
  | rc_batch l tes : dec_txs msg = Ok l -> Permutation (map fst tes) l -> (forall t e, (t, e) ∈ tes -> E e) ->
      received E p msg (snd (mp_run digest verify gap p (gossip_ops tes))).

  (** Several messages, one after the other. *)
  Inductive received_all (E : env -> Prop) : mempool -> list bytes -> mempool -> Prop :=
  | ra_nil p : received_all E p [] p
  | ra_cons p m p1 ms p2 : received E p m p1 -> received_all E p1 ms p2 -> received_all E p (m :: ms) p2.

  Context (n : nat) (gap' : u64).

  (** ** Facts *)
  Lemma run_cons p t e l :
    snd (mp_run digest verify gap p (gossip_ops ((t, e) :: l))) =
    snd (mp_run digest verify gap (snd (mp_insert digest verify gap p true t e (Ok tt))) (gossip_ops l)).
  Proof.
    cbn [gossip_ops map mp_run mp_step fst snd].
    destruct (mp_insert digest verify gap p true t e (Ok tt)) as [r p1]. cbn [snd]. fold (gossip_ops l).
    destruct (mp_run digest verify gap p1 (gossip_ops l)). reflexivity.
  Qed.

  Lemma batch_any p l : mp_inv n gap' p ->
    let p' := snd (mp_run digest verify gap p (gossip_ops l)) in
    mp_inv n gap' p' /\ mp_out p' = mp_out p /\ mp_cb p' = mp_cb p /\
    exists new, entries p' = entries p ++ new /\
      forall t b, (t, b) ∈ new -> b = false /\ exists e, (t, e) ∈ l /\ tx_ok digest verify gap e t.
  Proof.
    revert p. induction l as [|[t e] l IH]; intros p Hp; cbn zeta.
    { cbn. split; [exact Hp|]. split; [reflexivity|]. split; [reflexivity|]. exists []. rewrite app_nil_r.
      split; [reflexivity|]. intros t b H. inversion H. }
    rewrite run_cons. pose proof (insert_outcome digest verify n gap gap' p true t e (Ok tt) Hp) as H.
    destruct (mp_insert digest verify gap p true t e (Ok tt)) as [r p1]. cbn [snd].
    destruct H as (H1 & H2 & H). destruct (IH p1 H1) as (I1 & I2 & I3 & new & I4 & I5).
    split; [exact I1|]. split; [|split; [congruence|]].
    - rewrite I2. destruct H as [(_ & _ & _ & _ & ->)|(_ & _ & _ & _ & ->)]; [apply app_nil_r|reflexivity].
    - destruct H as [(A & _ & Ee & _)|(_ & _ & Ee & _)].
      + exists ((t, false) :: new). rewrite I4, Ee, <- app_assoc. split; [reflexivity|].
        intros t' b' X. apply elem_of_cons in X as [X|X].
        * injection X as -> ->. split; [reflexivity|]. exists e. split; [left|]. apply A.
        * destruct (I5 _ _ X) as (Y & e' & Z1 & Z2). split; [exact Y|]. exists e'. split; [right; exact Z1|exact Z2].
      + exists new. rewrite I4, Ee. split; [reflexivity|].
        intros t' b' X. destruct (I5 _ _ X) as (Y & e' & Z1 & Z2). split; [exact Y|]. exists e'. split; [right; exact Z1|exact Z2].
  Qed.

  Lemma batch_room p l : mp_inv n gap' p ->
    (forall t e, (t, e) ∈ l -> tx_ok digest verify gap e t) ->
    NoDup (map (fun te => st_tx_hash (fst te)) l) ->
    (forall t e, (t, e) ∈ l -> mp_contains p (st_tx_hash t) = false) ->
    (mp_len p + length l <= n)%nat -> (mp_slots p + length l <= 4 * n)%nat ->
    let p' := snd (mp_run digest verify gap p (gossip_ops l)) in
    mp_inv n gap' p' /\ entries p' = entries p ++ map (fun te => (fst te, false)) l /\
    mp_len p' = (mp_len p + length l)%nat /\ mp_slots p' = (mp_slots p + length l)%nat /\ mp_out p' = mp_out p.
  Proof.
    revert p. induction l as [|[t e] l IH]; intros p Hp Hok Hnd Hnew Hlen Hslot; cbn zeta.
    { cbn. rewrite app_nil_r, !Nat.add_0_r. auto. }
    rewrite run_cons. pose proof (insert_outcome digest verify n gap gap' p true t e (Ok tt) Hp) as H.
    destruct (mp_insert digest verify gap p true t e (Ok tt)) as [r p1]. cbn [snd].
    destruct H as (H1 & H2 & H). cbn [length] in Hlen, Hslot. cbn [map fst] in Hnd. apply NoDup_cons in Hnd as [Hn1 Hn2].
    destruct H as [(A & _ & Ee & Es & Eo)|(A & _)].
    2:{ exfalso. apply A. split; [lia|]. split; [apply (Hnew t e); left|]. split; [apply Hok; left|lia]. }
    rewrite app_nil_r in Eo.
    assert (El : mp_len p1 = S (mp_len p)).
    { rewrite (len_entries n gap' p1 H1), (len_entries n gap' p Hp), Ee, app_length. cbn. lia. }
    destruct (IH p1 H1) as (I1 & I2 & I3 & I4 & I5).
    - intros t' e' X. apply (Hok t' e'). right. exact X.
    - exact Hn2.
    - intros t' e' X. destruct (mp_contains p1 (st_tx_hash t')) eqn:Ec; [exfalso|reflexivity].
      apply (contains_entry n gap' p1 H1) in Ec. rewrite Ee, map_app in Ec. apply elem_of_app in Ec as [Ec|Ec].
      + apply (contains_entry n gap' p Hp) in Ec. rewrite (Hnew t' e') in Ec by (right; exact X). discriminate Ec.
      + cbn in Ec. apply elem_of_list_singleton in Ec. apply Hn1. unfold e_hash in Ec. cbn in Ec. rewrite <- Ec.
        apply elem_of_list_fmap. exists (t', e'). split; [reflexivity|exact X].
    - lia.
    - lia.
    - split; [exact I1|]. split; [rewrite I2, Ee, <- app_assoc; reflexivity|]. cbn [length].
      split; [lia|]. split; [lia|congruence].
  Qed.
End Gossip.

(** A list none of whose elements may fail *)
Lemma map_res_bad {Er A B} (f : A -> res Er B) l a : a ∈ l -> (forall b, f a <> Ok b) -> forall bs, map_res f l <> Ok bs.
Proof.
  induction l as [|x l IH]; intros Ha Hf bs; [inversion Ha|]. cbn [map_res].
  apply elem_of_cons in Ha as [->|Ha].
  - destruct (f x) as [b| |] eqn:E; [exfalso; exact (Hf b eq_refl)|discriminate|discriminate].
  - destruct (f x) as [b| |]; [|discriminate|discriminate]. cbn [rbind].
    destruct (map_res f l) as [bs'| |] eqn:E; [exfalso; exact (IH Ha Hf bs' eq_refl)|discriminate|discriminate].
Qed.
