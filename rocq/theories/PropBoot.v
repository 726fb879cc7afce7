(** * C59: a node runs on its configuration and on the data of its chain. *)
From Verif Require Import Base BaseFacts Hex Types Rlp RlpFacts FixedCodec FixedCodecFacts CodecProps StateAdapter Executor Mempool
  Merkle Bincode ConsMsg Proto ProtoFacts Wire WireFacts Storage StorageSpec StorageFacts StorageProps Consensus ConsSpec ConsFacts ConsInv
  ConsChain HeaderFacts Boot.
Local Open Scope N_scope.

Section Props.
  Context (digest : bytes -> hash) (root_of : gmap bytes bytes -> hash) (show : exec_err -> rstring)
          (verify : bytes -> bytes -> bytes -> bool) (shapes : nat -> shape)
          (key_of : bytes -> option bytes) (secio_ok : bytes -> bool).
  Notation run_main := (run_main digest root_of key_of secio_ok).
  Notation run_call cf := (run_call digest root_of show verify shapes cf).
  Notation latest d := (get_latest_epoch rocks_col digest (fst d)).

  (** The texts of a configuration mean: this chain, this address of the node,
      these validators. *)
  Record means (w : raw_config) (chain : hash) (self : user_address) (vs : list user_address) : Prop := {
    m_chain : map lower (clean_0x (rw_chain_id w)) = hash_as_hex chain;
    m_self : exists sk pk, map lower (rw_privkey w) = hex_encode sk /\ key_of sk = Some pk /\ secio_ok sk = true /\
             ua self = x10 :: firstn 20 (sbytes (digest pk));
    m_vs : Forall2 (fun s v => user_from_hex s = Ok v) (rw_verifiers w) vs;
    m_boot : Forall (fun s => exists b, map lower s = hex_encode b) (rw_bootstraps w);
    m_pool : u64v (rw_pool_size w) <> 0 }.

  Lemma map_res_all {E A B} (f : A -> res E B) l k : map_res f l = Ok k <-> Forall2 (fun a b => f a = Ok b) l k.
  Proof.
    revert k. induction l as [|a l IH]; intros k; cbn [map_res].
    - split; [intros [= <-]; constructor|intros H; inversion H; reflexivity].
    - split.
      + destruct (f a) as [b|x|] eqn:Ea; cbn [rbind]; [|discriminate..]. destruct (map_res f l) as [t|x|] eqn:El; cbn [rbind]; [|discriminate..].
        intros [= <-]. constructor; [exact Ea|]. apply IH. reflexivity.
      + intros H. inversion H as [|? b ? t Hb Ht]; subst. rewrite Hb. cbn [rbind]. apply IH in Ht. rewrite Ht. reflexivity.
  Qed.
  Lemma map_res_exists {E A B} (f : A -> res E B) l : (exists k, map_res f l = Ok k) <-> Forall (fun a => exists b, f a = Ok b) l.
  Proof.
    split.
    - intros [k H]. apply map_res_all in H. induction H; constructor; eauto.
    - intros H. induction H as [|a l [b Hb] _ [k IH]]; [exists []; reflexivity|]. exists (b :: k). cbn [map_res]. rewrite Hb. cbn [rbind].
      rewrite IH. reflexivity.
  Qed.
  Lemma unwrap_ok {E A} (r : res E A) a : unwrap r = Ok a <-> r = Ok a.
  Proof. destruct r; cbn; split; congruence. Qed.
  Lemma identity_spec w chain self : identity digest key_of w = Ok (chain, self) <->
    hash_from_hex (rw_chain_id w) = Ok chain /\ exists sk pk, hex_decode (rw_privkey w) = Ok sk /\ key_of sk = Some pk /\ user_from_pubkey digest pk = Ok self.
  Proof.
    unfold identity. split.
    - destruct (hash_from_hex (rw_chain_id w)) as [c|x|]; cbn [unwrap rbind]; [|discriminate..].
      destruct (hex_decode (rw_privkey w)) as [sk|x|]; cbn [unwrap rbind]; [|discriminate..].
      destruct (key_of sk) as [pk|] eqn:Ek; cbn [unwrap_opt rbind]; [|discriminate].
      destruct (user_from_pubkey digest pk) as [u|x|] eqn:Eu; cbn [unwrap rbind]; [|discriminate..]. intros [= <- <-]. split; [reflexivity|].
      exists sk, pk. auto.
    - intros (-> & sk & pk & -> & Ek & Eu). cbn [unwrap rbind]. rewrite Ek. cbn [unwrap_opt rbind]. rewrite Eu. reflexivity.
  Qed.
  Lemma network_spec w : network_config secio_ok w = Ok tt <->
    Forall (fun s => exists b, hex_decode s = Ok b) (rw_bootstraps w) /\ exists sk, hex_decode (rw_privkey w) = Ok sk /\ secio_ok sk = true.
  Proof.
    unfold network_config. rewrite <- map_res_exists. split.
    - destruct (map_res hex_decode (rw_bootstraps w)) as [k|x|]; cbn [unwrap rbind]; [|discriminate..].
      destruct (hex_decode (rw_privkey w)) as [sk|x|]; cbn [unwrap rbind]; [|discriminate..]. destruct (secio_ok sk) eqn:Es; [|discriminate].
      intros _. split; [eauto|]. exists sk. auto.
    - intros ([k ->] & sk & -> & Hs). cbn [unwrap rbind]. rewrite Hs. reflexivity.
  Qed.
  Lemma network_unit w r : network_config secio_ok w = Ok r -> r = tt.
  Proof. destruct r. reflexivity. Qed.
  Lemma means_iff w chain self vs : means w chain self vs <->
    identity digest key_of w = Ok (chain, self) /\ network_config secio_ok w = Ok tt /\ verifiers w = Ok vs /\ u64v (rw_pool_size w) <> 0.
  Proof.
    rewrite identity_spec, network_spec. unfold verifiers. rewrite unwrap_ok, map_res_all. split.
    - intros [A (sk & pk & B1 & B2 & B3 & B4) C D E]. apply hash_from_hex_spec in A. apply hex_decode_spec in B1.
      split; [split; [exact A|]|].
      + exists sk, pk. split; [exact B1|]. split; [exact B2|]. destruct (user_from_pubkey_spec digest pk) as (u & -> & Hu). f_equal.
        apply ua_eq. congruence.
      + split; [|split; [exact C|exact E]]. split; [|eauto]. apply Forall_forall. intros s Hs. rewrite Forall_forall in D.
        destruct (D s Hs) as [b Hb]. exists b. apply hex_decode_spec, Hb.
    - intros ((A & sk & pk & B1 & B2 & B4) & (D & sk' & B1' & B3) & C & E). rewrite B1 in B1'. injection B1' as <-. constructor.
      + apply hash_from_hex_spec, A.
      + exists sk, pk. split; [apply hex_decode_spec, B1|]. split; [exact B2|]. split; [exact B3|].
        destruct (user_from_pubkey_spec digest pk) as (u & Hu & Hb). congruence.
      + exact C.
      + apply Forall_forall. intros s Hs. rewrite Forall_forall in D. destruct (D s Hs) as [b Hb]. exists b. apply hex_decode_spec, Hb.
      + exact E.
  Qed.

  (** What a run of [main] comes to. *)
  Lemma run_main_out o1 o2 w g lis d r d' : run_main o1 o2 w g lis d = (r, d') ->
    (exists chain self gen vs, g = Some gen /\ lis = true /\ means w chain self vs /\
       fst (handle_init digest root_of (config_of w (chain, self) gen []) o1 o2 d) = Ok d' /\
       r = start digest (config_of w (chain, self) gen vs) d') \/ r = Panic.
  Proof.
    unfold Boot.run_main. destruct (identity digest key_of w) as [[chain self]|x|] eqn:Ei; cbn [rbind]; [|intros [= <- <-]; auto..].
    destruct g as [gen|]; cbn [unwrap_opt rbind]; [|intros [= <- <-]; auto].
    destruct (fst (handle_init digest root_of (config_of w (chain, self) gen []) o1 o2 d)) as [d1|x|] eqn:Eh; [|intros [= <- <-]; auto..].
    destruct (network_config secio_ok w) as [[]|x|] eqn:En; cbn [rbind]; [| |intros [= <- <-]; auto].
    2:{ exfalso. unfold network_config in En. destruct (map_res hex_decode (rw_bootstraps w)); cbn in En; try discriminate.
        destruct (hex_decode (rw_privkey w)) as [sk|y|]; cbn in En; try discriminate. destruct (secio_ok sk); discriminate. }
    destruct lis; [|intros [= <- <-]; auto]. destruct (N.eqb_spec (u64v (rw_pool_size w)) 0) as [Hz|Hz]; [intros [= <- <-]; auto|].
    destruct (verifiers w) as [vs|x|] eqn:Ev; cbn [rbind]; [| |intros [= <- <-]; auto].
    2:{ exfalso. unfold verifiers in Ev. destruct (map_res user_from_hex (rw_verifiers w)); discriminate. }
    intros [= <- <-]. left. exists chain, self, gen, vs. split; [reflexivity|]. split; [reflexivity|]. split; [|split; [exact Eh|reflexivity]].
    apply means_iff. auto.
  Qed.
  Lemma run_main_good o1 o2 w g d d' chain self gen vs : g = Some gen -> means w chain self vs ->
    fst (handle_init digest root_of (config_of w (chain, self) gen []) o1 o2 d) = Ok d' ->
    run_main o1 o2 w g true d = (start digest (config_of w (chain, self) gen vs) d', d').
  Proof.
    intros -> Hm Eh. apply means_iff in Hm as (A & B & C & D). unfold Boot.run_main. rewrite A. cbn [rbind unwrap_opt]. rewrite Eh, B, C. cbn [rbind].
    destruct (N.eqb_spec (u64v (rw_pool_size w)) 0) as [Hz|_]; [contradiction|]. reflexivity.
  Qed.
  Lemma init_known (cf : config) (o1 o2 : iter_order) (d : durable) (e : epoch) : latest d = Ok e -> fst (handle_init digest root_of cf o1 o2 d) = Ok d.
  Proof. intros H. unfold handle_init. rewrite H. reflexivity. Qed.

  (** A node that starts runs on what its configuration says: chain, address,
      price, limit, interval, validators one by one in their order; the size and
      the expiry of the pool; the chain id and the proposer of its proposals. *)
  Theorem C59_runs_on_its_configuration : forall o1 o2 w g lis d n d',
    run_main o1 o2 w g lis d = (Ok n, d') ->
    exists chain self vs gen, means w chain self vs /\ g = Some gen /\
      cs_price (nd_status n) = rw_price w /\ cs_limit (nd_status n) = rw_limit w /\ cs_interval (nd_status n) = rw_interval w /\
      map va_address (cs_validators (nd_status n)) = vs /\
      mp_size (nd_pool n) = N.to_nat (u64v (rw_pool_size w)) /\ mp_gap (nd_pool n) = rw_gap w /\ nd_disk n = d' /\
      forall id now q h n' t, run_call (config_of w (chain, self) gen vs) (CallPropose id now) n = (Ok (RepPill q h), n', t) ->
        eh_chain_id (ep_header (pl_epoch q)) = chain /\ eh_proposer (ep_header (pl_epoch q)) = self /\
        map va_address (eh_validators (ep_header (pl_epoch q))) = vs.
  Proof.
    intros o1 o2 w g lis d n d' H. apply run_main_out in H as [(chain & self & gen & vs & -> & -> & Hm & Eh & Es)|]; [|discriminate].
    symmetry in Es. pose proof Es as Es0. apply start_out in Es0 as (e & _ & En). rewrite En. exists chain, self, vs, gen. split; [exact Hm|]. split; [reflexivity|].
    cbn [nd_status start_status cs_price cs_limit cs_interval cs_validators nd_pool nd_disk config_of cf_price cf_limit cf_interval cf_validators cf_pool_size cf_gap mp_new mp_size mp_gap].
    do 3 (split; [reflexivity|]). assert (map va_address (map (fun a => MkValidator a x01 x01) vs) = vs) as Hv by (rewrite map_map; apply map_id).
    split; [exact Hv|]. do 3 (split; [reflexivity|]). intros id now q h n' t Ep. apply propose_says in Ep as [order ->].
    split; [reflexivity|]. split; [reflexivity|]. exact Hv.
  Qed.

  (** On a disk that holds a chain, [main] starts exactly with a configuration
      all of whose texts can be read, and never changes the disk. *)
  Theorem C59_known_chain_starts_iff : forall (o1 o2 : iter_order) (w : raw_config) (g : option genesis) (lis : bool) (d : durable) (e : epoch),
    latest d = Ok e ->
    snd (run_main o1 o2 w g lis d) = d /\
    ((exists n, fst (run_main o1 o2 w g lis d) = Ok n) <-> (exists chain self vs, means w chain self vs) /\ g <> None /\ lis = true).
  Proof.
    intros o1 o2 w g lis d e He. split.
    - unfold Boot.run_main. destruct (identity digest key_of w) as [[chain self]|x|]; cbn [rbind]; [|reflexivity..].
      destruct g as [gen|]; cbn [unwrap_opt rbind]; [|reflexivity]. rewrite (init_known _ _ _ _ _ He). reflexivity.
    - split.
      + intros [n Hn]. destruct (run_main o1 o2 w g lis d) as [r d'] eqn:E. cbn [fst] in Hn. subst r.
        apply run_main_out in E as [(chain & self & gen & vs & -> & -> & Hm & _)|]; [|discriminate]. split; [eauto|]. split; [discriminate|reflexivity].
      + intros ((chain & self & vs & Hm) & Hg & ->). destruct g as [gen|]; [|congruence].
        rewrite (run_main_good _ _ _ _ _ _ _ _ _ _ eq_refl Hm (init_known _ _ _ _ _ He)). cbn [fst]. unfold start. rewrite He. eauto.
  Qed.

  (** A chain id, key or genesis that cannot be read stops it before anything is
      written. *)
  Theorem C59_refused_before_writing : forall o1 o2 w g lis d,
    (forall chain, map lower (clean_0x (rw_chain_id w)) <> hash_as_hex chain) \/
    (forall sk pk, map lower (rw_privkey w) = hex_encode sk -> key_of sk <> Some pk) \/ g = None ->
    run_main o1 o2 w g lis d = (Panic, d).
  Proof.
    intros o1 o2 w g lis d H. unfold Boot.run_main. destruct (identity digest key_of w) as [[chain self]|x|] eqn:Ei; cbn [rbind]; [|reflexivity..].
    destruct g as [gen|]; [|reflexivity]. exfalso. apply identity_spec in Ei as (A & sk & pk & B & C & _).
    destruct H as [H|[H|H]]; [|apply (H sk pk); [apply hex_decode_spec, B|exact C]|discriminate]. apply (H chain), hash_from_hex_spec, A.
  Qed.

  (** But a validator (or bootstrap key, or pool size) that cannot be read stops
      it only after the genesis has been written, and that is for good: whatever
      configuration and genesis it is started with from then on. *)
  Theorem C59_refused_after_writing_refuted : forall (o1 o2 : iter_order) (w : raw_config) (gen : genesis) (lis : bool) (d : durable) (chain : hash) (self : user_address) (root : hash) (tr : trie_db),
    latest d = Err GetNone -> identity digest key_of w = Ok (chain, self) ->
    genesis_state digest root_of (config_of w (chain, self) gen []) o1 o2 (snd d) = Ok (root, tr) ->
    let e := genesis_epoch digest (config_of w (chain, self) gen []) root in
    fits (wenc_epoch e) -> LATEST_EPOCH_KEY digest <> LATEST_PROOF_KEY digest ->
    (forall vs, ~ means w chain self vs) ->
    exists d', run_main o1 o2 w (Some gen) lis d = (Panic, d') /\ latest d' = Ok e /\
      forall o1 o2 w2 g2 lis2, snd (run_main o1 o2 w2 g2 lis2 d') = d'.
  Proof.
    intros o1 o2 w gen lis d chain self root tr Hn Hi Hg e Hf Hk Hm.
    destruct (run_main o1 o2 w (Some gen) lis d) as [r d'] eqn:E. exists d'.
    assert (latest d' = Ok e) as Hl.
    { revert E. unfold Boot.run_main. rewrite Hi. cbn [rbind unwrap_opt]. unfold handle_init. rewrite Hn, Hg. cbn [fst].
      intros H. apply (f_equal snd) in H. cbn [snd] in H. rewrite <- H. rewrite genesis_trace. cbn zeta. cbn [List.last fst].
      apply read_latest; [|exact Hf]. unfold w_proof. rewrite lookup_insert_ne; [apply latest_LK|]. intros [= X]. apply wenc_hash_inj in X. congruence. }
    split; [|split; [exact Hl|]].
    - destruct (run_main_out _ _ _ _ _ _ _ _ E) as [(chain2 & self2 & gen2 & vs & _ & _ & Hm2 & _)| ->]; [|reflexivity]. exfalso.
      pose proof Hm2 as X. apply means_iff in X as (X & _). rewrite Hi in X. injection X as <- <-. exact (Hm vs Hm2).
    - intros p1 p2 w2 g2 lis2. apply (C59_known_chain_starts_iff p1 p2 w2 g2 lis2 d' e Hl).
  Qed.

  (** And a disk with another chain is not refused: the node starts on it, and
      proposes an epoch of its own chain that links to, and continues the state
      of, the other chain's latest epoch. *)
  Theorem C59_other_chain_accepted_refuted : forall (o1 o2 : iter_order) (w : raw_config) (gen : genesis) (d : durable) (e : epoch) (chain : hash) (self : user_address) (vs : list user_address) (now : u64),
    latest d = Ok e -> means w chain self vs -> eh_chain_id (ep_header e) <> chain ->
    exists n q h n' t, run_main o1 o2 w (Some gen) true d = (Ok n, d) /\
      run_call (config_of w (chain, self) gen vs) (CallPropose (wrap64 (eh_epoch_id (ep_header e) + 1)) now) n = (Ok (RepPill q h), n', t) /\
      let hd := ep_header (pl_epoch q) in
      eh_chain_id hd = chain /\ eh_pre_hash hd = digest (enc_epoch e) /\ eh_state_root hd = eh_state_root (ep_header e).
  Proof.
    intros o1 o2 w gen d e chain self vs now He Hm _.
    pose proof (run_main_good o1 o2 _ _ _ _ _ _ _ _ (eq_refl (Some gen)) Hm (init_known _ _ _ _ _ He)) as E.
    unfold start in E. rewrite He in E. rewrite E.
    match goal with |- context [(Ok ?m, d)] => set (n := m) end.
    destruct (run_call (config_of w (chain, self) gen vs) (CallPropose (wrap64 (eh_epoch_id (ep_header e) + 1)) now) n) as [[r n'] t] eqn:Ep.
    assert (exists q h, r = Ok (RepPill q h)) as (q & h & ->).
    { cbn [Consensus.run_call] in Ep. unfold get_epoch, abind, aget, get_txs_from_mempool, aupd, aret, alift in Ep.
      unfold mp_package, env_of in Ep. cbn [nd_disk nd_pool n en_latest] in Ep. rewrite He in Ep.
      cbn in Ep. destruct (decide _) as [_|X] in Ep; [|exfalso; apply X; reflexivity]. injection Ep as <- _ _. eauto. }
    exists n, q, h, n', t. split; [reflexivity|]. split; [exact Ep|]. apply propose_says in Ep as [order ->].
    cbn zeta. split; [reflexivity|]. split; reflexivity.
  Qed.
End Props.
Print Assumptions C59_runs_on_its_configuration.
Print Assumptions C59_known_chain_starts_iff.
Print Assumptions C59_refused_before_writing.
Print Assumptions C59_refused_after_writing_refuted.
Print Assumptions C59_other_chain_accepted_refuted.
