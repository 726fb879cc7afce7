(** * C22, C24: genesis and reopening a committed root; histories of blocks. *)
From Verif Require Import Base BaseFacts Hex Types Rlp RlpFacts FixedCodec FixedCodecFacts CodecProps
  StateAdapter StateAdapterFacts Executor ExecSpec ExecutorFacts ExecProps ExecBlock ExecMore ExecOrder.
From Coq Require Import Permutation.
Local Open Scope N_scope.

Section Genesis.
  Context (digest : bytes -> hash).

  (** Granting listed balances on a plain map. *)
  Definition grant1 (a : address) (V : accounts) (p : hash * N) : accounts :=
    <[a := account_add (match V !! a with Some acc => acc | None => new_account digest a end) p.1 p.2]> V.
  Definition grant (V : accounts) (q : address * list (hash * N)) : accounts := fold_left (grant1 q.1) q.2 V.

  Ltac mred := unfold bind, ret, fail, panic, lift, ask_ctx, ask_exec, put_acc, put_bank, put_cycles; cbn [fst snd].

  (** Only the cache of the account adapter differs. *)
  Definition acc_frame (x y : executor) : Prop := frame x y /\ x_bank y = x_bank x.
  Lemma acc_frame_refl x : acc_frame x x.
  Proof. split; [apply frame_refl|reflexivity]. Qed.
  Lemma acc_frame_trans x y z : acc_frame x y -> acc_frame y z -> acc_frame x z.
  Proof. intros [] []. split; [eapply frame_trans; eauto|congruence]. Qed.

  Lemma hash_from_hex_np s : hash_from_hex s <> Panic.
  Proof.
    unfold hash_from_hex, decode_hex_text. pose proof (hex_decode_no_panic (clean_0x s)) as H.
    destruct (hex_decode (clean_0x s)); cbn; [apply hash_from_bytes_np|discriminate|congruence].
  Qed.
  Lemma address_from_hex_np s : address_from_hex s <> Panic.
  Proof.
    unfold address_from_hex, decode_hex_text. pose proof (hex_decode_no_panic (clean_0x s)) as H.
    destruct (hex_decode (clean_0x s)); cbn; [apply address_from_bytes_np|discriminate|congruence].
  Qed.

  Lemma alloc_asset_spec a g x c :
    (exists p x', parsed_asset g p /\ alloc_asset digest a g (x, c) = (Ok tt, (x', c)) /\
       acc_frame x x' /\ Av x' = grant1 a (Av x) p) \/
    ((forall p, ~ parsed_asset g p) /\ exists e, alloc_asset digest a g (x, c) = (Err e, (x, c))).
  Proof.
    unfold alloc_asset, parsed_asset. mred.
    pose proof (hash_from_hex_np (rs (ga_asset_id g))) as N1.
    destruct (hash_from_hex (rs (ga_asset_id g))) as [id|e|] eqn:E1; cbn [map_err]; [|right|congruence].
    2:{ split; [intros p [? _]; discriminate|eauto]. }
    pose proof (hex_decode_no_panic (rs (ga_balance g))) as N2.
    destruct (hex_decode (rs (ga_balance g))) as [b|e|] eqn:E2; cbn [map_err]; [left|right|congruence].
    - exists (id, be_val b). eexists. split; [split; [reflexivity|eauto]|].
      unfold add_balance, find_or_create, insert_account. mred. split; [reflexivity|].
      split; [split; [apply frame_set_acc|reflexivity]|]. rewrite Av_set_acc. unfold grant1. rewrite lookup_Av. reflexivity.
    - split; [|eauto]. intros p [_ (? & ? & _)]. discriminate.
  Qed.

  Lemma alloc_assets_spec a l : forall x c,
    (exists ps x', Forall2 parsed_asset l ps /\ alloc_assets digest a l (x, c) = (Ok tt, (x', c)) /\
       acc_frame x x' /\ Av x' = fold_left (grant1 a) ps (Av x)) \/
    ((forall ps, ~ Forall2 parsed_asset l ps) /\ exists e x', alloc_assets digest a l (x, c) = (Err e, (x', c))).
  Proof.
    induction l as [|g l IH]; intros x c; cbn [alloc_assets].
    - left. exists [], x. split; [constructor|]. split; [reflexivity|]. split; [apply acc_frame_refl|reflexivity].
    - unfold bind at 1 2.
      destruct (alloc_asset_spec a g x c) as [(p & x1 & Hp & -> & F1 & A1)|(Hn & e & ->)].
      + destruct (IH x1 c) as [(ps & x2 & Hps & -> & F2 & A2)|(Hn & e & x2 & ->)].
        * left. exists (p :: ps), x2. split; [constructor; assumption|]. split; [reflexivity|].
          split; [eapply acc_frame_trans; eauto|]. cbn [fold_left]. rewrite A2, A1. reflexivity.
        * right. split; [|eauto]. intros ps Hps. inversion Hps; subst. eapply Hn; eauto.
      + right. split; [|eauto]. intros ps Hps. inversion Hps; subst. eapply Hn; eauto.
  Qed.

  Lemma alloc_all_spec l : forall x c,
    (exists qs x', Forall2 parsed_alloc l qs /\ alloc_all digest l (x, c) = (Ok tt, (x', c)) /\
       acc_frame x x' /\ Av x' = fold_left grant qs (Av x)) \/
    ((forall qs, ~ Forall2 parsed_alloc l qs) /\ exists e x', alloc_all digest l (x, c) = (Err e, (x', c))).
  Proof.
    induction l as [|g l IH]; intros x c; cbn [alloc_all].
    - left. exists [], x. split; [constructor|]. split; [reflexivity|]. split; [apply acc_frame_refl|reflexivity].
    - unfold lift, bind at 1 5.
      pose proof (address_from_hex_np (rs (gl_address g))) as N1.
      destruct (address_from_hex (rs (gl_address g))) as [a|e|] eqn:E1; cbn [map_err]; [| |congruence].
      2:{ right. split; [|eauto]. intros qs Hq. inversion Hq as [|? q ? ? [Hq' _]]; subst. congruence. }
      unfold create_account, find_or_create. mred.
      destruct (alloc_assets_spec a (gl_assets g) x c) as [(ps & x1 & Hps & -> & F1 & A1)|(Hn & e & x1 & ->)].
      + destruct (IH x1 c) as [(qs & x2 & Hqs & -> & F2 & A2)|(Hn & e & x2 & ->)].
        * left. exists ((a, ps) :: qs), x2. split; [constructor; [split; assumption|assumption]|]. split; [reflexivity|].
          split; [eapply acc_frame_trans; eauto|]. cbn [fold_left]. rewrite A2, A1. reflexivity.
        * right. split; [|eauto]. intros qs Hq. inversion Hq; subst. eapply Hn; eauto.
      + right. split; [|eauto]. intros qs Hq. inversion Hq as [|? q ? ? [Hq1 Hq2]]; subst. eapply Hn; eauto.
  Qed.

  (** *** What granting does *)
  Lemma fold_grant1 a ps : forall V,
    let V' := fold_left (grant1 a) ps V in
    (forall a' id, bal V' a' id = bal V a' id + (if decide (a = a') then listed id ps else 0)) /\
    (forall a', nonce V' a' = nonce V a') /\
    (wf_accounts V -> wf_accounts V') /\
    (forall id, total id V' = total id V + listed id ps) /\
    (forall a', is_Some (V' !! a') <-> is_Some (V !! a') \/ (a' = a /\ ps <> [])).
  Proof.
    induction ps as [|[id0 n] ps IH]; intros V; cbn [fold_left].
    - split; [intros; destruct (decide _); cbn; lia|]. split; [auto|]. split; [auto|].
      split; [intros; cbn; lia|]. intros a'. split; [auto|]. intros [H|[_ H]]; [exact H|contradiction].
    - specialize (IH (grant1 a V (id0, n))). cbn zeta in IH. destruct IH as (B & N & W & T & D).
      set (acc0 := match V !! a with Some acc => acc | None => new_account digest a end).
      assert (Hb0 : forall id, account_balance acc0 id = bal V a id).
      { intros id. unfold acc0, bal. destruct (V !! a); [reflexivity|apply new_balance]. }
      assert (G : grant1 a V (id0, n) = <[a := account_add acc0 id0 n]> V) by reflexivity.
      cbn zeta. split; [|split; [|split; [|split]]].
      + intros a' id. rewrite B, G, bal_insert. cbn [listed].
        destruct (decide (a' = a)) as [->|Hne].
        * rewrite add_balance_eq, Hb0. destruct (decide (a = a)); [|congruence].
          destruct (decide (id = id0)), (decide (id0 = id)); try congruence; lia.
        * destruct (decide (a = a')); [congruence|]. lia.
      + intros a'. rewrite N, G, nonce_insert. destruct (decide (a' = a)) as [->|]; [|reflexivity].
        rewrite add_nonce. unfold acc0, nonce. destruct (V !! a); [reflexivity|apply new_nonce].
      + intros Hw. apply W. rewrite G. apply map_Forall_insert_2; [|exact Hw]. apply kind_add.
        unfold acc0. destruct (V !! a) eqn:E; [eapply Hw; eauto|apply kind_new].
      + intros id. rewrite T, G. pose proof (total_insert id V a (account_add acc0 id0 n)) as H.
        rewrite add_balance_eq, Hb0 in H. cbn [listed].
        destruct (decide (id = id0)), (decide (id0 = id)); try congruence; lia.
      + intros a'. rewrite D, G. destruct (decide (a' = a)) as [->|Hne].
        * rewrite lookup_insert. split; [intros _; right; split; [reflexivity|discriminate]|intros _; left; eauto].
        * rewrite lookup_insert_ne by congruence. split; intros [H|[H _]]; auto; congruence.
  Qed.

  Lemma fold_grant qs : forall V,
    let V' := fold_left grant qs V in
    (forall a id, bal V' a id = bal V a id + allocated a id qs) /\
    (forall a, nonce V' a = nonce V a) /\
    (wf_accounts V -> wf_accounts V') /\
    (forall id, total id V' = total id V + allocated_total id qs) /\
    (forall a, is_Some (V' !! a) <-> is_Some (V !! a) \/ exists ps, (a, ps) ∈ qs /\ ps <> []).
  Proof.
    induction qs as [|[a ps] qs IH]; intros V; cbn [fold_left].
    - split; [intros; cbn; lia|]. split; [auto|]. split; [auto|]. split; [intros; cbn; lia|].
      intros a'. split; [auto|]. intros [H|(ps & H & _)]; [exact H|]. apply elem_of_nil in H. contradiction.
    - specialize (IH (grant V (a, ps))). cbn zeta in IH. destruct IH as (B & N & W & T & D).
      destruct (fold_grant1 a ps V) as (B1 & N1 & W1 & T1 & D1). fold (grant V (a, ps)) in *.
      change (fold_left (grant1 a) ps V) with (grant V (a, ps)) in *. cbn zeta.
      split; [|split; [|split; [|split]]].
      + intros a' id. rewrite B, B1. cbn [allocated]. destruct (decide (a = a')); lia.
      + intros a'. rewrite N. apply N1.
      + auto.
      + intros id. rewrite T, T1. cbn [allocated_total]. lia.
      + intros a'. rewrite D, D1. split.
        * intros [[H|[-> H]]|(ps' & H & H')]; [auto| |].
          -- right. exists ps. split; [left|exact H].
          -- right. exists ps'. split; [right; exact H|exact H'].
        * intros [H|(ps' & H & H')]; [auto|]. apply elem_of_cons in H as [[= -> ->]|H]; [auto|]. right; eauto.
  Qed.
End Genesis.

Section Chain.
  Context (digest : bytes -> hash) (root_of : gmap bytes bytes -> hash) (show : exec_err -> rstring).

  Lemma genesis_run g x :
    fresh x -> committed x = ∅ -> committed_assets x = ∅ ->
    (exists code c qs x1 ctx1, parsed_genesis g code qs /\
       contract_from_code digest code (wrap64 0) CtAsset = Ok c /\
       genesis_body digest g (x, genesis_ctx digest x) = (Ok tt, (x1, ctx1)) /\
       frame x x1 /\ Av x1 = fold_left (grant digest) qs ∅ /\
       Bv x1 = {[ digest (sbytes (x_chain_id x) ++ ca c) := system_asset digest (x_chain_id x) c (gn_system_token g) ]}) \/
    ((forall code qs, ~ parsed_genesis g code qs) /\
     exists e s, genesis_body digest g (x, genesis_ctx digest x) = (Err e, s)).
  Proof.
    intros (F1 & F2 & F3 & F4) HA HB.
    pose proof (hex_decode_no_panic (rs (gt_code (gn_system_token g)))) as N1.
    unfold parsed_genesis.
    destruct (hex_decode (rs (gt_code (gn_system_token g)))) as [code|e|] eqn:E1; [| |congruence].
    2:{ right. split; [intros code qs [? _]; discriminate|].
        unfold genesis_body, lift, bind. rewrite E1. do 2 eexists; reflexivity. }
    destruct (contract_from_code_spec digest code (wrap64 0) CtAsset) as (c & Ec & _ & Ect).
    assert (HAv : Av x = ∅).
    { unfold Av, view, durable. rewrite F1, F2. unfold committed in HA. rewrite HA. rewrite !(left_id_L ∅ (∪)). reflexivity. }
    assert (HBv : Bv x = ∅).
    { unfold Bv, view, durable. rewrite F3, F4. unfold committed_assets in HB. rewrite HB. rewrite !(left_id_L ∅ (∪)). reflexivity. }
    set (ast := system_asset digest (x_chain_id x) c (gn_system_token g)).
    set (id := digest (sbytes (x_chain_id x) ++ ca c)).
    set (x1 := set_bank x (ad_insert (x_bank x) id ast)).
    set (ctx1 := set_cycles (genesis_ctx digest x) (wrap64 2100)).
    assert (HR : register digest c (gt_name (gn_system_token g)) (gt_symbol (gn_system_token g))
                   (u64v (gt_supply (gn_system_token g))) (x, genesis_ctx digest x) = (Ok ast, (x1, ctx1))).
    { unfold register. rewrite decide_True by exact Ect.
      unfold bind, ask_exec, ask_ctx, put_bank, put_cycles, lift, ret, asset_id_of. cbn [fst snd].
      rewrite ad_contains_view. fold (Bv x). rewrite HBv, lookup_empty. reflexivity. }
    assert (HG : genesis_body digest g (x, genesis_ctx digest x) = alloc_all digest (gn_state_alloc g) (x1, ctx1)).
    { unfold genesis_body, lift. unfold bind at 1. rewrite E1. cbn [map_err].
      unfold bind at 1. rewrite Ec. cbn [map_err]. unfold bind at 1. rewrite HR. reflexivity. }
    rewrite HG.
    destruct (alloc_all_spec digest (gn_state_alloc g) x1 ctx1) as [(qs & x2 & Hq & -> & [F B] & A)|(Hn & e & x2 & ->)].
    - left. exists code, c, qs, x2, ctx1. split; [split; [reflexivity|exact Hq]|]. split; [exact Ec|]. split; [reflexivity|].
      split; [eapply frame_trans; [apply frame_set_bank|exact F]|]. split.
      + rewrite A. unfold x1. rewrite Av_set_bank, HAv. reflexivity.
      + unfold Bv. rewrite B. fold (Bv x1). unfold x1. rewrite Bv_set_bank, HBv. reflexivity.
    - right. split; [|do 2 eexists; reflexivity]. intros code' qs [_ H]. eapply Hn; eauto.
  Qed.

  Lemma parsed_assets_fun l (p1 p2 : list (hash * N)) : Forall2 parsed_asset l p1 -> Forall2 parsed_asset l p2 -> p1 = p2.
  Proof.
    intros F1. revert p2. induction F1 as [|g p l ps [Q1 (b & Q2 & Q3)] F1 IH]; intros p2 F2;
      inversion F2 as [|? q ? qs [R1 (b' & R2 & R3)] F2']; subst; [reflexivity|].
    f_equal; [|apply IH; assumption]. destruct p, q; cbn in *. congruence.
  Qed.
  Lemma parsed_allocs_fun l (q1 q2 : list (address * list (hash * N))) :
    Forall2 parsed_alloc l q1 -> Forall2 parsed_alloc l q2 -> q1 = q2.
  Proof.
    intros F1. revert q2. induction F1 as [|g p l ps [Q1 Q2] F1 IH]; intros q2 F2;
      inversion F2 as [|? q ? qs [R1 R2] F2']; subst; [reflexivity|].
    f_equal; [|apply IH; assumption]. destruct p, q; cbn in *. f_equal; [congruence|eapply parsed_assets_fun; eauto].
  Qed.

  Lemma genesis_ok o1 o2 x g code qs :
    order_ok o1 -> order_ok o2 -> fresh x -> committed x = ∅ -> committed_assets x = ∅ ->
    parsed_genesis g code qs ->
    exists c root x', contract_from_code digest code (wrap64 0) CtAsset = Ok c /\
      create_genesis digest root_of o1 o2 x g = Ok (root, x') /\
      fresh x' /\ x_chain_id x' = x_chain_id x /\ wf_accounts (committed x') /\
      x_trie x' = top_after root_of x (committed x') (committed_assets x') /\
      root = root_of (x_trie x') /\
      (forall a id, bal (committed x') a id = allocated a id qs) /\
      (forall id, total id (committed x') = allocated_total id qs) /\
      (forall a, nonce (committed x') a = 0) /\
      (forall a, is_Some (committed x' !! a) <-> exists ps, (a, ps) ∈ qs /\ ps <> []) /\
      committed_assets x' =
        {[ digest (sbytes (x_chain_id x) ++ ca c) := system_asset digest (x_chain_id x) c (gn_system_token g) ]}.
  Proof.
    intros H1 H2 Hf HA HB Hp. destruct (genesis_run g x Hf HA HB) as [(code' & c & qs' & x1 & ctx1 & Hp' & Ec & Hr & F & A & B)|(Hn & _)].
    2:{ exfalso. eapply Hn; eauto. }
    assert (code' = code) as ->. { destruct Hp as [P1 _], Hp' as [P2 _]. congruence. }
    assert (qs' = qs) as ->.
    { destruct Hp as [_ P1], Hp' as [_ P2].
      eapply parsed_allocs_fun; eauto. }
    unfold create_genesis. rewrite Hr.
    destruct (stash_all_spec o1 x1 H1) as (S1 & S2 & S3 & S4 & S5 & S6 & S7 & S8 & S9 & S10 & S11).
    destruct (commit root_of o2 (stash_all o1 x1)) as [root x'] eqn:Ecm.
    destruct (commit_spec root_of _ _ _ _ H2 Ecm) as (C1 & C2 & C3 & C4 & C5 & C6 & C7 & C8 & C9 & C10 & C11 & _).
    exists c, root, x'. split; [exact Ec|]. split; [reflexivity|].
    assert (CA : committed x' = fold_left (grant digest) qs ∅) by congruence.
    split.
    { split; [|split; [exact C6|split; [|exact C7]]].
      - rewrite C8. unfold stash_all. destruct (io_bank_first o1); reflexivity.
      - rewrite C9. unfold stash_all. destruct (io_bank_first o1); reflexivity. }
    split; [rewrite C11, S5; exact (fr_chain _ _ F)|].
    destruct (fold_grant digest qs ∅) as (G1 & G2 & G3 & G4 & G5). cbn zeta in *.
    split; [rewrite CA; apply G3; intros ? ? H; rewrite lookup_empty in H; discriminate|].
    assert (HT : x_trie x' = top_after root_of x (committed x') (committed_assets x')).
    { rewrite C10, C2, C3. unfold top_after. rewrite S9. rewrite (fr_trie _ _ F). reflexivity. }
    split; [exact HT|]. split; [congruence|].
    split; [intros; rewrite CA, G1; unfold bal; rewrite lookup_empty; lia|].
    split; [intros; rewrite CA, G4; unfold total; rewrite map_fold_empty; lia|].
    split; [intros; rewrite CA, G2; unfold nonce; rewrite lookup_empty; reflexivity|].
    split.
    { intros a. rewrite CA, G5. split; [intros [[? H]|H]; [rewrite lookup_empty in H; discriminate|exact H]|auto]. }
    rewrite C3, S4, B. reflexivity.
  Qed.

  Lemma genesis_err o1 o2 x g :
    fresh x -> committed x = ∅ -> committed_assets x = ∅ ->
    (exists e, create_genesis digest root_of o1 o2 x g = Err e) <-> forall code qs, ~ parsed_genesis g code qs.
  Proof.
    intros Hf HA HB. unfold create_genesis.
    destruct (genesis_run g x Hf HA HB) as [(code & c & qs & x1 & ctx1 & Hp & Ec & -> & _)|(Hn & e & s & ->)].
    - split; [intros [e E]; discriminate|intros H; exfalso; eapply H; eauto].
    - split; [auto|]. intros _. destruct s. eauto.
  Qed.

  (** ** Reopening *)

  (** [d] holds [m] under its root. *)
  Definition stored (d : trie_db) (m : gmap bytes bytes) : Prop := d !! root_of m = Some m.

  Lemma stored_commit d m m' : (root_of m' = root_of m -> m' = m) -> stored d m -> stored (<[root_of m' := m']> d) m.
  Proof.
    intros Hc H. unfold stored. destruct (decide (root_of m' = root_of m)) as [E|E].
    - rewrite (Hc E). apply lookup_insert.
    - etransitivity; [apply lookup_insert_ne, E|exact H].
  Qed.
  Lemma stored_new d m : stored (<[root_of m := m]> d) m.
  Proof. apply lookup_insert. Qed.

  Lemma stored_after ms : forall d m, clash_free root_of (m :: ms) -> stored d m -> stored (db_after root_of d ms) m.
  Proof.
    induction ms as [|m' ms IH]; intros d m Hc H; cbn; [auto|].
    apply IH.
    - intros m1 m2 H1 H2. apply Hc; [apply elem_of_cons in H1 as [->|H1]|apply elem_of_cons in H2 as [->|H2]];
        try (left; fail); try (right; right; assumption); left.
    - apply stored_commit; [|exact H]. apply Hc; [right; left|left].
  Qed.

  Lemma clash_sub l l' : (forall m, m ∈ l -> m ∈ l') -> clash_free root_of l' -> clash_free root_of l.
  Proof. intros Hs Hc m1 m2 H1 H2. apply Hc; auto. Qed.

  (** [d] holds the state with top trie [T], accounts [A] and assets [B] under [root]. *)
  Definition holds (d : trie_db) (root : hash) (T : gmap bytes bytes) (A : accounts) (B : assets) : Prop :=
    root = root_of T /\ stored d T /\ stored d (enc_map account_schema A) /\ stored d (enc_map asset_schema B) /\
      T !! ACCOUNT_CONTRACT_ADDRESS = Some (sbytes (root_of (enc_map account_schema A))) /\
      T !! BANK_CONTRACT_ADDRESS = Some (sbytes (root_of (enc_map asset_schema B))).
  Definition tries (T : gmap bytes bytes) (A : accounts) (B : assets) : list (gmap bytes bytes) :=
    [T; enc_map account_schema A; enc_map asset_schema B].

  Lemma holds_after d root T A B ms : clash_free root_of (tries T A B ++ ms) ->
    holds d root T A B -> holds (db_after root_of d ms) root T A B.
  Proof.
    intros Hc (E & H1 & H2 & H3 & H4 & H5).
    assert (Hs : forall m, m ∈ tries T A B -> clash_free root_of (m :: ms)).
    { intros m Hm. eapply clash_sub; [|exact Hc]. intros m' Hm'. apply elem_of_cons in Hm' as [->|Hm'];
        apply elem_of_app; auto. }
    split; [exact E|]. split; [apply stored_after; [apply Hs; left|exact H1]|].
    split; [apply stored_after; [apply Hs; right; left|exact H2]|].
    split; [apply stored_after; [apply Hs; right; right; left|exact H3]|]. auto.
  Qed.

  Lemma commit_holds o x root x' : order_ok o -> commit root_of o x = (root, x') ->
    clash_free root_of (tries_of x') ->
    holds (x_db x') root (x_trie x') (committed x') (committed_assets x').
  Proof.
    intros Ho. rewrite (commit_eq root_of o x Ho). cbn zeta. intros [= <- <-].
    unfold tries_of, committed, committed_assets. cbn [x_trie x_acc x_bank x_db ad_trie].
    set (A := ad_stash (x_acc x) ∪ ad_trie (x_acc x)). set (B := ad_stash (x_bank x) ∪ ad_trie (x_bank x)).
    set (T := top_after root_of x A B). unfold db_of.
    set (eA := enc_map account_schema A). set (eB := enc_map asset_schema B). intros Hc.
    assert (IA : eA ∈ [T; eA; eB]) by (right; left). assert (IB : eB ∈ [T; eA; eB]) by (right; right; left).
    assert (IT : T ∈ [T; eA; eB]) by left.
    set (d := if io_bank_first o then _ else _).
    assert (HA : stored d eA).
    { unfold d. destruct (io_bank_first o); [apply stored_new|apply stored_commit; [apply Hc; assumption|apply stored_new]]. }
    assert (HB : stored d eB).
    { unfold d. destruct (io_bank_first o); [apply stored_commit; [apply Hc; assumption|apply stored_new]|apply stored_new]. }
    split; [reflexivity|]. split; [apply stored_new|].
    split; [apply stored_commit; [apply Hc; assumption|exact HA]|].
    split; [apply stored_commit; [apply Hc; assumption|exact HB]|].
    unfold T, top_after. split; [apply lookup_insert|].
    rewrite lookup_insert_ne by discriminate. apply lookup_insert.
  Qed.

  Lemma from_root_holds chain root d e p cb T A B :
    root_of ∅ = hash_from_empty digest -> clash_free root_of [∅; T] ->
    map_Forall (fun _ v => fits (enc_account v)) A -> map_Forall (fun _ v => fits (enc_asset v)) B ->
    holds d root T A B ->
    from_root digest chain root d e p cb = Ok (MkExec chain e p cb T (ad_new A) (ad_new B) d).
  Proof.
    intros He Hc FA FB (-> & H1 & H2 & H3 & H4 & H5). unfold from_root.
    destruct (decide (root_of T = hash_from_empty digest)) as [E|E].
    - exfalso. assert (X : ∅ = T) by (apply Hc; [left|right; left|congruence]). rewrite <- X, lookup_empty in H4. discriminate.
    - unfold stored in *. unfold trie_from. rewrite H1. cbn [ok_or rbind].
      unfold gen_contract_state. rewrite H4, H5, !hash_from_bytes_ok. cbn [map_err rbind]. unfold trie_from.
      rewrite H2, H3. cbn [ok_or rbind].
      rewrite (dec_enc_map account_schema good_account_schema A FA), (dec_enc_map asset_schema good_asset_schema B FB).
      reflexivity.
  Qed.

  Lemma exec_holds os x ts resp x' : (forall n, order_ok (os n)) ->
    exec digest root_of show os x ts = Ok (resp, x') -> clash_free root_of (tries_of x') ->
    holds (x_db x') (er_state_root resp) (x_trie x') (committed x') (committed_assets x').
  Proof.
    intros Hos. unfold exec.
    destruct (exec_txs digest show (fun n => os (S n)) x ts) as [[rs x1]|e|]; cbn [rbind]; try discriminate.
    destruct (commit root_of (os O) _) as [root x3] eqn:Ec. intros [= <- <-]. cbn [er_state_root].
    exact (commit_holds _ _ _ _ (Hos O) Ec).
  Qed.

  Lemma genesis_holds o1 o2 x g root x' : order_ok o2 ->
    create_genesis digest root_of o1 o2 x g = Ok (root, x') -> clash_free root_of (tries_of x') ->
    holds (x_db x') root (x_trie x') (committed x') (committed_assets x').
  Proof.
    intros Ho. unfold create_genesis.
    destruct (genesis_body digest g (x, genesis_ctx digest x)) as [[u|e|] [x1 c]]; try discriminate.
    intros E. assert (E2 : commit root_of o2 (stash_all o1 x1) = (root, x')) by congruence.
    exact (commit_holds _ _ _ _ Ho E2).
  Qed.

  (** C24 *)
  Lemma reopen d root x' ms chain e p cb :
    root_of ∅ = hash_from_empty digest -> clash_free root_of (∅ :: tries_of x' ++ ms) ->
    holds d root (x_trie x') (committed x') (committed_assets x') -> state_fits x' ->
    exists y, from_root digest chain root (db_after root_of d ms) e p cb = Ok y /\
      fresh y /\ committed y = committed x' /\ committed_assets y = committed_assets x' /\
      x_chain_id y = chain /\ x_epoch_id y = e /\ x_price y = p /\ x_coinbase y = cb.
  Proof.
    intros He Hc H [FA FB].
    assert (H' : holds (db_after root_of d ms) root (x_trie x') (committed x') (committed_assets x')).
    { apply holds_after; [|exact H]. eapply clash_sub; [|exact Hc]. intros m Hm. right. exact Hm. }
    eexists. split; [eapply (from_root_holds chain _ _ e p cb _ _ _ He); [|exact FA|exact FB|exact H']|].
    - eapply clash_sub; [|exact Hc]. intros m Hm. apply elem_of_cons in Hm as [->|Hm]; [left|].
      apply elem_of_list_singleton in Hm as ->. right. left.
    - unfold fresh. cbn. auto 10.
  Qed.
  Lemma clash_tries x' ms : clash_free root_of (∅ :: tries_of x' ++ ms) -> clash_free root_of (tries_of x').
  Proof. apply clash_sub. intros m Hm. right. apply elem_of_app. auto. Qed.

  Lemma reopen_exec os x ts resp x' ms chain e p cb :
    root_of ∅ = hash_from_empty digest -> clash_free root_of (∅ :: tries_of x' ++ ms) -> (forall n, order_ok (os n)) ->
    exec digest root_of show os x ts = Ok (resp, x') -> state_fits x' ->
    exists y, from_root digest chain (er_state_root resp) (db_after root_of (x_db x') ms) e p cb = Ok y /\
      fresh y /\ committed y = committed x' /\ committed_assets y = committed_assets x' /\
      x_chain_id y = chain /\ x_epoch_id y = e /\ x_price y = p /\ x_coinbase y = cb.
  Proof.
    intros He Hc Hos Hx F. eapply reopen; eauto. eapply exec_holds; eauto. eapply clash_tries; eauto.
  Qed.
  Lemma reopen_genesis o1 o2 x g root x' ms chain e p cb :
    root_of ∅ = hash_from_empty digest -> clash_free root_of (∅ :: tries_of x' ++ ms) -> order_ok o2 ->
    create_genesis digest root_of o1 o2 x g = Ok (root, x') -> state_fits x' ->
    exists y, from_root digest chain root (db_after root_of (x_db x') ms) e p cb = Ok y /\
      fresh y /\ committed y = committed x' /\ committed_assets y = committed_assets x' /\
      x_chain_id y = chain /\ x_epoch_id y = e /\ x_price y = p /\ x_coinbase y = cb.
  Proof.
    intros He Hc Hos Hx F. eapply reopen; eauto. eapply genesis_holds; eauto. eapply clash_tries; eauto.
  Qed.

  (** ** Histories *)
  Lemma history_spec g code qs d r l :
    root_of ∅ = hash_from_empty digest -> parsed_genesis g code qs ->
    history digest root_of show g d r l -> clash_free root_of (∅ :: l) ->
    exists T A B, holds d r T A B /\ (forall m, m ∈ tries T A B -> m ∈ l) /\
      map_Forall (fun _ v => fits (enc_account v)) A /\ map_Forall (fun _ v => fits (enc_asset v)) B /\
      wf_accounts A /\ (forall id, total id A = allocated_total id qs) /\
      (exists id ast, B !! id = Some ast /\ as_name ast = gt_name (gn_system_token g) /\
                      as_supply ast = u64v (gt_supply (gn_system_token g))).
  Proof.
    intros He Hp. induction 1 as [x o1 o2 r x' Hf HA HB H1 H2 Hg [FA FB]|d r l m _ IH|d r l chain e p cb x os ts resp x' _ IH Hr Hos Hx [FA FB]];
      intros Hc.
    - assert (H : holds (x_db x') r (x_trie x') (committed x') (committed_assets x')).
      { eapply genesis_holds; eauto. eapply clash_sub; [|exact Hc]. intros; right; assumption. }
      destruct (genesis_ok o1 o2 x g code qs H1 H2 Hf HA HB Hp)
        as (c & root & x'' & _ & Hg' & _ & _ & W & _ & _ & _ & T & _ & _ & A).
      rewrite Hg in Hg'. injection Hg' as <- <-.
      exists (x_trie x'), (committed x'), (committed_assets x'). split; [exact H|]. split; [auto|]. split; [exact FA|]. split; [exact FB|].
      split; [exact W|]. split; [exact T|].
      eexists _, _. split; [rewrite A; apply lookup_singleton|]. split; reflexivity.
    - destruct IH as (T & A & B & H & Hin & R).
      { eapply clash_sub; [|exact Hc]. intros m' Hm. apply elem_of_cons in Hm as [->|Hm]; [left|right; right; exact Hm]. }
      exists T, A, B. split; [|split; [intros m' Hm; right; auto|exact R]].
      apply (holds_after d r T A B [m]); [|exact H]. eapply clash_sub; [|exact Hc].
      intros m' Hm. right. apply elem_of_app in Hm as [Hm|Hm]; [right; auto|].
      apply elem_of_list_singleton in Hm as ->. left.
    - destruct IH as (Tt & A & B & H & Hin & GA & GB & W & T & (id & ast & S1 & S2)).
      { eapply clash_sub; [|exact Hc]. intros m' Hm. apply elem_of_cons in Hm as [->|Hm]; [left|right; apply elem_of_app; auto]. }
      pose proof (from_root_holds chain r d e p cb Tt A B He) as E. rewrite Hr in E.
      assert (E' : x = MkExec chain e p cb Tt (ad_new A) (ad_new B) d).
      { assert (X : Ok x = @Ok exec_err _ (MkExec chain e p cb Tt (ad_new A) (ad_new B) d)); [|congruence].
        apply E; [|exact GA|exact GB|exact H]. eapply clash_sub; [|exact Hc].
        intros m' Hm. apply elem_of_cons in Hm as [->|Hm]; [left|]. apply elem_of_list_singleton in Hm as ->.
        right. apply elem_of_app. right. apply Hin. left. }
      subst x. clear E.
      assert (H' : holds (x_db x') (er_state_root resp) (x_trie x') (committed x') (committed_assets x')).
      { eapply exec_holds; eauto. eapply clash_sub; [|exact Hc]. intros m' Hm. right. apply elem_of_app. auto. }
      assert (Hfr : fresh (MkExec chain e p cb Tt (ad_new A) (ad_new B) d)) by (unfold fresh; cbn; auto).
      exists (x_trie x'), (committed x'), (committed_assets x'). split; [exact H'|].
      split; [intros m' Hm; apply elem_of_app; auto|]. split; [exact FA|]. split; [exact FB|].
      split; [eapply exec_wf; [exact Hos|exact Hfr|exact W|exact Hx]|].
      split; [intros id'; rewrite (exec_total digest root_of show _ _ _ _ _ Hos Hfr W Hx); apply T|].
      exists id, ast. split; [|exact S2].
      exact (exec_assets_kept digest root_of show _ _ _ _ _ _ _ Hos Hfr W Hx S1).
  Qed.

  Lemma history_open g code qs d r l chain e p cb :
    root_of ∅ = hash_from_empty digest -> parsed_genesis g code qs ->
    history digest root_of show g d r l -> clash_free root_of (∅ :: l) ->
    exists y, from_root digest chain r d e p cb = Ok y /\ fresh y /\ wf_accounts (committed y) /\
      (forall id, total id (committed y) = allocated_total id qs) /\
      (exists id ast, committed_assets y !! id = Some ast /\ as_name ast = gt_name (gn_system_token g) /\
                      as_supply ast = u64v (gt_supply (gn_system_token g))).
  Proof.
    intros He Hp Hh Hc. destruct (history_spec g code qs d r l He Hp Hh Hc) as (Tt & A & B & H & Hin & GA & GB & W & T & S).
    eexists. split.
    - eapply (from_root_holds chain _ _ e p cb _ _ _ He); [|exact GA|exact GB|exact H].
      eapply clash_sub; [|exact Hc]. intros m' Hm. apply elem_of_cons in Hm as [->|Hm]; [left|].
      apply elem_of_list_singleton in Hm as ->. right. apply Hin. left.
    - unfold fresh. cbn. auto 10.
  Qed.
End Chain.
