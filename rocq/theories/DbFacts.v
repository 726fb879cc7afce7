(** * The executor over its database does what the executor on maps does. *)
From Verif Require Import Base BaseFacts Hex Types Rlp RlpFacts FixedCodec FixedCodecFacts CodecProps StateAdapter StateAdapterFacts AdapterProps
  Executor ExecSpec ExecutorFacts ExecOrder Mpt MptFacts MptDen MptCodec StorageSpec MptStore TrieSpec TrieFacts PropTrie DbExec.
Local Open Scope N_scope.

(** Below 4 GB. *)
Definition small (v : bytes) : Prop := N.of_nat (length v) < 4294967296.
Lemma small_fits v : small v -> fits v.
Proof. unfold small, fits, blen. change two64 with 18446744073709551616. lia. Qed.

Definition entries_ok {K V} (s : schema K V) : Prop := forall k v, small (sc_eval s v) -> fair_entry (sc_ekey s k) (sc_eval s v).
Definition hash0 : hash := @Sized 32%nat (repeat x00 32) eq_refl.
Definition asset0 : asset := MkAsset hash0 ST ST 0 (CA (x20 :: repeat x00 20) eq_refl) hash0.
Lemma account_entries : entries_ok account_schema.
Proof. intros k v H. exact (proj1 (C104_executor_entries k v hash0 asset0) H). Qed.
Lemma asset_entries : entries_ok asset_schema.
Proof. intros k v H. exact (proj2 (C104_executor_entries (AContract (as_manage_contract v)) (AccUser (MkUserAccount (wrap64 0) ∅)) k v) H). Qed.

(** The iteration orders list the map. *)
Definition dorder_ok (o : dorder) : Prop :=
  (forall m, do_acc o m ≡ₚ map_to_list m) /\ (forall m, do_bank o m ≡ₚ map_to_list m).

Section Adapters.
  Context (digest : bytes -> hash).
  Notation shows := (shows digest).
  Notation root := (mpt_root digest).
  Notation parts := (parts digest).
  Context {K V : Type} `{Countable K} (s : schema K V) (Hs : good_schema s) (He : entries_ok s).
  Implicit Types (db : gmap hash bytes) (a : adapter K V) (da : dadapter).

  Definition Rad db a da : Prop := exists bt, shows db bt (da_trie da) /\
    sim s a (MkBAdapter bt (da_cache da) (da_stash da)) /\ fair_map (da_cache da) /\ fair_map (da_stash da).

  Lemma rad_mono db db' a da : db ⊆ db' -> Rad db a da -> Rad db' a da.
  Proof. intros Hsub (bt & H1 & H2). exists bt. split; [eapply shows_mono; eassumption|exact H2]. Qed.
  Lemma rad_get db a da k : Rad db a da -> da_get s db da k = Ok (ad_get a k).
  Proof.
    intros (bt & (t & Hsh & Hr & _) & Hsim & _). pose proof (sim_get s Hs _ _ k Hsim) as E.
    unfold ba_get in E. cbn [ba_cache ba_stash ba_trie] in E. unfold da_get, da_decode.
    destruct (da_cache da !! sc_ekey s k) as [v|]; [rewrite E; reflexivity|].
    destruct (da_stash da !! sc_ekey s k) as [v|]; [rewrite E; reflexivity|].
    rewrite (get_rep digest db _ t bt _ Hsh Hr). destruct (bt !! sc_ekey s k) as [v|]; [rewrite E; reflexivity|]. congruence.
  Qed.
  Lemma rad_contains db a da k : Rad db a da -> da_contains s db da k = Ok (ad_contains a k).
  Proof.
    intros (bt & (t & Hsh & Hr & _) & Hsim & _). pose proof (sim_contains s _ _ k Hsim) as E.
    unfold ba_contains in E. cbn [ba_cache ba_stash ba_trie] in E. unfold da_contains. rewrite <- E.
    destruct (da_cache da !! sc_ekey s k) as [v|]; [reflexivity|].
    destruct (da_stash da !! sc_ekey s k) as [v|]; [reflexivity|].
    unfold tr_contains. rewrite (get_rep digest db _ t bt _ Hsh Hr). destruct (bt !! sc_ekey s k); reflexivity.
  Qed.
  Lemma rad_insert db a da k v : Rad db a da -> small (sc_eval s v) -> Rad db (ad_insert a k v) (da_insert s da k v).
  Proof.
    intros (bt & Hb & Hsim & Hc & Hst) Hv. exists bt. split; [exact Hb|]. split; [|split; [|exact Hst]].
    - exact (sim_insert s Hs _ _ k v Hsim (small_fits _ Hv)).
    - apply map_Forall_insert_2; [apply He, Hv|exact Hc].
  Qed.
  Lemma fair_empty : fair_map ∅.
  Proof. intros k v E. rewrite lookup_empty in E. discriminate. Qed.
  Lemma rad_revert db a da : Rad db a da -> Rad db (ad_revert a) (da_revert da).
  Proof.
    intros (bt & Hb & Hsim & Hc & Hst). exists bt. split; [exact Hb|]. split; [|split; [apply fair_empty|exact Hst]].
    exact (sim_revert s _ _ Hsim).
  Qed.
  Lemma fair_union m1 m2 : fair_map m1 -> fair_map m2 -> fair_map (m1 ∪ m2).
  Proof. intros H1 H2 k v E. apply lookup_union_Some_raw in E as [E|[_ E]]; [exact (H1 k v E)|exact (H2 k v E)]. Qed.
  Lemma rad_stash db a da l lb : Rad db a da -> l ≡ₚ map_to_list (ad_cache a) -> lb ≡ₚ map_to_list (da_cache da) ->
    Rad db (ad_stash_op l a) (da_stash_op lb da).
  Proof.
    intros (bt & Hb & Hsim & Hc & Hst) Hl Hlb. exists bt. split; [exact Hb|]. split; [exact (sim_stash s _ _ l lb Hsim Hl Hlb)|].
    split; [apply fair_empty|]. cbn [da_stash_op da_stash]. rewrite (insert_all_perm _ _ _ Hlb). apply fair_union; assumption.
  Qed.
  Lemma shows_fair db m n : shows db m n -> fair_map m.
  Proof. intros (t & _ & _ & H0). exact H0. Qed.
  Lemma rad_new db m n : shows db (enc_map s m) n -> map_Forall (fun _ v => fits (sc_eval s v)) m -> Rad db (ad_new m) (da_new n).
  Proof.
    intros Hb Hm. exists (enc_map s m). split; [exact Hb|]. split; [|split; apply fair_empty].
    exact (sim_new s _ _ (image_enc_map s Hs m Hm)).
  Qed.

  (** Committing one adapter. *)
  Lemma rad_commit db a da lb : Rad db a da -> lb ≡ₚ map_to_list (da_stash da) -> addressed digest db ->
    let A := ad_stash a ∪ ad_trie a in
    no_collision digest (parts (enc_map s A) ++ values db) ->
    exists db' da', da_commit digest db lb da = Some (root (enc_map s A), db', da') /\
      db ⊆ db' /\ addressed digest db' /\ (forall d, d ∈ values db' -> d ∈ parts (enc_map s A) \/ d ∈ values db) /\
      whole digest db' (enc_map s A) /\ fair_map (enc_map s A) /\ map_Forall (fun _ v => fits (sc_eval s v)) A /\
      Rad db' (MkAdapter A (ad_cache a) ∅) da'.
  Proof.
    intros (bt & (t & Hsh & Hr & Hfb) & Hsim & Hc & Hst) Hlb Ha A Hnc. unfold da_commit.
    destruct (inserts_rep digest db lb _ t bt Hsh Hr) as (n & t' & -> & Hsh' & Hr').
    { apply Forall_forall. intros [k v] Hkv. rewrite Hlb in Hkv. apply elem_of_map_to_list in Hkv. exact (proj1 (proj2 (Hst k v Hkv))). }
    change (fold_left _ lb bt) with (insert_all lb bt) in Hr'. rewrite (insert_all_perm _ _ _ Hlb) in Hr'.
    destruct Hsim as (IT & IC & IS). cbn [ba_trie ba_cache ba_stash] in *. pose proof (image_union s _ _ _ _ IS IT) as IA. fold A in IA.
    assert (map_Forall (fun _ v => fits (sc_eval s v)) A) as HA by exact (proj2 (proj2 IA)).
    assert (da_stash da ∪ bt = enc_map s A) as E by (eapply image_det; [exact IA|exact (image_enc_map s Hs A HA)]).
    assert (fair_map (enc_map s A)) as Hf by (rewrite <- E; apply fair_union; assumption). rewrite E in Hr'.
    destruct (commit_rep digest db n t' _ Hsh' Hr' Hf Ha Hnc) as (db' & -> & Hsub & Ha' & Hw & Hv).
    exists db', (DAdapter (shallow digest (tree_of (enc_map s A))) (da_cache da) ∅). split; [reflexivity|].
    split; [exact Hsub|]. split; [exact Ha'|]. split; [exact Hv|]. split; [exact Hw|]. split; [exact Hf|]. split; [exact HA|].
    exists (enc_map s A). cbn [da_trie da_cache da_stash]. split; [|split; [|split; [exact Hc|apply fair_empty]]].
    - exists (tree_of (enc_map s A)). split; [apply whole_shape; assumption|]. split; [apply fair_tree; assumption|exact Hf].
    - split; [exact (image_enc_map s Hs A HA)|]. split; [exact IC|apply image_empty].
  Qed.
End Adapters.

Section Monad.
  Context (digest : bytes -> hash) (show : exec_err -> rstring).
  Notation shows := (shows digest).
  Notation root := (mpt_root digest).
  Notation parts := (parts digest).

  Record R (x : executor) (d : dexec) : Prop := {
    r_chain : dx_chain_id d = x_chain_id x;
    r_epoch : dx_epoch_id d = x_epoch_id x;
    r_price : dx_price d = x_price x;
    r_coin : dx_coinbase d = x_coinbase x;
    r_top : shows (dx_db d) (x_trie x) (dx_top d);
    r_acc : Rad digest account_schema (dx_db d) (x_acc x) (dx_acc d);
    r_bank : Rad digest asset_schema (dx_db d) (x_bank x) (dx_bank d) }.

  Definition extends (d d' : dexec) : Prop := exists l, dx_log d' = dx_log d ++ l.
  Lemma extends_refl d : extends d d.
  Proof. exists []. rewrite app_nil_r. reflexivity. Qed.
  Lemma extends_trans d1 d2 d3 : extends d1 d2 -> extends d2 d3 -> extends d1 d3.
  Proof. intros [l1 E1] [l2 E2]. exists (l1 ++ l2). rewrite E2, E1, app_assoc. reflexivity. Qed.
  Definition quiet (d : dexec) : Prop := forall v, v ∈ dx_log d -> small v.
  Lemma quiet_back d d' : extends d d' -> quiet d' -> quiet d.
  Proof. intros [l E] H v Hv. apply H. rewrite E. apply elem_of_app. left. exact Hv. Qed.

  (** [m] on maps and [n] on the database do the same. *)
  Definition same {A} (m : M A) (n : DM A) : Prop :=
    (forall s, extends s.1 (n s).2.1 /\ dx_db (n s).2.1 = dx_db s.1) /\
    forall x d c, R x d -> quiet (n (d, c)).2.1 ->
      (m (x, c)).1 = (n (d, c)).1 /\ (m (x, c)).2.2 = (n (d, c)).2.2 /\ R (m (x, c)).2.1 (n (d, c)).2.1.

  Lemma same_bind {A B} (m : M A) (n : DM A) (k : A -> M B) (h : A -> DM B) :
    same m n -> (forall a, same (k a) (h a)) -> same (bind m k) (dbind n h).
  Proof.
    intros [G1 S1] Hk. split.
    - intros s0. unfold dbind. destruct (G1 s0) as [E1 D1]. destruct (n s0) as [[a|e|] s1]; cbn [fst snd] in *; try (split; assumption).
      destruct (Hk a) as [G2 _]. destruct (G2 s1) as [E2 D2]. split; [eapply extends_trans; eassumption|congruence].
    - intros x d c HR Hq. unfold bind, dbind in *. specialize (S1 x d c HR).
      destruct (m (x, c)) as [r [x1 c1]], (n (d, c)) as [r' [d1 c1']] eqn:En. cbn [fst snd] in *.
      destruct r' as [a|e|]; cbn [fst snd] in Hq.
      + destruct (Hk a) as [G2 S2]. destruct (G2 (d1, c1')) as [E2 _]. cbn [fst] in E2.
        destruct (S1 (quiet_back _ _ E2 Hq)) as (-> & -> & HR1). exact (S2 x1 d1 c1' HR1 Hq).
      + destruct (S1 Hq) as (-> & -> & HR1). cbn [fst snd]. auto.
      + destruct (S1 Hq) as (-> & -> & HR1). cbn [fst snd]. auto.
  Qed.
  Lemma same_lift {A} (r : res exec_err A) : same (lift r) (dlift r).
  Proof. split; [intros s0; split; [apply extends_refl|reflexivity]|]. intros x d c HR _. auto. Qed.
  Lemma same_ret {A} (a : A) : same (ret a) (dret a).
  Proof. split; [intros s0; split; [apply extends_refl|reflexivity]|]. intros x d c HR _. auto. Qed.
  Lemma same_ctx : same ask_ctx dctx.
  Proof. split; [intros s0; split; [apply extends_refl|reflexivity]|]. intros x d c HR _. auto. Qed.
  Lemma same_cycles n : same (put_cycles n) (dcycles n).
  Proof. split; [intros s0; split; [apply extends_refl|reflexivity]|]. intros x d c HR _. auto. Qed.
  Lemma same_read_account {B} a (k : option account -> M B) (h : option account -> DM B) :
    (forall o, same (k o) (h o)) -> same (bind ask_exec (fun x => k (ad_get (x_acc x) a))) (dbind (d_read_account a) h).
  Proof.
    intros Hk. split.
    - intros [d c]. unfold dbind, d_read_account, dask, dlift. unfold dbind. cbn [fst snd].
      destruct (da_get account_schema (dx_db d) (dx_acc d) a) as [o|e|]; [apply (Hk o)| |]; (split; [apply extends_refl|reflexivity]).
    - intros x d c HR. unfold bind, dbind, d_read_account, dask, ask_exec, dlift. unfold dbind. cbn [fst snd].
      rewrite (rad_get digest account_schema good_account_schema _ _ _ a (r_acc _ _ HR)). apply (Hk (ad_get (x_acc x) a)). exact HR.
  Qed.
  Lemma same_insert_account a acc : same (insert_account a acc) (d_insert_account a acc).
  Proof.
    split; [intros [d c]; split; [exists [enc_account acc]; reflexivity|reflexivity]|].
    intros x d c HR Hq. unfold insert_account, bind, ask_exec, put_acc. cbn [fst snd d_insert_account] in *. split; [reflexivity|]. split; [reflexivity|].
    assert (small (enc_account acc)) as Hsm by (apply Hq; cbn [dx_log dset_acc]; apply elem_of_app; right; apply elem_of_list_here).
    destruct HR. constructor; cbn [dset_acc set_acc dx_chain_id dx_epoch_id dx_price dx_coinbase dx_top dx_acc dx_bank dx_db x_chain_id x_epoch_id x_price x_coinbase x_trie x_acc x_bank]; try assumption.
    exact (rad_insert digest account_schema good_account_schema account_entries _ _ _ a acc r_acc0 Hsm).
  Qed.
  Lemma same_insert_asset id v : same (bind ask_exec (fun x => put_bank (ad_insert (x_bank x) id v))) (d_insert_asset id v).
  Proof.
    split; [intros [d c]; split; [exists [enc_asset v]; reflexivity|reflexivity]|].
    intros x d c HR Hq. unfold bind, ask_exec, put_bank. cbn [fst snd d_insert_asset] in *. split; [reflexivity|]. split; [reflexivity|].
    assert (small (enc_asset v)) as Hsm by (apply Hq; cbn [dx_log dset_bank]; apply elem_of_app; right; apply elem_of_list_here).
    destruct HR. constructor; cbn [dset_bank set_bank dx_chain_id dx_epoch_id dx_price dx_coinbase dx_top dx_acc dx_bank dx_db x_chain_id x_epoch_id x_price x_coinbase x_trie x_acc x_bank]; try assumption.
    exact (rad_insert digest asset_schema good_asset_schema asset_entries _ _ _ id v r_bank0 Hsm).
  Qed.

  (** Function by function. *)
  Lemma same_find a : same (find_or_create digest a) (d_find_or_create digest a).
  Proof.
    apply (same_read_account a (fun o => ret (match o with Some acc => acc | None => new_account digest a end))). intros o. apply same_ret.
  Qed.
  Lemma same_add id a n : same (add_balance digest id a n) (d_add_balance digest id a n).
  Proof. apply same_bind; [apply same_find|]. intros acc. apply same_insert_account. Qed.
  Lemma same_sub id a n : same (sub_balance digest id a n) (d_sub_balance digest id a n).
  Proof. apply same_bind; [apply same_find|]. intros acc. apply same_bind; [apply same_lift|]. intros acc'. apply same_insert_account. Qed.
  Lemma same_get_account a : same (get_account a) (d_get_account a).
  Proof. apply (same_read_account a (fun o => lift (ok_or o (EAccountNotFound a)))). intros o. apply same_lift. Qed.
  Lemma same_get_balance id a : same (get_balance id a) (d_get_balance id a).
  Proof. apply same_bind; [apply same_get_account|]. intros acc. apply same_ret. Qed.
  Lemma same_get_nonce a : same (get_nonce a) (d_get_nonce a).
  Proof. apply same_bind; [apply same_get_account|]. intros acc. apply same_ret. Qed.
  Lemma same_inc_nonce : same inc_nonce d_inc_nonce.
  Proof. apply same_bind; [apply same_ctx|]. intros c. apply same_bind; [apply same_get_account|]. intros acc. apply same_insert_account. Qed.
  Lemma same_transfer to : same (transfer digest to) (d_transfer digest to).
  Proof.
    apply same_bind; [apply same_ctx|]. intros c. apply same_bind; [apply same_lift|]. intros carry.
    apply same_bind; [apply same_sub|]. intros _. apply same_bind; [apply same_add|]. intros _.
    apply same_bind; [apply same_lift|]. intros n. apply same_cycles.
  Qed.
  Lemma same_ask {B} (k : executor -> M B) (h : dexec -> DM B) :
    (forall x d c, R x d -> quiet (h d (d, c)).2.1 ->
       (k x (x, c)).1 = (h d (d, c)).1 /\ (k x (x, c)).2.2 = (h d (d, c)).2.2 /\ R (k x (x, c)).2.1 (h d (d, c)).2.1) ->
    (forall d s0, extends s0.1 (h d s0).2.1 /\ dx_db (h d s0).2.1 = dx_db s0.1) ->
    same (bind ask_exec k) (dbind dask h).
  Proof. intros H1 H2. split; [intros s0; apply (H2 s0.1 s0)|]. intros x d c HR Hq. apply (H1 x d c HR Hq). Qed.
  Lemma same_register c name symbol supply : same (register digest c name symbol supply) (d_register digest c name symbol supply).
  Proof.
    unfold register, d_register. destruct (decide (contract_type_of c = CtAsset)); [|apply same_lift].
    set (tail := fun (id : hash) (ast : asset) => bind (bind ask_exec (fun x => put_bank (ad_insert (x_bank x) id ast)))
      (fun _ => bind ask_ctx (fun ctx => bind (lift (consume_cycles BankRegister (ic_cycles_used ctx) (ic_cycles_limit ctx)))
        (fun n => bind (put_cycles n) (fun _ => ret ast))))).
    set (dtail := fun (id : hash) (ast : asset) => dbind (d_insert_asset id ast)
      (fun _ => dbind dctx (fun ctx => dbind (dlift (consume_cycles BankRegister (ic_cycles_used ctx) (ic_cycles_limit ctx)))
        (fun n => dbind (dcycles n) (fun _ => dret ast))))).
    assert (forall id ast, same (tail id ast) (dtail id ast)) as Ht.
    { intros id ast. apply same_bind; [apply same_insert_asset|]. intros _. apply same_bind; [apply same_ctx|]. intros ctx.
      apply same_bind; [apply same_lift|]. intros n. apply same_bind; [apply same_cycles|]. intros _. apply same_ret. }
    apply same_ask.
    - intros x d ctx HR. unfold dbind at 1 2 3 4, dlift at 1 2 3 4. cbn [fst snd]. rewrite (r_chain _ _ HR).
      rewrite (rad_contains digest asset_schema _ _ _ _ (r_bank _ _ HR)). cbn iota.
      destruct (ad_contains (x_bank x) (asset_id_of digest (x_chain_id x) c)).
      + intros _. split; [reflexivity|]. split; [reflexivity|exact HR].
      + apply (Ht _ _). exact HR.
    - intros d s0. unfold dbind at 1 3, dlift at 1 3. destruct (da_contains asset_schema (dx_db d) (dx_bank d) (asset_id_of digest (dx_chain_id d) c)) as [[]|err|].
      + split; [apply extends_refl|reflexivity].
      + apply (Ht _ _).
      + split; [apply extends_refl|reflexivity].
      + split; [apply extends_refl|reflexivity].
  Qed.
  Lemma same_get_asset id : same (get_asset id) (d_get_asset id).
  Proof.
    apply same_ask.
    - intros x d c HR _. unfold dbind, dlift. rewrite (rad_get digest asset_schema good_asset_schema _ _ _ id (r_bank _ _ HR)).
      split; [reflexivity|]. split; [reflexivity|exact HR].
    - intros d s0. unfold dbind, dlift. destruct (da_get asset_schema (dx_db d) (dx_bank d) id); (split; [apply extends_refl|reflexivity]).
  Qed.
  Lemma same_handle_transfer to : same (handle_transfer digest to) (d_handle_transfer digest to).
  Proof.
    apply same_bind; [apply same_ctx|]. intros c. destruct (ic_carrying c) as [carry|]; [|apply same_lift].
    apply same_bind; [apply same_get_asset|]. intros _. apply same_bind; [apply same_get_balance|]. intros before.
    apply same_bind; [apply same_transfer|]. intros _. apply same_bind; [apply same_get_balance|]. intros after.
    apply same_bind; [apply same_lift|]. intros receiver. apply same_ret.
  Qed.
  Lemma same_handle_deploy code t : same (handle_deploy digest code t) (d_handle_deploy digest code t).
  Proof.
    destruct t; try apply same_lift. apply same_bind; [apply same_ctx|]. intros c. apply same_bind; [apply same_get_nonce|]. intros nn.
    apply same_bind; [apply same_lift|]. intros addr. apply same_bind; [apply same_register|]. intros _. apply same_ret.
  Qed.
  Lemma same_dispatch t : same (dispatch digest t) (d_dispatch digest t).
  Proof.
    unfold dispatch, d_dispatch. destruct (rt_action (st_raw t)); try apply same_lift; [apply same_handle_transfer|apply same_handle_deploy].
  Qed.
  Lemma same_alloc_assets a l : same (alloc_assets digest a l) (d_alloc_assets digest a l).
  Proof.
    induction l as [|g l IH]; [apply same_ret|]. apply same_bind; [|intros _; exact IH].
    apply same_bind; [apply same_lift|]. intros id. apply same_bind; [apply same_lift|]. intros b. apply same_add.
  Qed.
  Lemma same_alloc_all l : same (alloc_all digest l) (d_alloc_all digest l).
  Proof.
    induction l as [|g l IH]; [apply same_ret|]. apply same_bind; [apply same_lift|]. intros a.
    apply same_bind; [apply same_find|]. intros _. apply same_bind; [apply same_alloc_assets|]. intros _. exact IH.
  Qed.
  Lemma same_genesis g : same (genesis_body digest g) (d_genesis_body digest g).
  Proof.
    apply same_bind; [apply same_lift|]. intros code. apply same_bind; [apply same_lift|]. intros addr.
    apply same_bind; [apply same_register|]. intros _. apply same_alloc_all.
  Qed.
End Monad.
