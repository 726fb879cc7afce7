(** * C104: the state trie is a store of maps, and a root identifies its map. *)
From Verif Require Import Base BaseFacts Types Rlp RlpFacts FixedCodec FixedCodecFacts Mpt MptFacts MptDen MptCodec StorageSpec MptStore TrieSpec TrieFacts Executor ExecSpec.
Local Open Scope nat_scope.

Section Sim.
  Context (digest : bytes -> hash).
  Notation root := (mpt_root digest).
  Notation parts := (parts digest).
  Implicit Types (db : gmap hash bytes) (m : gmap bytes bytes) (done : list (gmap bytes bytes)).

  Definition shows db m (n : node) : Prop := exists t, shape digest db t n /\ rep t m /\ fair_map m.
  Record inv done (s : maps) (ts : tries) : Prop := {
    i_addr : addressed digest (tr_db ts);
    i_vals : forall d, d ∈ values (tr_db ts) -> exists m, m ∈ done /\ d ∈ parts m;
    i_done : forall m, m ∈ done -> fair_map m /\ whole digest (tr_db ts) m;
    i_kept : forall r m, mp_kept s !! r = Some m -> r = root m /\ m ∈ done;
    i_open : Forall2 (shows (tr_db ts)) (mp_open s) (tr_open ts) }.

  Lemma shows_mono db db' m n : db ⊆ db' -> shows db m n -> shows db' m n.
  Proof. intros H (t & H1 & H2). exists t. split; [eapply shape_mono; eassumption|exact H2]. Qed.
  Lemma open_none {A B} (R : A -> B -> Prop) l k i : Forall2 R l k -> l !! i = None -> k !! i = None.
  Proof. intros H E. apply lookup_ge_None in E. apply lookup_ge_None. rewrite <- (Forall2_length _ _ _ H). exact E. Qed.

  Lemma in_parts d l : d ∈ flat_map parts l <-> exists m, m ∈ l /\ d ∈ parts m.
  Proof. rewrite elem_of_list_In, in_flat_map. split; intros (m & H1 & H2); exists m; split; apply elem_of_list_In; assumption. Qed.

  (** The commit, for the invariant. *)
  Lemma inv_commit done s ts i m n : inv done s ts -> mp_open s !! i = Some m -> tr_open ts !! i = Some n ->
    no_collision digest (flat_map parts (done ++ [m])) ->
    exists db', tr_commit digest (tr_db ts) n = (root m, db', Some (shallow digest (tree_of m))) /\
      tr_db ts ⊆ db' /\ forall open open', Forall2 (shows db') open open' ->
      inv (done ++ [m]) (MkMaps (<[root m := m]> (mp_kept s)) open) (MkTries db' open').
  Proof.
    intros [H1 H2 H3 H4 H5] Es Et Hc. destruct (Forall2_lookup_lr _ _ _ _ _ _ H5 Es Et) as (t & Hsh & Hr & Hf).
    destruct (commit_rep digest (tr_db ts) n t m Hsh Hr Hf H1) as (db' & E & Hsub & Ha & Hw & Hv).
    { intros a b Ha Hb. apply Hc; apply in_parts; [clear Hb; rename Ha into Hx|clear Ha; rename Hb into Hx];
        (apply elem_of_app in Hx as [Hx|Hx]; [exists m; split; [apply elem_of_app; right; apply elem_of_list_here|exact Hx]|]);
        destruct (H2 _ Hx) as (m' & Hm & Hp); exists m'; (split; [apply elem_of_app; left; exact Hm|exact Hp]). }
    exists db'. split; [exact E|]. split; [exact Hsub|]. intros open open' Ho. constructor; cbn [tr_db mp_kept mp_open tr_open].
    - exact Ha.
    - intros d Hd. destruct (Hv d Hd) as [Hp|Hp].
      + exists m. split; [apply elem_of_app; right; apply elem_of_list_here|exact Hp].
      + destruct (H2 d Hp) as (m' & Hm & Hp'). exists m'. split; [apply elem_of_app; left; exact Hm|exact Hp'].
    - intros m' Hm. apply elem_of_app in Hm as [Hm|Hm].
      + destruct (H3 m' Hm) as [Hf' Hw']. split; [exact Hf'|]. eapply whole_mono; eassumption.
      + apply elem_of_list_singleton in Hm as ->. split; [exact Hf|exact Hw].
    - intros r m' Hm. destruct (decide (root m = r)) as [<-|Hne].
      + rewrite lookup_insert in Hm. injection Hm as <-. split; [reflexivity|]. apply elem_of_app. right. apply elem_of_list_here.
      + rewrite lookup_insert_ne in Hm by exact Hne. destruct (H4 r m' Hm) as [-> Hin]. split; [reflexivity|]. apply elem_of_app. left. exact Hin.
    - exact Ho.
  Qed.

  Lemma inv_step done s ts o : inv done s ts -> fair_op digest done s o ->
    no_collision digest (flat_map parts (done ++ committed_by s o)) ->
    (tr_step digest ts o).1 = (sp_step root s o).1 /\
    inv (done ++ committed_by s o) (sp_step root s o).2 (tr_step digest ts o).2.
  Proof.
    intros Hi Hf Hc. pose proof Hi as [H1 H2 H3 H4 H5].
    assert (committed_by s o = [] -> inv (done ++ committed_by s o) s ts) as Hsame by (intros ->; rewrite app_nil_r; exact Hi).
    destruct o as [|r|i k|i k|i k v|i| |i b]; cbn [sp_step tr_step committed_by] in *.
    - split; [reflexivity|]. rewrite app_nil_r. constructor; cbn [fst snd tr_db mp_kept mp_open tr_open]; try assumption.
      apply Forall2_app; [exact H5|]. constructor; [|constructor]. exists Empty. split; [exact I|]. split; [apply rep_empty|]. intros k v E. rewrite lookup_empty in E. discriminate.
    - rewrite app_nil_r. destruct (mp_kept s !! r) as [m|] eqn:E.
      + destruct (H4 r m E) as [-> Hin]. destruct (H3 m Hin) as [Hfm Hw]. rewrite (whole_from digest _ m Hfm Hw). split; [reflexivity|].
        constructor; cbn [fst snd tr_db mp_kept mp_open tr_open]; try assumption.
        apply Forall2_app; [exact H5|]. constructor; [|constructor]. exists (tree_of m).
        split; [apply whole_shape; assumption|]. split; [apply fair_tree; assumption|exact Hfm].
      + destruct Hf as [[m Hm]|Hn]; [rewrite E in Hm; discriminate|]. unfold tr_from. destruct (tr_db ts !! r) as [d|] eqn:Ed.
        * destruct (H2 d (values_in _ _ _ Ed)) as (m & Hm & Hd). destruct (Hn m d Hm Hd). symmetry. apply H1, Ed.
        * split; [reflexivity|]. exact Hi.
    - rewrite app_nil_r. destruct (mp_open s !! i) as [m|] eqn:E.
      + destruct (Forall2_lookup_l _ _ _ _ _ H5 E) as (n & En & t & Hsh & Hr & _). rewrite En, (get_rep digest _ n t m k Hsh Hr). split; [reflexivity|exact Hi].
      + rewrite (open_none _ _ _ _ H5 E). split; [reflexivity|exact Hi].
    - rewrite app_nil_r. destruct (mp_open s !! i) as [m|] eqn:E.
      + destruct (Forall2_lookup_l _ _ _ _ _ H5 E) as (n & En & t & Hsh & Hr & _). rewrite En. unfold tr_contains.
        rewrite (get_rep digest _ n t m k Hsh Hr). cbn [option_map fst snd]. split; [|exact Hi]. f_equal. destruct (m !! k) as [w|].
        * symmetry. apply bool_decide_eq_true. eauto.
        * symmetry. apply bool_decide_eq_false. intros [w Hw]. discriminate.
      + rewrite (open_none _ _ _ _ H5 E). split; [reflexivity|exact Hi].
    - rewrite app_nil_r. destruct (mp_open s !! i) as [m|] eqn:E.
      + destruct (Forall2_lookup_l _ _ _ _ _ H5 E) as (n & En & t & Hsh & Hr & Hfm). rewrite En.
        destruct (insert_rep digest _ n t m k v Hsh Hr) as (n' & t' & -> & Hsh' & Hr'); [apply Hf|]. split; [reflexivity|].
        constructor; cbn [fst snd tr_db mp_kept mp_open tr_open]; try assumption. apply Forall2_insert; [exact H5|].
        exists t'. split; [exact Hsh'|]. split; [exact Hr'|]. apply map_Forall_insert_2; assumption.
      + rewrite (open_none _ _ _ _ H5 E). split; [reflexivity|exact Hi].
    - destruct (mp_open s !! i) as [m|] eqn:E.
      + destruct (Forall2_lookup_l _ _ _ _ _ H5 E) as (n & En & Hsh). rewrite En.
        destruct (inv_commit done s ts i m n Hi E En Hc) as (db' & -> & Hsub & Hinv). split; [reflexivity|]. cbn [snd]. apply Hinv.
        replace (mp_open s) with (<[i := m]> (mp_open s)) by (apply list_insert_id, E).
        apply Forall2_insert; [eapply Forall2_impl; [exact H5|]; intros; eapply shows_mono; eassumption|].
        destruct Hsh as (t & _ & _ & Hfm). assert (Forall2 (shows db') [] []) as H0 by constructor. specialize (Hinv [] [] H0).
        destruct (i_done _ _ _ Hinv m) as [_ Hw]; [apply elem_of_app; right; apply elem_of_list_here|].
        exists (tree_of m). split; [apply whole_shape; assumption|]. split; [apply fair_tree; assumption|exact Hfm].
      + rewrite (open_none _ _ _ _ H5 E). split; [reflexivity|]. exact (Hsame eq_refl).
    - split; [reflexivity|]. rewrite app_nil_r. constructor; cbn [fst snd tr_db mp_kept mp_open tr_open]; try assumption. constructor.
    - destruct (mp_open s !! i) as [m|] eqn:E.
      + destruct (Forall2_lookup_l _ _ _ _ _ H5 E) as (n & En & Hsh). rewrite En. split; [reflexivity|]. cbn [snd]. destruct b.
        * destruct (inv_commit done s ts i m n Hi E En Hc) as (db' & -> & Hsub & Hinv). apply Hinv. constructor.
        * rewrite app_nil_r. constructor; cbn [fst snd tr_db mp_kept mp_open tr_open]; try assumption. constructor.
      + rewrite (open_none _ _ _ _ H5 E). split; [reflexivity|]. destruct b; exact (Hsame eq_refl).
  Qed.

  Lemma collision_sub l l' : (forall m, m ∈ l -> m ∈ l') -> no_collision digest (flat_map parts l') -> no_collision digest (flat_map parts l).
  Proof.
    intros H Hc a b Ha Hb. apply Hc; apply in_parts; [apply in_parts in Ha as (m & Hm & Hd)|apply in_parts in Hb as (m & Hm & Hd)]; exists m; auto.
  Qed.
  Lemma inv_run l : forall done s ts, inv done s ts -> fair digest done s l ->
    no_collision digest (flat_map parts (done ++ committed_maps root s l)) ->
    (tr_run digest ts l).1 = (sp_run root s l).1 /\
    inv (done ++ committed_maps root s l) (sp_run root s l).2 (tr_run digest ts l).2.
  Proof.
    induction l as [|o l IH]; intros done s ts Hi Hf Hc; cbn [committed_maps] in *; [rewrite app_nil_r in *; split; [reflexivity|exact Hi]|].
    destruct Hf as [Ho Hf]. rewrite app_assoc in Hc |- *.
    destruct (inv_step done s ts o Hi Ho) as [E1 Hi'].
    { eapply collision_sub; [|exact Hc]. intros m Hm. apply elem_of_app. left. exact Hm. }
    specialize (IH _ _ _ Hi' Hf Hc). cbn [sp_run tr_run]. destruct (sp_step root s o) as [r s'], (tr_step digest ts o) as [r' ts']. cbn [fst snd] in *.
    destruct (sp_run root s' l) as [rs s''], (tr_run digest ts' l) as [rs' ts'']. cbn [fst snd] in *. destruct IH as [-> IH].
    rewrite E1. split; [reflexivity|exact IH].
  Qed.
  Lemma inv0 : inv [] maps0 tries0.
  Proof.
    constructor; cbn [tr_db mp_kept mp_open tr_open maps0 tries0].
    - intros h d H. rewrite lookup_empty in H. discriminate.
    - intros d H. unfold values in H. rewrite map_to_list_empty in H. apply elem_of_nil in H as [].
    - intros m H. apply elem_of_nil in H as [].
    - intros r m H. rewrite lookup_empty in H. discriminate.
    - constructor.
  Qed.
End Sim.

(** Whatever is done with the tries of a node, over crashes, every operation
    gives what the maps give; the root a commit gives is a function of the map. *)
Theorem C104_tries_are_maps (digest : bytes -> hash) (l : list trie_op) :
  fair digest [] maps0 l -> no_collision digest (flat_map (parts digest) (committed_maps (mpt_root digest) maps0 l)) ->
  (tr_run digest tries0 l).1 = (sp_run (mpt_root digest) maps0 l).1.
Proof. intros Hf Hc. apply (inv_run digest l [] maps0 tries0 (inv0 digest) Hf Hc). Qed.

(** Every map ever committed can be opened by its root and reads as it was. *)
Theorem C104_committed_stays_readable (digest : bytes -> hash) (l : list trie_op) (m : gmap bytes bytes) :
  fair digest [] maps0 l -> no_collision digest (flat_map (parts digest) (committed_maps (mpt_root digest) maps0 l)) ->
  m ∈ committed_maps (mpt_root digest) maps0 l ->
  exists n, tr_from (mpt_root digest m) (tr_db (tr_run digest tries0 l).2) = Some n /\
    forall k, tr_get (tr_db (tr_run digest tries0 l).2) n k = Some (m !! k).
Proof.
  intros Hf Hc Hm. destruct (inv_run digest l [] maps0 tries0 (inv0 digest) Hf Hc) as [_ Hi].
  destruct (i_done _ _ _ _ Hi m Hm) as [Hfm Hw]. exists (shallow digest (tree_of m)). split; [apply whole_from; assumption|].
  intros k. apply (get_rep digest _ _ (tree_of m)); [apply whole_shape; assumption|apply fair_tree; assumption].
Qed.

(** A root belongs to one map. *)
Theorem C104_root_identifies_map (digest : bytes -> hash) (m1 m2 : gmap bytes bytes) :
  fair_map m1 -> fair_map m2 -> no_collision digest (parts digest m1 ++ parts digest m2) ->
  mpt_root digest m1 = mpt_root digest m2 -> m1 = m2.
Proof. apply root_inj. Qed.

(** The root does not depend on the order, or the number, of the insertions. *)
Theorem C104_root_of_contents (digest : bytes -> hash) (l : list (bytes * bytes)) :
  Forall (fun kv => kv.2 <> []) l ->
  exists n, inserts ∅ l tr_new = Some n /\ (tr_commit digest ∅ n).1.1 = mpt_root digest (list_to_map (rev l)).
Proof.
  intros Hl. destruct (inserts_rep digest ∅ l Empty Empty ∅ I rep_empty Hl) as (n & t & E & Hs & Hr).
  rewrite fold_inserts, (right_id_L ∅ _) in Hr. exists n. split; [exact E|]. cbn [tr_commit fst]. unfold mpt_root. f_equal. f_equal.
  rewrite (den_empty digest t n) by (apply den_self, Hs). eapply rep_unique; [exact Hr|]. apply tree_rep; [exact digest|].
  intros k v Hk. apply elem_of_list_to_map_2 in Hk. rewrite Forall_forall in Hl. apply (Hl (k, v)).
  apply elem_of_list_In, in_rev, elem_of_list_In. exact Hk.
Qed.

(** The root of the empty trie is the root a new chain starts from
    ([Hash::from_empty], protocol/src/types/primitive.rs). *)
Theorem C104_empty_root (digest : bytes -> hash) : mpt_root digest ∅ = hash_from_empty digest.
Proof. unfold mpt_root, tree_of. rewrite map_to_list_empty. reflexivity. Qed.

(** The executor's theorems take the root function as given and assume that
    it has no clash on the tries at hand: it has none unless the digest has. *)
Theorem C104_executor_roots_clash_free (digest : bytes -> hash) (l : list (gmap bytes bytes)) :
  Forall fair_map l -> no_collision digest (flat_map (parts digest) l) -> clash_free (mpt_root digest) l.
Proof.
  intros Hf Hc m1 m2 H1 H2. rewrite Forall_forall in Hf. apply root_inj; [apply Hf, H1|apply Hf, H2|].
  intros a b Ha Hb. apply Hc; apply in_parts; [apply elem_of_app in Ha as [H|H]|apply elem_of_app in Hb as [H|H]]; eauto.
Qed.

(** And the executor's trie database is this store of maps. *)
Theorem C104_executor_database (digest : bytes -> hash) (s : maps) (m : gmap bytes bytes) (i : nat) (r : hash) :
  (mp_open s !! i = Some m ->
     sp_step (mpt_root digest) s (TCommit i) =
     (ORoot (trie_commit (mpt_root digest) m (mp_kept s)).1, MkMaps (trie_commit (mpt_root digest) m (mp_kept s)).2 (mp_open s))) /\
  sp_step (mpt_root digest) s (TFrom r) =
    match trie_from r (mp_kept s) with Ok m' => (ODone, MkMaps (mp_kept s) (mp_open s ++ [m'])) | _ => (OFail, s) end.
Proof.
  split.
  - intros E. cbn [sp_step]. rewrite E. reflexivity.
  - cbn [sp_step]. set (x := mp_kept s !! r). change (trie_from r (mp_kept s)) with (ok_or x EInvalidStateRoot). destruct x; reflexivity.
Qed.

Lemma enc_list_nonempty l : enc_list l <> [].
Proof. unfold enc_list. pose proof (enc_len_nonempty 192 247 (blen (concat l))) as H. destruct (enc_len _ _ _); [congruence|discriminate]. Qed.

(** Accounts and assets as the executor stores them are fair entries, as long
    as they are below 4 GB. *)
Theorem C104_executor_entries (a : address) (v : account) (id : hash) (w : asset) :
  ((N.of_nat (length (enc_account v)) < 4294967296)%N -> fair_entry (enc_address a) (enc_account v)) /\
  ((N.of_nat (length (enc_asset w)) < 4294967296)%N -> fair_entry (enc_hash id) (enc_asset w)).
Proof.
  assert (forall b, length b <= 33 -> (N.of_nat (length (enc_list [enc_str b])) < 2147483647)%N) as Hk.
  { intros b Hb. unfold enc_list. cbn [concat]. rewrite app_nil_r, app_length.
    assert (fits b) as Hf by (apply fits_small; lia). pose proof (enc_str_len b Hf) as Hs.
    assert (blen (enc_str b) < two64)%N as Hf' by (apply fits_small; lia).
    pose proof (enc_len_len 192 247 (blen (enc_str b)) Hf'). lia. }
  split; intros H; (split; [|split; [|exact H]]).
  - unfold enc_address. apply Hk. rewrite address_len. lia.
  - unfold enc_account. destruct v; apply enc_list_nonempty.
  - unfold enc_hash. apply Hk. rewrite sized_len. lia.
  - apply enc_list_nonempty.
Qed.

Print Assumptions C104_tries_are_maps.
Print Assumptions C104_committed_stays_readable.
Print Assumptions C104_root_identifies_map.
Print Assumptions C104_root_of_contents.
Print Assumptions C104_empty_root.
Print Assumptions C104_executor_roots_clash_free.
Print Assumptions C104_executor_database.
Print Assumptions C104_executor_entries.
