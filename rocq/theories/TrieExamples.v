(** * C104: a history of tries that meets the hypotheses, with Keccak-256 *)
From Verif Require Import Base BaseFacts Types Hex Keccak Rlp Mpt MptExamples StorageSpec TrieSpec PropTrie.
From Coq Require Strings.String. Import String.StringSyntax. Delimit Scope string_scope with string.
Local Open Scope nat_scope.

Lemma bytes_eqb_refl b : bytes_eqb b b = true.
Proof. apply bytes_eqb_eq. reflexivity. Qed.
Definition same_hash (a b : hash) : bool := bytes_eqb (sbytes a) (sbytes b).
Lemma same_hash_neq a b : same_hash a b = false -> a <> b.
Proof. intros H ->. unfold same_hash in H. rewrite bytes_eqb_refl in H. discriminate. Qed.

(** Checks *)
Definition entry_b (k v : bytes) : bool :=
  (N.of_nat (length k) <? 2147483647)%N && negb (length v =? 0) && (N.of_nat (length v) <? 4294967296)%N.
Lemma entry_b_ok k v : entry_b k v = true -> fair_entry k v.
Proof.
  unfold entry_b. intros H. apply andb_true_iff in H as [H H3]. apply andb_true_iff in H as [H1 H2].
  split; [apply N.ltb_lt, H1|]. split; [intros ->; discriminate H2|apply N.ltb_lt, H3].
Qed.
Definition op_b (done : list (gmap bytes bytes)) (s : maps) (o : trie_op) : bool :=
  match o with
  | TInsert _ k v => entry_b k v
  | TFrom r => match mp_kept s !! r with
               | Some _ => true
               | None => forallb (fun d => negb (same_hash (keccak d) r)) (flat_map (parts keccak) done)
               end
  | _ => true
  end.
Lemma op_b_ok done s o : op_b done s o = true -> fair_op keccak done s o.
Proof.
  destruct o as [|r|i k|i k|i k v|i| |i b]; cbn [op_b fair_op]; try (intros _; exact I); [|apply entry_b_ok].
  destruct (mp_kept s !! r) as [m|]; [intros _; left; eauto|]. intros H. right. intros m d Hm Hd.
  rewrite forallb_forall in H. specialize (H d). apply same_hash_neq. apply negb_true_iff. apply H.
  apply in_flat_map. exists m. split; apply elem_of_list_In; assumption.
Qed.
Fixpoint fair_b (done : list (gmap bytes bytes)) (s : maps) (l : list trie_op) : bool :=
  match l with
  | [] => true
  | o :: l => op_b done s o && fair_b (done ++ committed_by s o) (sp_step (mpt_root keccak) s o).2 l
  end.
Lemma fair_b_ok l : forall done s, fair_b done s l = true -> fair keccak done s l.
Proof.
  induction l as [|o l IH]; intros done s H; [exact I|]. cbn [fair_b] in H. apply andb_true_iff in H as [H1 H2].
  split; [apply op_b_ok, H1|apply IH, H2].
Qed.
Definition apart_b (l : list (bytes * bytes)) : bool :=
  forallb (fun a => forallb (fun b => negb (bytes_eqb a.1 b.1) || bytes_eqb a.2 b.2) l) l.
Lemma apart_b_ok l : apart_b (map (fun d => (sbytes (keccak d), d)) l) = true -> no_collision keccak l.
Proof.
  unfold apart_b. intros H a b Ha Hb E. rewrite forallb_forall in H.
  specialize (H (sbytes (keccak a), a)). rewrite forallb_forall in H.
  assert (In (sbytes (keccak a), a) (map (fun d => (sbytes (keccak d), d)) l)) as Ha' by (apply in_map_iff; exists a; split; [reflexivity|apply elem_of_list_In, Ha]).
  assert (In (sbytes (keccak b), b) (map (fun d => (sbytes (keccak d), d)) l)) as Hb' by (apply in_map_iff; exists b; split; [reflexivity|apply elem_of_list_In, Hb]).
  specialize (H Ha' _ Hb'). cbn [fst snd] in H. rewrite E, bytes_eqb_refl in H. cbn [negb orb] in H. apply bytes_eqb_eq, H.
Qed.

Definition long : bytes := asc "a value that is longer than the thirty-two bytes of a hash"%string.
Definition m1 : gmap bytes bytes := list_to_map [(asc "doe"%string, long); (asc "dog"%string, asc "puppy"%string); (asc "dogglesworth"%string, long)].
(** Two tries; the second ends in a crash during its commit; the first is opened
    again by its root, read, changed; another crash, before the batch. *)
Definition story : list trie_op :=
  [TNew; TInsert 0 (asc "dogglesworth"%string) long; TInsert 0 (asc "doe"%string) (asc "x"%string); TInsert 0 (asc "dog"%string) (asc "puppy"%string);
   TInsert 0 (asc "doe"%string) long; TCommit 0;
   TInsert 0 (asc "dog"%string) long; TInsert 0 (asc "horse"%string) (asc "stallion"%string); TCommit 0; TGet 0 (asc "dog"%string);
   TNew; TInsert 1 (asc "do"%string) (asc "verb"%string); TCommitCrash 1 true;
   TFrom (mpt_root keccak m1); TGet 0 (asc "dog"%string); TGet 0 (asc "doe"%string); TContains 0 (asc "horse"%string);
   TFrom (keccak []); TInsert 0 (asc "d"%string) long; TCommitCrash 0 false; TGet 0 (asc "d"%string)].

Definition story_fair_b : bool := fair_b [] maps0 story.
Lemma story_fair_true : story_fair_b = true.
Proof. vm_compute. reflexivity. Qed.
Definition story_apart_b : bool :=
  apart_b (map (fun d => (sbytes (keccak d), d)) (flat_map (parts keccak) (committed_maps (mpt_root keccak) maps0 story))).
Lemma story_apart_true : story_apart_b = true.
Proof. vm_compute. reflexivity. Qed.
Lemma story_fair : fair keccak [] maps0 story.
Proof. exact (fair_b_ok story [] maps0 story_fair_true). Qed.
Lemma story_apart : no_collision keccak (flat_map (parts keccak) (committed_maps (mpt_root keccak) maps0 story)).
Proof. exact (apart_b_ok _ story_apart_true). Qed.
(** Some of the stored nodes are referred to by hash. *)
Definition story_db_size : nat := size (tr_db (tr_run keccak tries0 story).2).
Example story_stores : story_db_size = 11.
Proof. vm_compute. reflexivity. Qed.
Definition out_is (o : option trie_out) (p : trie_out -> bool) : bool := match o with Some x => p x | None => false end.
Definition story_outs_b : bool :=
  let outs := (tr_run keccak tries0 story).1 in
  out_is (outs !! 5) (fun o => match o with ORoot r => same_hash r (mpt_root keccak m1) | _ => false end) &&
  out_is (outs !! 9) (fun o => match o with OVal (Some v) => bytes_eqb v long | _ => false end) &&
  out_is (outs !! 14) (fun o => match o with OVal (Some v) => bytes_eqb v (asc "puppy"%string) | _ => false end) &&
  out_is (outs !! 16) (fun o => match o with OBool false => true | _ => false end) &&
  out_is (outs !! 17) (fun o => match o with OFail => true | _ => false end) &&
  out_is (outs !! 20) (fun o => match o with ONoHandle => true | _ => false end).
Example story_outs : story_outs_b = true.
Proof. vm_compute. reflexivity. Qed.
Lemma story_refines : (tr_run keccak tries0 story).1 = (sp_run (mpt_root keccak) maps0 story).1.
Proof. exact (C104_tries_are_maps keccak story story_fair story_apart). Qed.
