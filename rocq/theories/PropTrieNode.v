(** * C104, continued: the Merkle root in the theorems about whole nodes. *)
From Verif Require Import Base Hex Types FixedCodec StateAdapter Executor ExecSpec Mempool Merkle ConsMsg Proto Wire Storage StorageSpec Consensus ConsSpec LedgerSpec.
From Verif Require Mpt TrieSpec PropTrie.
Local Open Scope N_scope.

(** The theorems about node histories (C29, C90, C99 to C102) ask of the root
    function [root_of] that the empty trie has the well-known root and that it
    does not clash on the tries the history writes ([so_roots]).  Of the model of
    the Merkle Patricia trie this holds as soon as the digest does not collide
    on the encoded nodes. *)
Theorem C104_node_roots (digest : bytes -> hash) (show : exec_err -> rstring) (verify : bytes -> bytes -> bytes -> bool)
    (shapes : nat -> shape) (cf : config) (l : list event) :
  let seen := execs_seen digest (Mpt.mpt_root digest) show verify shapes cf (Down (∅, ∅)) l in
  along digest (Mpt.mpt_root digest) show verify shapes cf orders_ok (Down (∅, ∅)) l ->
  Forall state_fits seen ->
  Forall TrieSpec.fair_map (concat (map tries_of seen)) ->
  no_collision digest (flat_map (TrieSpec.parts digest) (∅ :: concat (map tries_of seen))) ->
  Mpt.mpt_root digest ∅ = hash_from_empty digest /\
  states_ok digest (Mpt.mpt_root digest) show verify shapes cf l.
Proof.
  intros seen Ho Hf Hm Hc. split; [apply PropTrie.C104_empty_root|]. constructor; [exact Ho|exact Hf|].
  apply PropTrie.C104_executor_roots_clash_free; [|exact Hc]. constructor; [|exact Hm].
  intros k v E. rewrite lookup_empty in E. discriminate E.
Qed.
Print Assumptions C104_node_roots.
