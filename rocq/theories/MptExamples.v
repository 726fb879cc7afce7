(** * The trie model computes the published Ethereum roots *)
From Verif Require Import Base Types Hex Keccak Rlp Mpt.
From Coq Require Strings.String. Import String.StringSyntax. Delimit Scope string_scope with string.
Local Open Scope N_scope.
Definition asc (s : String.string) : bytes := map (fun a => byte_of (Ascii.N_of_ascii a)) (String.list_ascii_of_string s).
Definition root_hex (l : list (bytes * bytes)) : option bytes :=
  option_map (fun n => hash_as_hex (keccak (enc keccak n))) (inserts ∅ l Empty).
Example eth_empty : root_hex [] = Some (asc "56e81f171bcc55a6ff8345e692c0f86e5b48e01b996cadc001622fb5e363b421"%string).
Proof. vm_compute. reflexivity. Qed.
Example eth_dogs : root_hex [(asc "doe"%string, asc "reindeer"%string); (asc "dog"%string, asc "puppy"%string); (asc "dogglesworth"%string, asc "cat"%string)] =
  Some (asc "8aad789dff2f538bca5d8ea56e8abe10f4c7ba3a5dea95fea4cd6e7c3a1168d3"%string).
Proof. vm_compute. reflexivity. Qed.
Example eth_dogs' : root_hex [(asc "dogglesworth"%string, asc "cat"%string); (asc "doe"%string, asc "reindeer"%string); (asc "dog"%string, asc "puppy"%string)] =
  Some (asc "8aad789dff2f538bca5d8ea56e8abe10f4c7ba3a5dea95fea4cd6e7c3a1168d3"%string).
Proof. vm_compute. reflexivity. Qed.
Example eth_single : root_hex [(asc "A"%string, asc "aaaaaaaaaaaaaaaaaaaaaaaaaaaaaaaaaaaaaaaaaaaaaaaaaa"%string)] =
  Some (asc "d23786fb4a010da3ce639d66d5e904a11dbc02746d1ce25029e53290cabf28ab"%string).
Proof. vm_compute. reflexivity. Qed.
