(** The assertions of the project's own unit tests that need neither a model file
    nor ICU's tables, evaluated in the model.  They check that the model behaves as
    the authors of the code expect of the code; they are not proofs of properties. *)
From Verif Require Import Base Utf_model Ustr_model Trie_model Bpe_model Bpe_load_proofs Pattern_model.
Local Open Scope N_scope.

(** tests/test_trie.cpp:24-36 *)
Definition rt_vocab : list (list N) :=
  [u "a"; u "b"; u "c"; u "ab"; u "abc"; u "acb"; u "ca"; u "##d"].
Definition rt_trie : trie_node := build_trie rt_vocab.
Definition known (s : list N) : bool := negb (search_trie rt_trie s =? INVALID).
Definition some {A} (o : option A) : bool := match o with Some _ => true | None => false end.

(** tests/test_trie.cpp:44-72  testcase(search_trie) *)
Example rt_search_trie :
  map known [u "a"; u "b"; u "c"; u "d"; u "ab"; u "abc"; u "acb"; u "ca"; u "ac"] =
  [true; true; true; false; true; true; true; true; false].
Proof. reflexivity. Qed.

Definition below (o : option trie_node) (s : list N) : option trie_node :=
  match o with Some n => search_node n s | None => None end.

(** tests/test_trie.cpp:74-110  testcase(search_node) *)
Example rt_search_node :
  let t := Some rt_trie in
  let a := below t (u "a") in let ac := below t (u "ac") in let cont := below t (u "##") in
  map some [below t (u "d"); ac; below t (u "acb"); a; below a (u "d"); below a (u "c"); below a (u "cb");
            below ac (u "b"); below ac (u "c"); cont; below cont (u "d"); below cont (u "a")] =
  [false; true; true; true; false; true; true; true; false; true; true; false].
Proof. reflexivity. Qed.

(** tests/test_trie.cpp:112-125  testcase(search_trie_substr) *)
Example rt_search_trie_substr :
  search_trie_substr rt_trie (u "abcd") = (4, Some (u "abc", u "d")) /\
  match search_node rt_trie (u "##") with
  | Some cont => search_trie_substr cont (u "d") = (7, Some (u "d", []))
  | None => False
  end.
Proof. split; reflexivity. Qed.

(** [fuel] is enough for these words; the queue hands out some maximal entry. *)
Definition rt_tokens (b : bpe) (coins : nat -> bool) (s : list N) := tokenize b pick_max 100 coins s.

(** tests/test_bpe.cpp:25-60, 62-97  tests bpe_tokenize_1 and bpe_tokenize_2 *)
Definition rt_bpe1 (fuse : bool) := load_vocab_tokens (bpe_new (u "<unk>") DZero fuse)
  [(u "<unk>", 0); (u "a", 1); (u "b", 2)] [].
Example rt_unfused :
  fst (rt_bpe1 false) = true /\
  (forall coins, rt_tokens (snd (rt_bpe1 false)) coins (u "c") = Some (Ok [u "<unk>"])) /\
  (forall coins, rt_tokens (snd (rt_bpe1 false)) coins (u "cc") = Some (Ok [u "<unk>"; u "<unk>"])) /\
  (forall coins, rt_tokens (snd (rt_bpe1 false)) coins (u "accb") = Some (Ok [u "a"; u "<unk>"; u "<unk>"; u "b"])).
Proof. repeat split. Qed.
Example rt_fused :
  fst (rt_bpe1 true) = true /\
  (forall coins, rt_tokens (snd (rt_bpe1 true)) coins (u "c") = Some (Ok [u "<unk>"])) /\
  (forall coins, rt_tokens (snd (rt_bpe1 true)) coins (u "cc") = Some (Ok [u "<unk>"])) /\
  (forall coins, rt_tokens (snd (rt_bpe1 true)) coins (u "accb") = Some (Ok [u "a"; u "<unk>"; u "b"])).
Proof. repeat split. Qed.

(** tests/test_bpe.cpp:99-140  test bpe_merge; 142-227 bpe_dropout *)
Definition rt_bpe2 (d : dropout_t) := load_vocab_tokens (bpe_new (u "<unk>") d true)
  (combine [u "u"; u "n"; u "r"; u "e"; u "l"; u "a"; u "t"; u "d"; u "re"; u "at"; u "ed"; u "un"; u "ated"; u "rel"; u "related"; u "unrelated"]
           (map N.of_nat (seq 0 16)))
  [(u "r", u "e"); (u "a", u "t"); (u "e", u "d"); (u "u", u "n"); (u "at", u "ed"); (u "re", u "l"); (u "rel", u "ated"); (u "un", u "related")].
Example rt_merge :
  fst (rt_bpe2 DZero) = true /\
  forall coins, rt_tokens (snd (rt_bpe2 DZero)) coins (u "unrelated") = Some (Ok [u "unrelated"]).
Proof. split; [|intros coins]; vm_compute; reflexivity. Qed.

(** With a dropout of 1 every coin says skip. *)
Example rt_dropout_1 :
  rt_tokens (snd (rt_bpe2 DPos)) (fun _ => true) (u "unrelated") =
  Some (Ok [u "u"; u "n"; u "r"; u "e"; u "l"; u "a"; u "t"; u "e"; u "d"]).
Proof. vm_compute; reflexivity. Qed.

(** tests/test_bpe.cpp:185-226 asserts [r.size() < 9] for a dropout of one half.
    That fails when every coin says skip, which the random numbers allow. *)
Example rt_dropout_2_can_fail :
  exists coins ts, rt_tokens (snd (rt_bpe2 DPos)) coins (u "unrelated") = Some (Ok ts) /\ length ts = 9%nat.
Proof. exists (fun _ => true). eexists. split; [vm_compute; reflexivity|reflexivity]. Qed.

(** tests/test_bpe.cpp:229-249  test bpe_out_of_vocab *)
Example rt_out_of_vocab :
  fst (load_vocab_tokens (bpe_new (u "<unk>") DZero false)
         [(u "a", 0); (u "b", 1); (u "c", 2); (u "ab", 3)] [(u "a", u "b"); (u "a", u "d")]) = false.
Proof. reflexivity. Qed.

(** tests/test_unicode.cpp:13-140  op_eq and op_add: equality and concatenation of
    the UTF-16 strings decoded from UTF-8 *)
Example rt_unicode :
  from_utf8 [0xe3; 0x81; 0x82] = Some [0x3042] /\ from_utf8 [0xe3; 0x81; 0x8b] = Some [0x304b] /\
  from_utf8 ([0xe3; 0x81; 0x82] ++ [0xe3; 0x81; 0x83]) = Some ([0x3042] ++ [0x3043]) /\
  from_utf8 (u "abcabc") = Some (u "abc" ++ u "abc").
Proof. repeat split; vm_compute; reflexivity. Qed.

(** tests/test_uregex.cpp:15-58  regex::test *)
Example rt_uregex_test :
  let yes r s := regex_test (Some r) s in
  map (yes (lit 97)) [u "abc"; u "bac"; u "bcd"] = [true; true; false] /\
  map (yes (Seq Start (lit 97))) [u "abc"; u "bac"; u "bcd"] = [true; false; false] /\
  map (yes (lit 65)) [u "abc"; u "bac"; u "bcd"; u "Abc"; u "bAc"] = [false; false; false; true; true].
Proof. repeat split; vm_compute; reflexivity. Qed.

(** tests/test_uregex.cpp:60-190  regex::split; '.' is any character but a line end *)
Definition rt_split (r : rx) (s : list N) : list (list N) * nat := regex_split s (engine r s).
Definition rt_any : rx := One (fun c => negb (N.eqb c 10)).
Example rt_uregex_split :
  rt_split (lit 97) (u "abc") = ([u "a"; u "bc"], 2%nat) /\
  rt_split (lit 97) (u "bac") = ([u "b"; u "a"; u "c"], 3%nat) /\
  rt_split (lit 97) (u "bca") = ([u "bc"; u "a"], 2%nat) /\
  rt_split (lit 97) (u "bacdaef") = ([u "b"; u "a"; u "cd"; u "a"; u "ef"], 5%nat) /\
  rt_split (lit 97) (u "bcd") = ([u "bcd"], 1%nat) /\
  rt_split (lit 97) (u "bAcdAef") = ([u "bAcdAef"], 1%nat) /\
  rt_split (lit 65) (u "bAcdAef") = ([u "b"; u "A"; u "cd"; u "A"; u "ef"], 5%nat) /\
  rt_split (Seq (lit 97) rt_any) (u "bacdaef") = ([u "b"; u "ac"; u "d"; u "ae"; u "f"], 5%nat) /\
  rt_split (Alt (lit 97) (lit 99)) (u "bacdaef") = ([u "b"; u "a"; u "c"; u "d"; u "a"; u "ef"], 6%nat) /\
  rt_split (Plus (Alt (lit 97) (lit 99))) (u "bacdaef") = ([u "b"; u "ac"; u "d"; u "a"; u "ef"], 5%nat).
Proof. repeat split; vm_compute; reflexivity. Qed.
