(** Model of berts/models/bpe.{hpp,cpp}.

    Strings are represented by their code points (a bpe::str_t that was built
    from valid UTF-8 or from code points is well-formed UTF-16, so comparing,
    concatenating and slicing units and code points agree; see Utf_proofs.v).
    Integer types are unbounded: words have fewer than 2^31 characters. *)
From Verif Require Import Base Assoc.
Open Scope N_scope.

Definition ustring := list N.

Definition pair_eqb (a b : N * N) : bool := (fst a =? fst b) && (snd a =? snd b).

(** bpe.hpp:35,45-57  dropout_: exactly zero, positive, or neither (negative, NaN) *)
Inductive dropout_t := DZero | DPos | DOther.

(** bpe.hpp:22-43  struct bpe *)
Record bpe := mkbpe {
  b_unk : ustring;
  b_dropout : dropout_t;
  b_fuse : bool;
  b_vocab : list (ustring * N);          (* unordered_map<str_t, bert_token_t> *)
  b_vocab_r : list (N * ustring);        (* unordered_map<bert_token_t, str_t> *)
  b_merge : list ((N * N) * (N * N));    (* (id0,id1) -> (rank,new_id) *)
  b_prefix : ustring;                    (* continueing_subword_prefix_ *)
  b_suffix : ustring                     (* end_of_word_suffix_ *)
}.

(** bpe.cpp:108-113  constructor *)
Definition bpe_new (unk : ustring) (d : dropout_t) (fuse : bool) : bpe :=
  mkbpe unk d fuse [] [] [] [] [].

(** bpe.cpp:115-118  clear(): vocab and merge only *)
Definition bpe_clear (b : bpe) : bpe :=
  mkbpe (b_unk b) (b_dropout b) (b_fuse b) [] (b_vocab_r b) [] (b_prefix b) (b_suffix b).

(** bpe.cpp:120-127, 129-136 *)
Definition bpe_id_to_token (b : bpe) (id : N) : option ustring := lookup N.eqb id (b_vocab_r b).
Definition bpe_token_to_id (b : bpe) (t : ustring) : option N := lookup list_N_eqb t (b_vocab b).
Definition bpe_merge (b : bpe) (p : N * N) : option (N * N) := lookup pair_eqb p (b_merge b).

(** bpe.cpp:94-106  slice(str, begin) with the default length *)
Definition slice_from (s : ustring) (n : nat) : ustring := skipn n s.

(** bpe.cpp:146-149  the vocabulary loop of load_vocab *)
Fixpoint load_words (vs : list (ustring * N)) (b : bpe) : bpe :=
  match vs with
  | [] => b
  | (s, id) :: vs' =>
      load_words vs' (mkbpe (b_unk b) (b_dropout b) (b_fuse b)
        (assign list_N_eqb s id (b_vocab b)) (assign N.eqb id s (b_vocab_r b))
        (b_merge b) (b_prefix b) (b_suffix b))
  end.

(** bpe.cpp:181-185  the merged token *)
Definition merged_token (b : bpe) (t0 t1 : ustring) : ustring :=
  match length (b_prefix b) with
  | O => t0 ++ t1
  | n => t0 ++ slice_from t1 n
  end.

(** bpe.cpp:166-195  the merge loop of load_vocab; [rank] = rank_start + index *)
Fixpoint load_merges (rank : N) (ms : list (N * N)) (b : bpe) : bool * bpe :=
  match ms with
  | [] => (true, b)
  | (id0, id1) :: ms' =>
      match bpe_id_to_token b id0 with
      | None => (false, b)
      | Some t0 =>
          match bpe_id_to_token b id1 with
          | None => (false, b)
          | Some t1 =>
              match bpe_token_to_id b (merged_token b t0 t1) with
              | None => (false, b)
              | Some nid =>
                  load_merges (rank + 1) ms'
                    (mkbpe (b_unk b) (b_dropout b) (b_fuse b) (b_vocab b) (b_vocab_r b)
                       (assign pair_eqb (id0, id1) (rank, nid) (b_merge b)) (b_prefix b) (b_suffix b))
              end
          end
      end
  end.

(** bpe.cpp:138-200  load_vocab(vocab, merge ids).  [vs] lists the entries of the
    argument map in iteration order. *)
Definition load_vocab (b : bpe) (vs : list (ustring * N)) (ms : list (N * N)) : bool * bpe :=
  let b1 := load_words vs b in
  load_merges (N.of_nat (length (b_merge b1))) ms b1.

(** bpe.cpp:202-223  load_vocab(vocab, merge tokens) *)
Fixpoint merge_ids (vs : list (ustring * N)) (ts : list (ustring * ustring)) : option (list (N * N)) :=
  match ts with
  | [] => Some []
  | (t0, t1) :: ts' =>
      match lookup list_N_eqb t0 vs, lookup list_N_eqb t1 vs with
      | Some i0, Some i1 => option_map (cons (i0, i1)) (merge_ids vs ts')
      | _, _ => None
      end
  end.

Definition load_vocab_tokens (b : bpe) (vs : list (ustring * N)) (ts : list (ustring * ustring)) : bool * bpe :=
  match merge_ids vs ts with
  | None => (false, b)
  | Some ms => load_vocab b vs ms
  end.

(** ** merge_all *)

(** bpe.cpp:21-32  symbol_t; prev/next are [None] for -1 *)
Record sym := mksym { s_id : N; s_prev : option nat; s_next : option nat; s_len : N }.

(** bpe.cpp:62-74  merge_t *)
Record entry := mkentry { e_index : nat; e_rank : N; e_new : N }.

(** bpe.cpp:67-73  [a < b] in the priority queue order: [b] is popped first *)
Definition entry_lt (a b : entry) : bool :=
  if e_rank a =? e_rank b then Nat.ltb (e_index b) (e_index a) else e_rank b <? e_rank a.

(** std::priority_queue: [pick q] removes some maximal element.  Which one of
    several equivalent elements is unspecified, so [pick] is a parameter. *)
Definition picker := list entry -> option (entry * list entry).

(** bpe.cpp:37-45  word_t::add *)
Definition set_last_next (syms : list sym) (n : nat) : list sym :=
  match rev syms with
  | [] => []
  | s :: r => rev r ++ [mksym (s_id s) (s_prev s) (Some n) (s_len s)]
  end.

Definition word_add (syms : list sym) (id : N) (cp_len : N) : list sym :=
  match syms with
  | [] => [mksym id None None cp_len]
  | _ => let len := length syms in
         set_last_next syms len ++ [mksym id (Some (len - 1)%nat) None cp_len]
  end.

(** bpe.cpp:47-52  word_t::last_is *)
Definition last_is (syms : list sym) (id : N) : bool :=
  match rev syms with [] => false | s :: _ => s_id s =? id end.

Fixpoint set_nth {A} (l : list A) (i : nat) (x : A) : list A :=
  match l, i with
  | [], _ => []
  | _ :: l', O => x :: l'
  | y :: l', S i' => y :: set_nth l' i' x
  end.

(** bpe.cpp:307-317  initial queue *)
Fixpoint init_queue (b : bpe) (i : nat) (syms : list sym) : list entry :=
  match syms with
  | s1 :: ((s2 :: _) as tl) =>
      match bpe_merge b (s_id s1, s_id s2) with
      | Some (rank, nid) => mkentry i rank nid :: init_queue b (S i) tl
      | None => init_queue b (S i) tl
      end
  | _ => []
  end.

(** What one pass of the loop body does after the dropout decision,
    bpe.cpp:346-410.  [q] is the queue after re-inserting the skipped entries. *)
Definition process (b : bpe) (top : entry) (q : list entry) (syms : list sym)
  : outcome (list entry * list sym) :=
  match nth_error syms (e_index top) with
  | None => UB
  | Some s =>
      if s_len s =? 0 then Ok (q, syms)                       (* 348-350 *)
      else match s_next s with
      | None => Ok (q, syms)                                  (* 353-355 *)
      | Some np =>
          match nth_error syms np with
          | None => UB
          | Some r =>
              match bpe_merge b (s_id s, s_id r) with
              | None => Ok (q, syms)                          (* 363-365 *)
              | Some (_, nid) =>
                  if negb (nid =? e_new top) then Ok (q, syms) (* 368-370 *)
                  else
                    (* 374 merge_with, 377 tag the right part *)
                    let s' := mksym (e_new top) (s_prev s) (s_next r) (s_len s + s_len r) in
                    let syms1 := set_nth syms (e_index top) s' in
                    let syms2 := set_nth syms1 np (mksym (s_id r) (s_prev r) (s_next r) 0) in
                    (* 380-382 *)
                    let syms3 :=
                      match s_next r with
                      | Some k => match nth_error syms2 k with
                                  | Some t => set_nth syms2 k (mksym (s_id t) (Some (e_index top)) (s_next t) (s_len t))
                                  | None => syms2
                                  end
                      | None => syms2
                      end in
                    (* 385-396 *)
                    let pushed_prev :=
                      match s_prev s' with
                      | None => Ok []
                      | Some p =>
                          match nth_error syms3 p with
                          | None => UB
                          | Some ps =>
                              match bpe_merge b (s_id ps, s_id s') with
                              | Some (rk, ni) => Ok [mkentry p rk ni]
                              | None => Ok []
                              end
                          end
                      end in
                    (* 399-410 *)
                    let pushed_next :=
                      match s_next s' with
                      | None => []
                      | Some k =>
                          match nth_error syms3 k with
                          | None => []
                          | Some ns =>
                              match bpe_merge b (s_id s', s_id ns) with
                              | Some (rk, ni) => [mkentry (e_index top) rk ni]
                              | None => []
                              end
                          end
                      end in
                    obind pushed_prev (fun pp => Ok (pushed_next ++ pp ++ q, syms3))
              end
          end
      end
  end.

(** bpe.cpp:326-411  the main loop.  [coins k] tells whether the k-th random
    number is below the dropout probability; it is consulted only for a positive
    dropout.  [None]: the fuel ran out. *)
Fixpoint merge_loop (b : bpe) (pick : picker) (fuel : nat) (coins : nat -> bool)
         (q skip : list entry) (syms : list sym) : option (outcome (list sym)) :=
  match fuel with
  | O => None
  | S fuel' =>
      match pick q with
      | None => Some (Ok syms)
      | Some (top, q1) =>
          let dropping := match b_dropout b with DPos => true | _ => false end in
          let coins' := if dropping then (fun k => coins (S k)) else coins in
          if dropping && coins 0%nat
          then merge_loop b pick fuel' coins' q1 (skip ++ [top]) syms
          else match process b top (skip ++ q1) syms with
               | Ok (q2, syms') => merge_loop b pick fuel' coins' q2 [] syms'
               | UB => Some UB
               | Fail => Some Fail
               | Abort => Some Abort
               end
      end
  end.

(** bpe.cpp:414-419  drop the removed symbols *)
Definition compact (syms : list sym) : list sym := filter (fun s => negb (s_len s =? 0)) syms.

(** bpe.cpp:290-422  merge_all *)
Definition merge_all (b : bpe) (pick : picker) (fuel : nat) (coins : nat -> bool) (syms : list sym)
  : option (outcome (list sym)) :=
  match merge_loop b pick fuel coins (init_queue b 0 syms) [] syms with
  | Some (Ok syms') => Some (Ok (compact syms'))
  | r => r
  end.

(** ** merge_word *)

(** bpe.cpp:425-444  the characters with subword prefix and word suffix *)
Definition chars_of (b : bpe) (text : ustring) : list (ustring * N) :=
  let n := length text in
  map (fun '(i, c) =>
         let s0 := [c] in
         let '(s1, l1) := if Nat.eqb i 0 then (s0, 1) else (b_prefix b ++ s0, 1 + N.of_nat (length (b_prefix b))) in
         if Nat.eqb i (n - 1) then (s1 ++ b_suffix b, l1 + N.of_nat (length (b_suffix b))) else (s1, l1))
      (combine (seq 0 n) text).

(** bpe.cpp:448-472 *)
Definition add_char (b : bpe) (syms : list sym) (ch : ustring * N) : list sym :=
  match bpe_token_to_id b (fst ch) with
  | Some id => word_add syms id (snd ch)
  | None =>
      match b_unk b with
      | [] => syms
      | _ =>
          match bpe_token_to_id b (b_unk b) with
          | None => syms
          | Some uid =>
              if negb (b_fuse b) || negb (last_is syms uid)
              then word_add syms uid (snd ch + N.of_nat (length (b_unk b)))
              else syms
          end
      end
  end.

Definition initial_symbols (b : bpe) (text : ustring) : list sym :=
  fold_left (add_char b) (chars_of b text) [].

(** bpe.cpp:424-475 *)
Definition merge_word (b : bpe) (pick : picker) (fuel : nat) (coins : nat -> bool) (text : ustring)
  : option (outcome (list sym)) :=
  merge_all b pick fuel coins (initial_symbols b text).

(** bpe.cpp:477-494  word_to_tokens (the token strings) *)
Definition word_to_tokens (b : bpe) (syms : list sym) : list ustring :=
  map (fun s => match bpe_id_to_token b (s_id s) with Some t => t | None => b_unk b end) syms.

(** ** tokenize_bpe *)

Definition cache_t := list (ustring * list ustring).

(** bpe.cpp:239, 254-262, 278-284  the uncached path: the strings appended *)
Definition tokenize (b : bpe) (pick : picker) (fuel : nat) (coins : nat -> bool) (text : ustring)
  : option (outcome (list ustring)) :=
  match text with
  | [] => Some (Ok [])
  | _ =>
      match merge_word b pick fuel coins text with
      | None => None
      | Some (Ok syms) => Some (Ok (word_to_tokens b syms))
      | Some UB => Some UB
      | Some Fail => Some Fail
      | Some Abort => Some Abort
      end
  end.

(** bpe.cpp:233-288 with a cache: appended strings and the new cache *)
Definition tokenize_cached (b : bpe) (pick : picker) (fuel : nat) (coins : nat -> bool)
           (cache : cache_t) (text : ustring) : option (outcome (list ustring * cache_t)) :=
  match text with
  | [] => Some (Ok ([], cache))
  | _ =>
      let caching := match b_dropout b with DZero => true | _ => false end in
      match (if caching then lookup list_N_eqb text cache else None) with
      | Some cached => Some (Ok (cached, cache))                          (* 243-250 *)
      | None =>
          match merge_word b pick fuel coins text with
          | None => None
          | Some (Ok syms) =>
              let ts := word_to_tokens b syms in
              Some (Ok (ts, if caching then emplace list_N_eqb text ts cache else cache))
          | Some UB => Some UB
          | Some Fail => Some Fail
          | Some Abort => Some Abort
          end
      end
  end.
