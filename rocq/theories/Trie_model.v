(** Model of berts/models/trie.cpp: the prefix tree over UTF-16 units.
    A string ([ustr]) is the list of its 16-bit units; [ustr::empty] is [nil]
    (see Ustr_model.v for the buffer-level model of [ustr]). *)
From Verif Require Import Base.

(** trie.cpp:14-25  struct trie_node { bert_token_t id; unordered_map<unic_t, node_t> children; }.
    The hash map is an association list: only [find] and [emplace] of a new key
    are used, so its order is unobservable. *)
Inductive trie_node : Type := Node (id : N) (children : list (N * trie_node)).

Definition node_id (n : trie_node) : N := match n with Node i _ => i end.
Definition node_children (n : trie_node) := match n with Node _ ch => ch end.

(** unordered_map::find *)
Fixpoint child (c : N) (ch : list (N * trie_node)) : option trie_node :=
  match ch with
  | [] => None
  | (d, n) :: ch' => if N.eqb c d then Some n else child c ch'
  end.

(** store through the node pointer held by the map *)
Fixpoint set_child (c : N) (n : trie_node) (ch : list (N * trie_node)) : list (N * trie_node) :=
  match ch with
  | [] => []
  | (d, m) :: ch' => if N.eqb c d then (d, n) :: ch' else (d, m) :: set_child c n ch'
  end.

(** trie.cpp:18-20  default constructor: id = -1, no children *)
Definition new_node : trie_node := Node INVALID [].

(** trie.cpp:36-52 (the while loop and the final store of add_str).  The loop
    walks down creating nodes; written here as recursion on the string. *)
Fixpoint add_walk (n : trie_node) (s : list N) (id : N) : trie_node :=
  match s with
  | [] => Node id (node_children n)
  | c :: s' =>
      match child c (node_children n) with
      | None => Node (node_id n) ((c, add_walk new_node s' id) :: node_children n)
      | Some m => Node (node_id n) (set_child c (add_walk m s' id) (node_children n))
      end
  end.

(** trie.cpp:33-53  add_str: returns at once on the empty string *)
Definition add_str (n : trie_node) (s : list N) (id : N) : trie_node :=
  match s with [] => n | _ => add_walk n s id end.

(** trie.cpp:55-72  find_node *)
Fixpoint find_walk (n : trie_node) (s : list N) : option trie_node :=
  match s with
  | [] => Some n
  | c :: s' => match child c (node_children n) with
               | None => None
               | Some m => find_walk m s'
               end
  end.

Definition find_node (n : trie_node) (s : list N) : option trie_node :=
  match s with [] => None | _ => find_walk n s end.

(** trie.cpp:74-108  find_substr.  [last] is [last_found], [acc] is [found_]
    (in order); the result is (last_found, found, rest). *)
Fixpoint substr_walk (n : trie_node) (s : list N) (last : option trie_node) (acc : list N)
  : option trie_node * list N * list N :=
  match s with
  | [] => (last, acc, [])
  | c :: s' =>
      match child c (node_children n) with
      | None => (last, acc, s)
      | Some m =>
          substr_walk m s' (if N.eqb (node_id m) INVALID then last else Some m) (acc ++ [c])
      end
  end.

Definition find_substr (n : trie_node) (s : list N) : option trie_node * list N * list N :=
  match s with [] => (None, [], []) | _ => substr_walk n s None [] end.

(** trie.cpp:110-116  build_trie: ids are the positions in the vector.  The
    conversion size_t -> bert_token_t (uint32_t) wraps. *)
Fixpoint add_all (n : trie_node) (vocab : list (list N)) (id : N) : trie_node :=
  match vocab with
  | [] => n
  | s :: vocab' => add_all (add_str n s (id mod 4294967296)) vocab' (id + 1)
  end.

Definition build_trie (vocab : list (list N)) : trie_node := add_all new_node vocab 0.

(** trie.cpp:130-133  search_trie *)
Definition search_trie (t : trie_node) (s : list N) : N :=
  match find_node t s with Some n => node_id n | None => INVALID end.

(** trie.cpp:139-150  search_node *)
Definition search_node (t : trie_node) (s : list N) : option trie_node := find_node t s.

(** trie.cpp:173-184  search_trie_substr: [found] and [rest] are assigned only
    when the id is valid. *)
Definition search_trie_substr (n : trie_node) (s : list N) : N * option (list N * list N) :=
  let '(m, found, rest) := find_substr n s in
  let id := match m with Some m' => node_id m' | None => INVALID end in
  if N.eqb id INVALID then (INVALID, None) else (id, Some (found, rest)).

(** bert.cpp:564-604  wordpiece_tokenize.
    [root] is the loop-carried variable of line 578: it is only reassigned on a
    successful search (line 586), also across words. *)

(** The while loop of lines 581-598 for one word.  Result: None = out of fuel;
    Some (ids, root). *)
Fixpoint wp_word (fuel : nat) (root_node cont_node root : trie_node) (unk : N) (rest : list N)
  : option (list N * trie_node) :=
  match fuel with
  | O => None
  | S fuel' =>
      match rest with
      | [] => Some ([], root)
      | _ =>
          match search_trie_substr root rest with
          | (id, Some (_, rest')) =>
              let root' := match rest' with [] => root_node | _ => cont_node end in
              match wp_word fuel' root_node cont_node root' unk rest' with
              | None => None
              | Some (ids, r) => Some (id :: ids, r)
              end
          | (_, None) => Some ([unk], root)     (* lines 590-596: push unk, break *)
          end
      end
  end.

(** The for loop of lines 579-599. *)
Fixpoint wp_words (root_node cont_node root : trie_node) (unk : N) (words : list (list N))
  : option (list N) :=
  match words with
  | [] => Some []
  | w :: ws =>
      match wp_word (S (length w)) root_node cont_node root unk w with
      | None => None
      | Some (ids, root') =>
          match wp_words root_node cont_node root' unk ws with
          | None => None
          | Some ids' => Some (ids ++ ids')
          end
      end
  end.

(** "##" in UTF-16 *)
Definition cont_prefix : list N := [35; 35]%N.

(** Result of wordpiece_tokenize: [WpNoCont] is the error of lines 571-574
    (returns false, nothing pushed), [WpFuel] marks exhausted fuel. *)
Inductive wp_result := WpOk (ids : list N) | WpNoCont | WpFuel.

Definition wordpiece (vocab : list (list N)) (unk : N) (words : list (list N)) : wp_result :=
  let t := build_trie vocab in
  match search_node t cont_prefix with
  | None => WpNoCont
  | Some cont =>
      match wp_words t cont t unk words with
      | None => WpFuel
      | Some ids => WpOk ids
      end
  end.
