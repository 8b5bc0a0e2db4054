(** What the mask filling tool is meant to do. *)
From Verif Require Import Base Api_model Ggml_model Encoder_model Encoder_spec Eval_model Eval_spec Fill_model Tool_spec.

(** [reads s z]: a text that starts with the number [z]: blanks, a sign, digits, anything
    that does not go on with a digit. *)
Definition blank (c : N) : Prop := c = 32%N \/ (9 <= c <= 13)%N.
Inductive sign : list N -> (N -> Z) -> Prop :=
| sign_none : sign [] Z.of_N
| sign_plus : sign [43%N] Z.of_N
| sign_minus : sign [45%N] (fun n => - Z.of_N n)%Z.
Definition no_digit_first (s : list N) : Prop := match s with c :: _ => ~ (48 <= c <= 57)%N | [] => True end.
Definition reads (s : list N) (z : Z) : Prop :=
  exists sp sg f ds n rest, s = sp ++ sg ++ ds ++ rest /\ Forall blank sp /\ sign sg f /\
    digits_are ds n /\ no_digit_first rest /\ z = f n.

(** Fits into an int. *)
Definition is_int (z : Z) : Prop := (-2147483648 <= z <= 2147483647)%Z.

(** The ids of a text with the two special ones around them. *)
Definition token_ids (m : api_model) (text : list N) : outcome (list N) :=
  obind (m_tokenize m text) (fun ids => Ok (m_cls m :: ids ++ [m_sep m])).

(** [mask] occurs in [ids] exactly once, at [pos]. *)
Definition only_at (mask : N) (ids : list N) (pos : nat) : Prop :=
  nth_error ids pos = Some mask /\ forall i, nth_error ids i = Some mask -> i = pos.

(** A prompt the encoder can evaluate: one mask, no more tokens than bytes. *)
Record prepared {V} (P : prim V) (L : lib) (m : opened (V := V)) (words rows : nat) (s : s_model V)
    (prompt ids : list N) (pos : nat) : Prop := {
  rd_count : m_count (op_api m) = N.of_nat (em_vocab_count (op_eval m));
  rd_cls : m_cls (op_api m) <> INVALID;
  rd_sep : m_sep (op_api m) <> INVALID;
  rd_ids : token_ids (op_api m) prompt = Ok ids;
  rd_room : (length ids <= length prompt)%nat;
  rd_mask : only_at (m_mask (op_api m)) ids pos;
  rd_small : Forall (fun t => (t < 4294967296)%N) ids;
  rd_run : runnable P L (op_eval m) words rows s ids (repeat 0%N (length ids)) (mkei (-1) PoolNone)
             (n_layers (em_hp (op_eval m)));
  rd_known : known_tokens words ids;
  rd_rows : enough_rows (em_kind (op_eval m)) rows ids
}.

(** The rest the tool needs: a head, a sort routine, and tokens that fit into its buffer. *)
Record ready {V} (le : V -> V -> Prop) (P : prim V) (L : lib) (m : opened (V := V))
    (sh : s_lm_head V) (act : V -> V) (n : nat) : Prop := {
  rd_lm : lm_sound P (op_eval m) sh act;
  rd_lm_run : lm_runnable L (op_eval m) n;
  rd_sorts : sorts le (p_zero P) (p_argsort P);
  rd_texts : forall id, (id < m_count (op_api m))%N ->
               exists t, m_id_to_token (op_api m) id = Ok t /\ (length t <= 256)%nat
}.

(** Memory for ids holds 32-bit numbers, whatever they are. *)
Definition tokens32 (junk : nat -> N) : Prop := forall i, (junk i < 4294967296)%N.

(** The probabilities at the mask. *)
Definition mask_row {V} (P : prim V) (m : emodel V) (s : s_model V) (sh : s_lm_head V) (act : V -> V)
    (ids : list N) (pos : nat) : list V :=
  nth pos (lm_probs P (ln_eps (em_hp m)) act sh (hidden_dim (em_hp m)) (length ids)
             (answer P m s PoolNone (n_layers (em_hp m)) ids (repeat 0%N (length ids)))) [].

(** The lines: the k best, each with the text of its token filled up to the longest. *)
Record printed {V} (le : V -> V -> Prop) (P : prim V) (a : api_model) (k : nat) (row : list V) (ls : list (line (V := V))) : Prop := {
  pr_best : exists ids, map li_id ls = map N.of_nat ids /\ best le (p_zero P) k row ids (map li_score ls);
  pr_texts : exists w ts, Forall2 (fun l t => m_id_to_token a (li_id l) = Ok t /\
                 li_text l = t ++ repeat 32%N (w - length t)) ls ts /\
               Forall (fun t => (length t <= w)%nat) ts /\ (ts <> [] -> Exists (fun t => length t = w) ts)
}.
