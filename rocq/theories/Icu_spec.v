(** What programs over strings observe, without buffers, sizes and two-step calls. *)
From Verif Require Import Base Utf_model Ustr_model Ustr_spec Icu_model.
Local Open Scope nat_scope.

(** The text a string object holds: some units, a text that was never set, or units that were
    never written. *)
Inductive content := Units (l : list N) | Unset | Garbage.

(** Its condition: fine, spoilt by an error, or spoilt by the report that a text does not fit. *)
Inductive condition := Fine | Spoilt | Unfit.

Record value := mkval { v_text : content; v_cond : condition }.

Definition known (c : content) : outcome (list N) := match c with Units l => Ok l | _ => UB end.

Definition text_of (r : option (list N)) : value :=
  match r with Some l => mkval (Units l) Fine | None => mkval Unset Spoilt end.

(** A copy of a string that was never set is empty. *)
Definition copy_of (v : value) : outcome value :=
  match v_text v with
  | Unset => Ok (mkval (Units []) (v_cond v))
  | c => obind (known c) (fun l => Ok (mkval (Units l) (v_cond v)))
  end.

(** The UTF-8 text of a string, and its condition afterwards. *)
Definition encoded (v : value) : outcome (list N * value) :=
  match v_text v with
  | Unset | Units [] => Ok ([], v)
  | c =>
      match v_cond v with
      | Spoilt => Ok ([], v)
      | Unfit => UB
      | Fine => obind (known c) (fun l =>
          match dec16 l with
          | Some cs => Ok (enc8s cs, v)
          | None => Ok ([], mkval c Spoilt)
          end)
      end
  end.

(** Normalizing into another string gives the text; into itself it destroys the text, unless
    there is none. *)
Definition normalized (f : list N -> list N) (same : bool) (i o : value) : outcome (bool * value) :=
  obind (known (v_text i)) (fun l =>
  if same then
    match f l with
    | [] => Ok (match f [] with [] => true | _ => false end, mkval (Units []) (v_cond o))
    | _ => Ok (false, mkval Garbage (v_cond o))
    end
  else Ok (true, mkval (Units (f l)) (v_cond o))).

(** Changing case never gives a text.  The result is empty; the source is spoilt. *)
Definition cased (g : list N -> list N) (same : bool) (i o : value) : outcome (bool * value * value) :=
  let empty := mkval (Units []) Fine in
  if same then Ok (false, mkval (Units []) Spoilt, mkval (Units []) Spoilt)
  else
    match v_cond i with
    | Fine =>
        obind (known (v_text i)) (fun l =>
        match l, g l with
        | [], _ => Ok (false, mkval (Units []) Spoilt, empty)
        | _, [] => Ok (true, mkval (Units l) Fine, empty)
        | _, _ => Ok (false, mkval (Units l) Unfit, empty)
        end)
    | _ => Ok (false, i, empty)
    end.

Section Programs.
Context (nfc nfd lower upper : list N -> list N).

Definition spec_step (s : nat -> option value) (o : top) : outcome ((nat -> option value) * tout) :=
  let norm f i j := obind (get s i) (fun a => obind (get s j) (fun b =>
    obind (normalized f (i =? j) a b) (fun '(r, b') => Ok (upd s j (Some b'), TFlag r)))) in
  let case g i j := obind (get s i) (fun a => obind (get s j) (fun b =>
    obind (cased g (i =? j) a b) (fun '(r, a', b') => Ok (upd (upd s i (Some a')) j (Some b'), TFlag r)))) in
  let set i v := Ok (upd s i (Some v), TNothing) in
  match o with
  | TDefault i => obind (fresh s i) (fun _ => set i (mkval Unset Fine))
  | TUtf8 i bs => obind (fresh s i) (fun _ => set i (text_of (from_utf8 bs)))
  | TUtf16 i l => obind (fresh s i) (fun _ => set i (mkval (Units l) Fine))
  | TUtf32 i cs => obind (fresh s i) (fun _ => set i (text_of (from_utf32 cs)))
  | TCopyNew i j => obind (fresh s i) (fun _ => obind (get s j) (fun b => obind (copy_of b) (set i)))
  | TMoveNew i j => obind (fresh s i) (fun _ => obind (get s j) (fun b =>
      Ok (upd (upd s j (Some (mkval (Units []) Fine))) i (Some b), TNothing)))
  | TAssign i j => obind (get s i) (fun a => obind (get s j) (fun b =>
      if i =? j then Ok (s, TNothing) else obind (copy_of b) (set i)))
  | TMoveAssign i j => obind (get s i) (fun a => obind (get s j) (fun b =>
      if i =? j then Ok (s, TNothing) else Ok (upd (upd s j (Some (mkval (Units []) Fine))) i (Some b), TNothing)))
  | TPlus k i j => obind (fresh s k) (fun _ => obind (get s i) (fun a => obind (get s j) (fun b =>
      obind (known (v_text a)) (fun l => obind (known (v_text b)) (fun r => set k (mkval (Units (l ++ r)) Fine))))))
  | TPlusAssign i j => obind (get s i) (fun a => obind (get s j) (fun b =>
      match v_text b, v_text a with
      | Unset, _ => UB
      | Units [], _ => set i a
      | _, Unset => UB
      | _, Units [] => obind (copy_of b) (set i)
      | _, _ => obind (known (v_text a)) (fun l => obind (known (v_text b)) (fun r => set i (mkval (Units (l ++ r)) Fine)))
      end))
  | TEncode i => obind (get s i) (fun a => obind (encoded a) (fun '(l, a') => Ok (upd s i (Some a'), TBytes l)))
  | TOk i => obind (get s i) (fun a => Ok (s, TFlag (match v_cond a with Fine => true | _ => false end)))
  | TNfc i j => norm nfc i j
  | TNfd i j => norm nfd i j
  | TLower i j => case lower i j
  | TUpper i j => case upper i j
  | TDestroy i => obind (get s i) (fun _ => Ok (upd s i None, TNothing))
  end.

Fixpoint spec_run (s : nat -> option value) (os : list top) : outcome ((nat -> option value) * list tout) :=
  match os with
  | [] => Ok (s, [])
  | o :: os' => obind (spec_step s o) (fun '(s', x) =>
                obind (spec_run s' os') (fun '(s'', xs) => Ok (s'', x :: xs)))
  end.

(** ** Strings as plain values: each variable holds a text. *)

(** Programs that construct strings from well-formed text, convert no case and normalize into
    another string. *)
Definition plain (o : top) : bool :=
  match o with
  | TDefault _ | TLower _ _ | TUpper _ _ => false
  | TUtf8 _ bs => match from_utf8 bs with Some _ => true | None => false end
  | TUtf32 _ cs => match from_utf32 cs with Some _ => true | None => false end
  | TNfc i j | TNfd i j => negb (i =? j)
  | TUtf16 _ l => match dec16 l with Some _ => true | None => false end
  | _ => true
  end.

Definition value_step (s : nat -> option (list N)) (o : top) : outcome ((nat -> option (list N)) * tout) :=
  let set i l := Ok (upd s i (Some l), TNothing) in
  match o with
  | TUtf8 i bs => obind (fresh s i) (fun _ => match from_utf8 bs with Some l => set i l | None => UB end)
  | TUtf16 i l => obind (fresh s i) (fun _ => set i l)
  | TUtf32 i cs => obind (fresh s i) (fun _ => match from_utf32 cs with Some l => set i l | None => UB end)
  | TCopyNew i j => obind (fresh s i) (fun _ => obind (get s j) (set i))
  | TMoveNew i j => obind (fresh s i) (fun _ => obind (get s j) (fun l => Ok (upd (upd s j (Some [])) i (Some l), TNothing)))
  | TAssign i j => obind (get s i) (fun _ => obind (get s j) (set i))
  | TMoveAssign i j => obind (get s i) (fun _ => obind (get s j) (fun l =>
      if i =? j then Ok (s, TNothing) else Ok (upd (upd s j (Some [])) i (Some l), TNothing)))
  | TPlus k i j => obind (fresh s k) (fun _ => obind (get s i) (fun l => obind (get s j) (fun r => set k (l ++ r))))
  | TPlusAssign i j => obind (get s i) (fun l => obind (get s j) (fun r => set i (l ++ r)))
  | TEncode i => obind (get s i) (fun l => Ok (s, TBytes (encode l)))
  | TOk i => obind (get s i) (fun _ => Ok (s, TFlag true))
  | TNfc i j => obind (get s i) (fun l => obind (get s j) (fun _ => Ok (upd s j (Some (nfc l)), TFlag true)))
  | TNfd i j => obind (get s i) (fun l => obind (get s j) (fun _ => Ok (upd s j (Some (nfd l)), TFlag true)))
  | TDestroy i => obind (get s i) (fun _ => Ok (upd s i None, TNothing))
  | TDefault _ | TLower _ _ | TUpper _ _ => UB
  end.

Fixpoint value_run (s : nat -> option (list N)) (os : list top) : outcome ((nat -> option (list N)) * list tout) :=
  match os with
  | [] => Ok (s, [])
  | o :: os' => obind (value_step s o) (fun '(s', x) =>
                obind (value_run s' os') (fun '(s'', xs) => Ok (s'', x :: xs)))
  end.
End Programs.

(** The observations of a run. *)
Definition observed {S} (r : outcome (S * list tout)) : outcome (list tout) := obind r (fun '(_, xs) => Ok xs).

(** ** Compiled expressions *)

(** The patterns opened by a program that compiled. *)
Definition opened_by (os : list rop) : nat :=
  length (filter (fun o => match o with ROpen _ true => true | _ => false end) os).

(** The variable holds a pattern that is open. *)
Definition open_in (p : patterns) (n : nat) : Prop := exists i, p_vars p i = Some (Some n).

(** ** General categories: the two-letter names of the Unicode standard with ICU's numbers *)
Definition category_names : list (N * list N) :=
  [(0, u"Cn"); (1, u"Lu"); (2, u"Ll"); (3, u"Lt"); (4, u"Lm"); (5, u"Lo");
   (6, u"Mn"); (7, u"Me"); (8, u"Mc"); (9, u"Nd"); (10, u"Nl"); (11, u"No");
   (12, u"Zs"); (13, u"Zl"); (14, u"Zp"); (15, u"Cc"); (16, u"Cf"); (17, u"Co"); (18, u"Cs");
   (19, u"Pd"); (20, u"Ps"); (21, u"Pe"); (22, u"Pc"); (23, u"Po");
   (24, u"Sm"); (25, u"Sc"); (26, u"Sk"); (27, u"So"); (28, u"Pi"); (29, u"Pf")]%N.

Definition punctuation_types : list N := [19; 20; 21; 22; 23; 28; 29]%N.
