(** A backtracking regular expression matcher with the search order of
    Python's [re] module: alternatives left to right, greedy repetition,
    leftmost match for [search].  Written in continuation-passing style; [k] is
    "the rest of the pattern". *)
From Coq Require Import List Ascii String ZArith NArith Bool.
From Verif Require Import Lib.PyStr.
Import ListNotations.

Inductive re :=
| REps
| RCls (p : ascii -> bool)   (* one character of a class *)
| RSeq (r1 r2 : re)
| RAlt (r1 r2 : re)
| RStar (r : re)             (* greedy [r*] *)
| RGrp (n : nat) (r : re)    (* capturing group number [n] *)
| RBos                       (* [^] *)
| RWb.                       (* [\b] *)

(** Previous character, remaining input, captures (latest first). *)
Record st := St { s_prev : option ascii; s_rest : str; s_caps : list (nat * str) }.

Definition cap_add (n : nat) (s0 s1 : st) : st :=
  St (s_prev s1) (s_rest s1)
     ((n, firstn (List.length (s_rest s0) - List.length (s_rest s1)) (s_rest s0)) :: s_caps s1).

Definition opt_word (o : option ascii) : bool :=
  match o with Some c => is_word c | None => false end.

Fixpoint mt {A} (r : re) (s : st) (k : st -> option A) {struct r} : option A :=
  match r with
  | REps => k s
  | RCls p =>
      match s_rest s with
      | c :: rest => if p c then k (St (Some c) rest (s_caps s)) else None
      | [] => None
      end
  | RSeq r1 r2 => mt r1 s (fun s' => mt r2 s' k)
  | RAlt r1 r2 => match mt r1 s k with Some x => Some x | None => mt r2 s k end
  | RStar r1 =>
      (fix loop (fuel : nat) (s : st) : option A :=
         match fuel with
         | O => k s
         | S f =>
             match mt r1 s (fun s' =>
                     if (List.length (s_rest s') <? List.length (s_rest s))%nat
                     then loop f s' else None) with
             | Some x => Some x
             | None => k s
             end
         end) (List.length (s_rest s)) s
  | RGrp n r1 => mt r1 s (fun s' => k (cap_add n s s'))
  | RBos => match s_prev s with None => k s | Some _ => None end
  | RWb => if xorb (opt_word (s_prev s)) (opt_word (hd_error (s_rest s))) then k s else None
  end.

Definition RPlus r := RSeq r (RStar r).
Definition ROpt r := RAlt r REps.
Definition RCh (c : ascii) := RCls (is_ch c).
Fixpoint RLit (s : str) : re :=
  match s with [] => REps | [c] => RCh c | c :: s' => RSeq (RCh c) (RLit s') end.
Fixpoint RSeqs (l : list re) : re :=
  match l with [] => REps | [r] => r | r :: l' => RSeq r (RSeqs l') end.

(** A match object: text before, matched text, text after, groups. *)
Record mres := MRes { m_pre : str; m_all : str; m_post : str; m_caps : list (nat * str) }.

Definition mk_res (pre rest : str) (s : st) : mres :=
  MRes pre (firstn (List.length rest - List.length (s_rest s)) rest) (s_rest s) (s_caps s).

(** [re.match(r, s)] *)
Definition re_match (r : re) (s : str) : option mres :=
  mt r (St None s []) (fun s' => Some (mk_res [] s s')).

(** [re.search(r, s)]: leftmost position that matches. [pre] is the text
    already passed. *)
Fixpoint search_from (r : re) (pre : str) (prev : option ascii) (s : str) : option mres :=
  match mt r (St prev s []) (fun s' => Some (mk_res pre s s')) with
  | Some m => Some m
  | None => match s with
            | [] => None
            | c :: s' => search_from r (pre ++ [c]) (Some c) s'
            end
  end.
Definition re_search (r : re) (s : str) : option mres := search_from r [] None s.

(** [m.group(n)]; [None] is Python's [None] for a group that did not take part. *)
Definition group (n : nat) (m : mres) : option str := dget Nat.eqb n (m_caps m).

(** [re.sub(r, f, s)] for patterns that cannot match the empty string. *)
Fixpoint sub_fuel (r : re) (f : mres -> str) (fuel : nat) (prev : option ascii) (s : str) : str :=
  match fuel with
  | O => s
  | S n =>
      match search_from r [] prev s with
      | None => s
      | Some m => m_pre m ++ f m ++
                  sub_fuel r f n (hd_error (rev (m_pre m ++ m_all m))) (m_post m)
      end
  end.
Definition re_sub (r : re) (f : mres -> str) (s : str) : str :=
  sub_fuel r f (S (List.length s)) None s.
