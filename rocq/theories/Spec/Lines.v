(** A trace report line as it is printed, independent of the parsing pattern. *)
From Coq Require Import List Ascii String ZArith NArith Bool.
From Verif Require Import Lib.PyStr Lib.PyStrFacts.
Import ListNotations.

Definition blanks (s : str) : Prop := s <> [] /\ all_space s.
Definition digits (s : str) : Prop := s <> [] /\ Forall (fun c => is_digit c = true) s.
Definition word (s : str) : Prop := s <> [] /\ Forall (fun c => is_word c = true) s.

Record tline := TLine {
  l_lead : str;                  (* blanks before the task name *)
  l_comm : str;
  l_pid : str;
  l_tgid : option (str * str);   (* blanks and the text between parentheses *)
  l_sp1 : str;
  l_cpu : str;
  l_flags : option (str * str);  (* blanks and the four latency flags *)
  l_sp2 : str;
  l_sec : str;
  l_us : option str;             (* digits after the decimal point *)
  l_names : list (str * str);    (* event name(s), each with the blanks after its colon *)
  l_data : str }.

Definition tgid_str (o : option (str * str)) : str :=
  match o with Some (sp, t) => sp ++ $"(" ++ t ++ $")" | None => [] end.
Definition flags_str (o : option (str * str)) : str :=
  match o with Some (sp, f) => sp ++ f | None => [] end.
Definition time_str (sec : str) (us : option str) : str :=
  sec ++ match us with Some u => $"." ++ u | None => [] end.
Definition names_str (l : list (str * str)) : str :=
  flat_map (fun n => fst n ++ $":" ++ snd n) l.
(** everything after the cpu bracket *)
Definition tail_str (l : tline) : str :=
  flags_str (l_flags l) ++ l_sp2 l ++ time_str (l_sec l) (l_us l) ++ $": " ++
  names_str (l_names l) ++ l_data l.
Definition line_str (l : tline) : str :=
  l_lead l ++ l_comm l ++ $"-" ++ l_pid l ++ tgid_str (l_tgid l) ++ l_sp1 l ++
  $"[" ++ l_cpu l ++ $"]" ++ tail_str l.

Record line_ok (l : tline) : Prop := {
  ok_lead : all_space (l_lead l);
  ok_comm_nl : ~ In nl (l_comm l);
  ok_comm_hd : forall c r, l_comm l = c :: r -> is_space c = false;
  ok_pid : digits (l_pid l);
  ok_tgid : forall sp t, l_tgid l = Some (sp, t) ->
      blanks sp /\ ~ In nl t /\ ~ In "("%char t /\ ~ In "["%char t;
  ok_sp1 : blanks (l_sp1 l);
  ok_cpu : digits (l_cpu l);
  ok_flags : forall sp f, l_flags l = Some (sp, f) ->
      blanks sp /\ List.length f = 4 /\ ~ In nl f /\ (forall c r, f = c :: r -> is_space c = false);
  ok_sp2 : blanks (l_sp2 l);
  ok_sec : digits (l_sec l);
  ok_us : forall u, l_us l = Some u -> digits u;
  ok_names : l_names l <> [] /\ Forall (fun n => word (fst n) /\ blanks (snd n)) (l_names l);
  (* the event name is not a number *)
  ok_event : forall n r, l_names l = n :: r -> ~ digits (fst n);
  ok_data : l_data l <> [] /\ ~ In nl (l_data l) /\
      (forall c r, l_data l = c :: r -> is_space c = false) /\
      (forall c r, l_data l = r ++ [c] -> is_space c = false);
  (* the data does not itself start with "word: " *)
  ok_data_name : forall w c r, l_data l = w ++ $":" ++ c :: r -> word w -> is_space c = false;
  (* nothing after the cpu looks like another "-PID [" or ") [" *)
  ok_tail_pid : forall a d sp b, tail_str l = a ++ $"-" ++ d ++ sp ++ $"[" ++ b ->
      digits d -> blanks sp -> False;
  ok_tail_par : forall a sp b, tail_str l = a ++ $")" ++ sp ++ $"[" ++ b -> blanks sp -> False }.

(** A line that can be read at all: the parts that are required are there, without any
    condition on what the texts in between look like. *)
Record line_read (l : tline) : Prop := {
  rd_lead : all_space (l_lead l);
  rd_comm : ~ In nl (l_comm l);
  rd_pid : digits (l_pid l);
  rd_tgid : forall sp t, l_tgid l = Some (sp, t) -> blanks sp /\ ~ In nl t;
  rd_sp1 : blanks (l_sp1 l);
  rd_cpu : digits (l_cpu l);
  rd_flags : forall sp f, l_flags l = Some (sp, f) -> blanks sp /\ List.length f = 4 /\ ~ In nl f;
  rd_sp2 : blanks (l_sp2 l);
  rd_sec : digits (l_sec l);
  rd_us : forall u, l_us l = Some u -> digits u;
  rd_names : l_names l <> [] /\ Forall (fun n => word (fst n) /\ blanks (snd n)) (l_names l);
  rd_data : l_data l <> [] /\ ~ In nl (l_data l) }.
Definition TraceLine (s : str) : Prop := exists L rest, line_read L /\ s = line_str L ++ rest.

(** Value of a digit string. *)
Definition dec_val (s : str) : N :=
  fold_left (fun n c => n * 10 + (N_of_ascii c - 48))%N s 0%N.

(** [t] is the double nearest to the non-negative real [r]. *)
From Coq Require Import Reals.
From Flocq Require Import Core BinarySingleNaN.
From Verif Require Import Lib.F64.
Definition round_double (r : R) : R :=
  round radix2 (FLT_exp (-1074) 53) (Znearest (fun z => negb (Z.even z))) r.
Definition nearest (t : float) (r : R) : Prop :=
  ((round_double r < bpow radix2 1024)%R -> is_finite t = true /\ B2R t = round_double r) /\
  ((bpow radix2 1024 <= round_double r)%R -> t = finf).

(** The time printed on a line: seconds with a fraction, or (traces recorded
    with a raw clock) an integer number of nanoseconds. *)
Definition printed_time (l : tline) (t : float) : Prop :=
  match l_us l with
  | Some u => nearest t (IZR (Z.of_N (dec_val (l_sec l ++ u))) / IZR (10 ^ Z.of_nat (List.length u)))
  | None => exists t0, nearest t0 (IZR (Z.of_N (dec_val (l_sec l)))) /\
              (is_finite t0 = true -> nearest t (B2R t0 / 1000000000)%R) /\
              (is_finite t0 = false -> t = finf)
  end.
