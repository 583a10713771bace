(** Model of src/system/sysstat.cpp for Linux.  The files /proc/loadavg and /proc/meminfo are their texts, empty if they cannot be opened. *)
From Verif Require Import Common NumText_Model Cast_Model Config_Model Double_Model.
Local Open Scope Z_scope.

(** [stream >> s] on a string that is empty: blanks are skipped; at the end of the text the string stays empty *)
Definition word (s : list Z) : list Z * list Z := spanb (fun c => negb (isspace c)) (skip_ws s).
(** std::string::find(p) == 0 *)
Fixpoint begins (p s : list Z) : bool :=
  match p, s with [], _ => true | c :: p, d :: s => (c =? d) && begins p s | _ :: _, [] => false end.
(** atoi and atoll of std::string::c_str: up to the first NUL byte (a digit or sign is not NUL, so it ends the number anyway); a number
    that does not fit is undefined behaviour *)
Definition ato (bits : Z) (s : list Z) : outcome Z :=
  match scan s with
  | None => Ok 0
  | Some (neg, m, _) => let v := if neg then - m else m in if (- 2 ^ (bits - 1) <=? v) && (v <? 2 ^ (bits - 1)) then Ok v else UB
  end.
(** sysstat.cpp:120-132, 158-170, 171-183: a line that starts with the name; [old] is the value so far, a uint64_t *)
Definition read_line (name : list Z) (bits : Z) (s : list Z) (old : Z) : outcome Z :=
  if begins name s then
    let (_, s) := word s in                                 (* type *)
    let (mem, s) := word s in
    let (kb, _) := word s in
    match mem with
    | [] => Ok old
    | _ => let* v := ato bits mem in
           let v := v mod 2 ^ 64 in
           Ok (if list_eq_dec Z.eq_dec kb (str "kB") then (v * 1000) mod 2 ^ 64 else v)
    end
  else Ok old.
(** sysstat.cpp:112-134 *)
Fixpoint total_lines (ls : list (list Z)) (memtotal : Z) : outcome Z :=
  match ls with
  | [] => Ok memtotal
  | s :: ls => let* m := read_line (str "MemTotal") 64 s memtotal in total_lines ls m
  end.
Definition get_total_memory (text : list Z) : outcome Z := total_lines (getlines [] text) 0.
(** sysstat.cpp:149-186 *)
Fixpoint free_lines (ls : list (list Z)) (memfree memcached : Z) : outcome Z :=
  match ls with
  | [] => Ok ((memfree + memcached) mod 2 ^ 64)
  | s :: ls => let* f := read_line (str "MemFree") 32 s memfree in
               let* c := read_line (str "Cached") 32 s memcached in
               free_lines ls f c
  end.
Definition get_free_memory (text : list Z) : outcome Z := free_lines (getlines [] text) 0 0.
(** sysstat.cpp:85-96: atof is strtod *)
Definition get_loadavg (text : list Z) : dres := strtod (fst (word text)).
(** sysstat.cpp:77-83 *)
Definition get_sysstat (loadavg meminfo : list Z) : outcome (dres * Z * Z) :=
  let* t := get_total_memory meminfo in
  let* f := get_free_memory meminfo in
  Ok (get_loadavg loadavg, t, f).
