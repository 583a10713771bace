(** Model of src/data/config_file.{h,cpp}.  std::map is an association list; isspace is that of the C locale (and false for bytes from 128);
    line and column numbers do not overflow int. *)
From Verif Require Import Common Cast_Model Cgi_Model Ipv4_Model.
Local Open Scope Z_scope.

Inductive error := Close_missing | Invalid_character | Equals_missing.
(** parse_error(filename, lineno, pos, msg) *)
Inductive result (A : Type) := Parsed (a : A) | Parse_error (lineno pos : Z) (msg : error).
Arguments Parsed {A}. Arguments Parse_error {A}.

(** config_file.cpp:58-75 *)
Fixpoint lead (s : list Z) : nat := match s with c :: r => if isspace c then S (lead r) else O | [] => O end.
Definition trim (s : list Z) : list Z :=
  let st := Z.of_nat (lead s) in
  let ed := Z.of_nat (length s) - 1 - Z.of_nat (lead (rev s)) in
  if ed <? st then [] else firstn (Z.to_nat (ed - st + 1)) (skipn (Z.to_nat st) s).
(** config_file.cpp:111-115 *)
Definition unquote (v : list Z) : list Z :=
  if (2 <=? Z.of_nat (length v)) && (nth 0 v 0 =? 34) && (nth (length v - 1) v 0 =? 34) then firstn (length v - 2) (skipn 1 v) else v.

Definition section := smap (list Z).
Definition data := smap section.
(** config_file.cpp:83-117: a line with its number; dat and cur_sect.  [line] is the whole std::string, [p] the C string. *)
Definition parse_line (lineno : Z) (line cur : list Z) (dat : data) : result (list Z * data) :=
  let st := c_str line in
  let p := skip_ws st in
  match p with
  | [] => Parsed (cur, dat)                                                       (* 86 *)
  | c :: p' =>
      if c =? 59 then Parsed (cur, dat)                                           (* 87 *)
      else if c =? 91 then                                                        (* 89-101 *)
        match strchr 93 p with
        | None => Parse_error lineno (Z.of_nat (length line)) Close_missing
        | Some (a, q) =>
            let name := tl a in
            let q' := skip_ws q in
            match q' with
            | [] => Parsed (name, upd dat name [] (fun s => s))
            | _ => Parse_error lineno (Z.of_nat (length st) - Z.of_nat (length q')) Invalid_character
            end
        end
      else                                                                        (* 103-113 *)
        match strchr 61 p with
        | None => Parse_error lineno (Z.of_nat (length line)) Equals_missing
        | Some (a, q) => Parsed (cur, upd dat cur [] (fun s => upd s (trim a) [] (fun _ => unquote (trim q))))
        end
  end.
Fixpoint parse_lines (lineno : Z) (lines : list (list Z)) (cur : list Z) (dat : data) : result data :=
  match lines with
  | [] => Parsed dat
  | l :: ls => match parse_line lineno l cur dat with
               | Parsed (cur, dat) => parse_lines (lineno + 1) ls cur dat
               | Parse_error n p e => Parse_error n p e
               end
  end.
(** getline until it fails: it does at the end of the text if there is no character left *)
Fixpoint getlines (acc s : list Z) : list (list Z) :=
  match s with
  | [] => match acc with [] => [] | _ => [rev acc] end
  | c :: s => if c =? 10 then rev acc :: getlines [] s else getlines (c :: acc) s
  end.
(** config_file.cpp:77-119 *)
Definition init (text : list Z) : result data := parse_lines 1 (getlines [] text) [] [].
(** config_file.h:57-63, 85-91: const operator[]; config_file.h:65-66, 93-94: find *)
Definition lookup (d : data) (sec key : list Z) : option (list Z) := match find d sec with Some s => find s key | None => None end.
Definition at_ (d : data) (sec key : list Z) : list Z := match lookup d sec key with Some v => v | None => [] end.
(** config_file.cpp:47-51: whether the file could be opened is not looked at; None: it could not *)
Definition load (file : option (list Z)) : result data := match file with Some t => init t | None => init [] end.
(** A read that fails after [text] has come: getline sets badbit and the line it was in is lost; the loop ends (config_file.cpp:82) and nobody looks why.
    A directory is a file whose first read fails. *)
Fixpoint finished (acc s : list Z) : list (list Z) :=
  match s with
  | [] => []
  | c :: s => if c =? 10 then rev acc :: finished [] s else finished (c :: acc) s
  end.
Definition load_broken (text : list Z) : result data := parse_lines 1 (finished [] text) [] [].
