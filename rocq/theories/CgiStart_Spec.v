(** Command lines of servers made from CGI programs; byte streams. *)
From Verif Require Import Common NumText_Model.
Local Open Scope Z_scope.

(** What a user asks for.  Ports and numbers of threads are numbers; the timeout is any text. *)
Inductive setting := Port (n : Z) | Threads (n : Z) | Timeout (d : list Z) | AsServer | Help.
(** The long names; an abbreviation of one is the beginning of no other. *)
Definition long_names : list (list Z) := map str ["port"; "thread"; "timeout"; "help"; "server"]%string.
Definition starts (p n : list Z) : Prop := exists r, n = p ++ r.
Definition abbreviates (p n : list Z) : Prop := starts p n /\ forall m, In m long_names -> starts p m -> m = n.
(** The words by which an option with the letter [l], the name [n] and the argument [d] is given: -l d, -ld, --name d, --name=d *)
Inductive given (l : Z) (n d : list Z) : list (list Z) -> Prop :=
| gi_next : given l n d [[45; l]; d]
| gi_joined : d <> [] -> given l n d [45 :: l :: d]
| gi_long p : abbreviates p n -> given l n d [str "--" ++ p; d]
| gi_equals p : abbreviates p n -> given l n d [str "--" ++ p ++ 61 :: d].
(** A command line and what it asks for.  Other words are ignored; after a word -- no options come.  Letters without arguments may be joined with the next one. *)
Inductive written : list (list Z) -> list setting -> Prop :=
| wr_nil : written [] []
| wr_port n ws r ss : given 112 (str "port") (show_int n) ws -> - 2 ^ 31 <= n < 2 ^ 31 -> written r ss -> written (ws ++ r) (Port n :: ss)
| wr_threads n ws r ss : given 116 (str "thread") (show_int n) ws -> - 2 ^ 31 <= n < 2 ^ 31 -> written r ss -> written (ws ++ r) (Threads n :: ss)
| wr_timeout d ws r ss : given 111 (str "timeout") d ws -> written r ss -> written (ws ++ r) (Timeout d :: ss)
| wr_server w r ss : w = str "-s" \/ (exists p, abbreviates p (str "server") /\ w = str "--" ++ p) -> written r ss -> written (w :: r) (AsServer :: ss)
| wr_help w r ss : w = str "-h" \/ (exists p, abbreviates p (str "help") /\ w = str "--" ++ p) -> written r ss -> written (w :: r) (Help :: ss)
| wr_cluster l s c w r ss : (l = 115 /\ s = AsServer) \/ (l = 104 /\ s = Help) -> c <> 45 -> written ((45 :: c :: w) :: r) ss -> written ((45 :: l :: c :: w) :: r) (s :: ss)
| wr_word w r ss : (forall x, w = 45 :: x -> x = []) -> written r ss -> written (w :: r) ss
| wr_end r : written (str "--" :: r) [].

(** Settings that end the program, with what it says *)
Definition complaint (argv0 : list Z) (s : setting) : option (list Z) :=
  match s with
  | Port n => if (1 <=? n) && (n <=? 65535) then None else Some (str "wrong argument: --port=" ++ show_int n)
  | Threads n => if n <=? 0 then Some (str "wrong argument: --thread=" ++ show_int n) else if n <=? 1024 then None else Some (str "too many threads: --thread=" ++ show_int n)
  | Help => Some (str "usage: " ++ argv0 ++ str " [-p port] [-t thread-num] [-o timeout] [-h]")
  | _ => None
  end.
Definition ports (ss : list setting) : list Z := flat_map (fun s => match s with Port n => [n] | _ => [] end) ss.
Definition threads (ss : list setting) : list Z := flat_map (fun s => match s with Threads n => [n] | _ => [] end) ss.
Definition timeouts (ss : list setting) : list (list Z) := flat_map (fun s => match s with Timeout d => [d] | _ => [] end) ss.
