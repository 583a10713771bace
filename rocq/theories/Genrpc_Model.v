(** Model of genrpc: tools/genrpc/main.cpp, genrpc_template.cpp, genrpc_extract_names.cpp, gen_null.h, and src/system/file.cpp:45-51 (tmpstream).
    The environment says how mkstemp, g++, popen and the opening of files turn out.  Programs are their texts; the compiled template does what
    genrpc_template.cpp:40-90 does, any other program only prints.  What the generators write is also given: it is modelled in Php_Model and Hs_Model.
    A mkstemp that fails leaves its template as it was; texts are written completely; there is memory enough.  What goes to cout and cerr is left out. *)
From Verif Require Import Common NumText_Model Cast_Model Genrpc_Spec.
Local Open Scope Z_scope.

Definition eqs (a b : text) : bool := if list_eq_dec Z.eq_dec a b then true else false.
Definition upd (d : files) (n : text) (v : option text) : files := fun m => if eqs m n then v else d m.

(** ** The installed files *)
(** genrpc_template.cpp:1-13 *)
Definition t0 : list Z := str "#include ""/usr/local/share/pficommon/gen_php.h""
#include ""/usr/local/share/pficommon/gen_hs.h""
#include ""/usr/local/share/pficommon/gen_null.h""

#define RPC_PROC_BKUP RPC_PROC
#undef RPC_PROC
#define RPC_PROC REFLECT_RPC_PROC

#define RPC_GEN_BKUP RPC_GEN
#undef RPC_GEN
#define RPC_GEN REFLECT_RPC_GEN

#include """%string.
(** genrpc_template.cpp:13-42 *)
Definition t1 : list Z := str """

#undef RPC_GEN
#define RPC_GEN RPC_GEN_BKUP
#undef RPC_GEN_BKUP

#undef RPC_PROC
#define RPC_PROC RPC_PROC_BKUP
#undef RPC_PROC_BKUP

#include <fstream>
using namespace std;

struct info{
  const char *id;
  const char *suffix;
  void (*f)(vector<reflect_base*> &, const string &);
}infos[]={
  {""php"",     ""php"",  &php_generator::generate},
  {""haskell"", ""hs"",   &haskell_generator::generate},
  {""ocaml"",   ""ml"",   &null_generator::generate},
  {""java"",    ""java"", &null_generator::generate},
  {""ruby"",    ""rb"",   &null_generator::generate},
  {""python"",  ""py"",   &null_generator::generate},
  {""perl"",    ""pl"",   &null_generator::generate},
};

int main()
{
  string base("""%string.
(** genrpc_template.cpp:42-43 *)
Definition t2 : list Z := str """);
  string lang("""%string.
(** genrpc_template.cpp:43-76 *)
Definition t3 : list Z := str """);

  size_t lang_num=sizeof(infos)/sizeof(infos[0]);

  for (size_t i=0;i<lang_num;i++){
    if (infos[i].id==lang){
      string outname(base);
      string new_suf("".""+string(infos[i].suffix));

      static const char *header_sufs[]={
        "".hpp"",
        "".hxx"",
        "".h"",
        """",
      };

      for (size_t j=0;j<sizeof(header_sufs)/sizeof(header_sufs[0]);j++){
        string org_suf(header_sufs[j]);

        if (org_suf==""""){
          //outname+=new_suf;
          break;
        }

        string::size_type p=outname.find(org_suf);
        if (p!=string::npos){
          outname.replace(p, org_suf.length(), """"/*new_suf*/);
          break;
        }
      }

      try{
        vector<reflect_base*> refs;
        "%string.
(** genrpc_template.cpp:76-91 *)
Definition t4 : list Z := str "
        infos[i].f(refs, outname);
      }
      catch(exception& e){
        cerr<<""generate error: ""<<e.what()<<endl;
        unlink(outname.c_str());
      }

      return 0;
    }
  }

  cerr<<""language ""<<lang<<"" is not supported""<<endl;
  return 0;
}
"%string.
(** genrpc_extract_names.cpp:1-26 *)
Definition x0 : list Z := str "#include <pficommon/lang/function.h>
#include <pficommon/data/serialization.h>
#include <pficommon/network/rpc.h>
#include <pficommon/network/rpc/reflect.h>

#include <iostream>

#define EXTRACT_RPC_PROC(name, tp)

#define EXTRACT_RPC_GEN(version, base, ...) \
  class base##_ext{			    \
  public:				    \
  base##_ext(){				    \
    std::cout<<(#base)<<std::endl;	    \
  }					    \
  } base##_ext_inst;

#define RPC_PROC_BKUP RPC_PROC
#undef RPC_PROC
#define RPC_PROC EXTRACT_RPC_PROC

#define RPC_GEN_BKUP RPC_GEN
#undef RPC_GEN
#define RPC_GEN EXTRACT_RPC_GEN

#include """%string.
(** genrpc_extract_names.cpp:26-40 *)
Definition x1 : list Z := str """

#undef RPC_GEN
#define RPC_GEN RPC_GEN_BKUP
#undef RPC_GEN_BKUP

#undef RPC_PROC
#define RPC_PROC RPC_PROC_BKUP
#undef RPC_PROC_BKUP

int main()
{
  return 0;
}
"%string.
(** ** main.cpp *)
Fixpoint prefixb (p s : text) : bool :=
  match p, s with [], _ => true | a :: p', b :: s' => (a =? b) && prefixb p' s' | _ :: _, [] => false end.
(** string::find *)
Fixpoint find (p s : text) : option nat :=
  if prefixb p s then Some O else match s with [] => None | _ :: r => option_map S (find p r) end.
(** main.cpp:19-25: only the first one *)
Definition replace (s pat aft : text) : text :=
  match find pat s with Some i => firstn i s ++ aft ++ skipn (i + length pat) s | None => s end.

(** What g++ answers; after a failure the output file may have been removed *)
Inductive gxx := Good | Failed (removed : bool).
Record env := {
  six : nat -> option text;                             (* the characters that the n-th mkstemp finds *)
  compiler : text -> text -> gxx;                       (* for a command and the source that it names *)
  popens : nat -> bool;
  prints : text -> text * bool;                         (* what a program prints and whether its status is 0 *)
  php_client : text -> text -> text;                    (* for the name of a signature and the lines that add its services *)
  hs_client : text -> text -> text;
  opens : text -> bool }.                               (* can a file be opened for writing? *)

Section run.
Context (e : env).

Definition alnum (c : Z) : bool := ((97 <=? c) && (c <=? 122)) || ((65 <=? c) && (c <=? 90)) || ((48 <=? c) && (c <=? 57)).
(** mkstemp, with the name before the six X: a new empty file *)
Definition mkstemp (n : nat) (base : text) (d : files) : option (text * files) :=
  match six e n with
  | Some x =>
      let f := base ++ x in
      if (length x =? 6)%nat && forallb alnum x then match d f with None => Some (f, upd d f (Some [])) | Some _ => None end else None
  | None => None
  end.

(** ** The compiled template *)
Fixpoint until_quote (s : text) : text * text := match s with [] => ([], []) | c :: r => if c =? 34 then ([], s) else let (a, b) := until_quote r in (c :: a, b) end.
Definition strip (p s : text) : option text := if prefixb p s then Some (skipn (length p) s) else None.
(** Is the string between quotes what stands there? *)
Definition literal (s : text) : bool := forallb (fun c => negb ((c =? 92) || (c =? 10))) s.
(** The values of base and lang, and the lines at ADDREFLECTS, in a text that comes from the template *)
Definition read_template (s : text) : option (text * text * text) :=
  match strip t0 s with
  | None => None
  | Some s =>
    let (_, s) := until_quote s in
    match strip t1 s with
    | None => None
    | Some s =>
      let (base, s) := until_quote s in
      match strip t2 s with
      | None => None
      | Some s =>
        let (lang, s) := until_quote s in
        match strip t3 s with
        | None => None
        | Some s =>
          let refl := firstn (length s - length t4) s in
          if eqs s (refl ++ t4) && literal base && literal lang then Some (base, lang, refl) else None
        end
      end
    end
  end.
(** genrpc_template.cpp:59-72: the first suffix that is found, wherever it is, is cut out once *)
Fixpoint cut (sufs : list text) (n : text) : text :=
  match sufs with
  | [] => n
  | s :: r => match find s n with Some i => firstn i n ++ skipn (i + length s) n | None => cut r n end
  end.
Definition outname (base : text) : text := cut [str ".hpp"; str ".hxx"; str ".h"] base.
Inductive generator := GPhp | GHs | GNull.
(** genrpc_template.cpp:30-38 *)
Definition infos : list (text * generator) :=
  [(str "php", GPhp); (str "haskell", GHs); (str "ocaml", GNull); (str "java", GNull); (str "ruby", GNull); (str "python", GNull); (str "perl", GNull)].
Fixpoint lookup (lang : text) (l : list (text * generator)) : option generator :=
  match l with [] => None | (n, g) :: r => if eqs n lang then Some g else lookup lang r end.
(** Opening a file for writing, and writing it; nobody looks whether it could be opened. *)
Definition save (n t : text) (d : files) : files := if opens e n then upd d n (Some t) else d.
(** gen_hs.h:33-37 *)
Definition capital (n : text) : text := match n with c :: r => (if (97 <=? c) && (c <=? 122) then c - 32 else c) :: r | [] => [] end.
(** genrpc_template.cpp:40-90; gen_php.h:37-38; gen_hs.h:26-39 (ref[0] without a service); gen_null.h:13-15.  The status is always 0. *)
Definition template_main (base lang refl : text) (d : files) : outcome files :=
  match lookup lang infos with
  | Some GPhp => Ok (save (outname base ++ str ".php") (php_client e base refl) d)
  | Some GHs => match refl with [] => UB | _ => Ok (save (capital (outname base ++ str ".hs")) (hs_client e base refl) d) end
  | Some GNull => Ok (upd d (outname base) None)
  | None => Ok d
  end.
(** Running a program: its output, whether its status is 0, and the files after it *)
Definition exec (src : text) (d : files) : outcome (text * bool * files) :=
  match read_template src with
  | Some (base, lang, refl) => let* d' := template_main base lang refl d in Ok ([], true, d')
  | None => Ok (prints e src, d)
  end.

(** ** main.cpp *)
(** main.cpp:39 *)
Definition command (t opts g : text) : text := str "g++ -xc++ " ++ t ++ str " " ++ opts ++ str " -lpficommon -o " ++ g.
(** main.cpp:27-58; [n] mkstemps and [p] popens were before.  None: a runtime_error *)
Definition eval_cpp (n p : nat) (src opts : text) (d : files) : outcome (option text * files) :=
  match mkstemp n (str "genrpctmp") d with
  | None => UB                                          (* *pofs.get() *)
  | Some (t, d) =>
      let d := upd d t (Some src) in
      let (g, d) := match mkstemp (S n) (str "genrpcexe") d with Some x => x | None => (str "genrpcexeXXXXXX", d) end in
      match compiler e (command t opts g) src with
      | Failed removed => let d := if removed then upd d g None else d in Ok (None, upd d t None)
      | Good =>
          let d := upd (upd d g (Some src)) t None in   (* the file g is the program *)
          if popens e p then
            let* (out, ok, d) := exec src d in
            Ok (if ok : bool then Some out else None, upd d g None)
          else UB                                       (* fgetc of a null pointer *)
      end
  end.

Definition option_ (a : text) : bool := prefixb (str "--") a.
(** main.cpp:67-76: signame and langname *)
Fixpoint parse_args (l : list text) (sl : text * text) : text * text :=
  match l with
  | [] => sl
  | a :: r => parse_args r (if option_ a then (fst sl, skipn 2 a) else (a, snd sl))
  end.
(** main.cpp:83-85: argv[2] to argv[argc-2] *)
Definition options (args : list text) : text := flat_map (fun a => str " " ++ a) (removelast (tl args)).
(** iss>>name as often as it goes *)
Fixpoint words (cur s : text) : list text :=
  match s with
  | [] => match cur with [] => [] | _ => [cur] end
  | c :: r => if isspace c then match cur with [] => words [] r | _ => cur :: words [] r end else words (cur ++ [c]) r
  end.
(** main.cpp:124-128 *)
Fixpoint reflects (i : nat) (names : list text) : text :=
  match names with
  | [] => []
  | n :: r =>
      (n ++ str "_reflect ref" ++ dec_text (Z.of_nat i) ++ str ";" ++ [10]) ++
      (str "refs.push_back(&ref" ++ dec_text (Z.of_nat i) ++ str ");" ++ [10]) ++ reflects (S i) r
  end.
Definition hole_sig := str "<<<SIGFILE>>>".
Definition hole_base := str "<<<BASENAME>>>".
Definition hole_lang := str "<<<LANG>>>".
Definition hole_refl := str "<<<ADDREFLECTS>>>".
(** The installed files *)
Definition template : text := t0 ++ hole_sig ++ t1 ++ hole_base ++ t2 ++ hole_lang ++ t3 ++ hole_refl ++ t4.
Definition extractor : text := x0 ++ hole_sig ++ x1.
(** main.cpp:120-129 *)
Definition fill (tmpl sig lang : text) (names : list text) : text :=
  replace (replace (replace (replace tmpl hole_sig sig) hole_base sig) hole_lang lang) hole_refl (reflects 0 names).

(** main.cpp:60-140: the exit status and the files after it.  [inst]: are the templates installed (main.cpp:92-101)?  [args] are argv[1] and so on. *)
Definition main (inst : bool) (args : list text) (d : files) : outcome (Z * files) :=
  if (length args <? 2)%nat then Ok (0, d) else
  let (sig, lang) := parse_args args (nth 0 args [], []) in
  if eqs lang [] then Ok (1, d) else
  let opts := options args in
  let tmpl := if inst then template else [] in
  let extr := if inst then extractor else [] in
  let* (out, d) := eval_cpp 0 0 (replace extr hole_sig sig) opts d in
  match out with
  | None => Ok (0, d)
  | Some out =>
      let* (_, d) := eval_cpp 2 1 (fill tmpl sig lang (words [] out)) opts d in
      Ok (0, d)
  end.
End run.
