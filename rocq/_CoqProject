-Q theories Verif
theories/Common.v
theories/CommonLemmas.v
theories/Base64_Model.v
theories/Base64_Spec.v
theories/Base64_Proof.v
theories/Base64_Props.v
theories/UriCodec_Model.v
theories/UriCodec_Spec.v
theories/UriCodec_Proof.v
theories/UriCodec_Props.v
theories/Xhtml_Model.v
theories/Xhtml_Spec.v
theories/Xhtml_Proof.v
theories/Xhtml_Props.v
theories/Utf8_Model.v
theories/Utf8_Spec.v
theories/Utf8_Proof.v
theories/Utf8_Props.v
theories/Kana_Model.v
theories/Kana_Spec.v
theories/Kana_Proof.v
theories/Kana_Props.v
theories/Code_Model.v
theories/Code_Proof.v
theories/Code_Spec.v
theories/Code_Props.v
theories/Fenwick_Model.v
theories/Fenwick_Spec.v
theories/Fenwick_Proof.v
theories/Fenwick_Props.v
theories/Intern_Model.v
theories/Intern_Spec.v
theories/Intern_Proof.v
theories/Intern_Props.v
theories/Lru_Model.v
theories/Lru_Spec.v
theories/Lru_Proof.v
theories/Lru_Props.v
theories/Optional_Model.v
theories/Optional_Spec.v
theories/Optional_Proof.v
theories/Optional_Props.v
theories/StrUtil_Model.v
theories/StrUtil_Spec.v
theories/StrUtil_Proof.v
theories/StrUtil_Props.v
theories/Kmp_Model.v
theories/Kmp_Spec.v
theories/Kmp_Proof.v
theories/Kmp_Props.v
theories/Algo_Model.v
theories/Algo_Spec.v
theories/Algo_Proof.v
theories/Algo_Props.v
theories/Archive_Model.v
theories/Archive_Spec.v
theories/Archive_Proof.v
theories/Archive_Props.v
theories/Md5_Model.v
theories/Md5_Spec.v
theories/Md5_Proof.v
theories/Md5_Props.v
theories/Monitor_Model.v
theories/Monitor_Spec.v
theories/Monitor_Proof.v
theories/Pcbuf_Model.v
theories/Pcbuf_Spec.v
theories/Pcbuf_Proof.v
theories/Pcbuf_Props.v
theories/Mvar_Model.v
theories/Mvar_Spec.v
theories/Mvar_Proof.v
theories/Qsem_Model.v
theories/Qsem_Spec.v
theories/Qsem_Proof.v
theories/Qsem_Props.v
theories/Mvar_Props.v
theories/Mutex_Model.v
theories/Mutex_Spec.v
theories/Mutex_Proof.v
theories/Mutex_Props.v
theories/Chan_Model.v
theories/Chan_Spec.v
theories/Chan_Proof.v
theories/Chan_Props.v
theories/RwMutex_Model.v
theories/RwMutex_Spec.v
theories/RwMutex_Proof.v
theories/RwMutex_Props.v
theories/NumText_Model.v
theories/NumText_Proof.v
theories/Double_Model.v
theories/Double_Spec.v
theories/Double_Proof.v
theories/Json_Model.v
theories/Json_Spec.v
theories/JsonParse_Proof.v
theories/JsonComplete_Proof.v
theories/JsonPrint_Proof.v
theories/JsonSafe_Proof.v
theories/JsonEq_Proof.v
theories/JsonStream_Proof.v
theories/JsonCast_Model.v
theories/JsonCast_Spec.v
theories/JsonCast_Proof.v
theories/Json_Props.v
theories/Csv_Model.v
theories/Csv_Spec.v
theories/Csv_Proof.v
theories/Csv_Props.v
theories/Uri_Model.v
theories/Uri_Spec.v
theories/Uri_Proof.v
theories/UriParse_Proof.v
theories/Uri_Props.v
theories/Socket_Model.v
theories/Socket_Spec.v
theories/Socket_Proof.v
theories/Socket_Props.v
theories/Http_Model.v
theories/Http_Spec.v
theories/Http_Proof.v
theories/Http_Props.v
theories/Cgi_Model.v
theories/Cgi_Spec.v
theories/Cgi_Proof.v
theories/Cgi_Props.v
theories/Ratio_Model.v
theories/Ratio_Spec.v
theories/Ratio_Proof.v
theories/Ratio_Props.v
theories/Endian_Model.v
theories/Endian_Spec.v
theories/Endian_Proof.v
theories/Endian_Props.v
theories/Clock_Model.v
theories/Clock_Spec.v
theories/Clock_Proof.v
theories/Clock_Props.v
theories/Cast_Model.v
theories/Cast_Spec.v
theories/Cast_Proof.v
theories/Cast_Props.v
theories/Ipv4_Model.v
theories/Ipv4_Spec.v
theories/Ipv4_Proof.v
theories/Ipv4_Props.v
theories/Any_Model.v
theories/Any_Spec.v
theories/Any_Proof.v
theories/Any_Props.v
theories/Mt_Model.v
theories/Mt_Spec.v
theories/Mt_Proof.v
theories/Mt_Props.v
theories/Random_Model.v
theories/Random_Spec.v
theories/Random_Proof.v
theories/Random_Props.v
theories/Config_Model.v
theories/Config_Spec.v
theories/Config_Proof.v
theories/Config_Props.v
theories/Db_Model.v
theories/Db_Spec.v
theories/Db_Proof.v
theories/Db_Props.v
theories/Dns_Model.v
theories/Dns_Spec.v
theories/Dns_Proof.v
theories/Dns_Props.v
theories/Fft_Model.v
theories/Fft_Spec.v
theories/Fft_Proof.v
theories/Fft_Props.v
theories/Sparse_Model.v
theories/Sparse_Spec.v
theories/Sparse_Proof.v
theories/Sparse_Props.v
theories/Mprpc_Model.v
theories/Mprpc_Spec.v
theories/Mprpc_Proof.v
theories/Mprpc_Props.v
theories/Rpc_Model.v
theories/Rpc_Spec.v
theories/Rpc_Proof.v
theories/Rpc_Props.v
theories/RpcStop_Model.v
theories/RpcStop_Spec.v
theories/RpcStop_Proof.v
theories/RpcStop_Props.v
theories/Aho_Model.v
theories/Aho_Spec.v
theories/Aho_Proof.v
theories/Aho_Props.v
theories/Aho_Sort.v
theories/Aho_Build.v
theories/Aho_Link.v
theories/Pg_Model.v
theories/Pg_Spec.v
theories/Pg_Proof.v
theories/Pg_Props.v
theories/Mysql_Model.v
theories/Mysql_Spec.v
theories/Mysql_Proof.v
theories/Mysql_Props.v
theories/HttpMsg_Model.v
theories/HttpMsg_Spec.v
theories/HttpMsg_Proof.v
theories/HttpMsg_Props.v
theories/CgiServer_Model.v
theories/CgiServer_Spec.v
theories/CgiServer_Proof.v
theories/CgiServer_Props.v
theories/Fft2_Model.v
theories/Fft2_Spec.v
theories/Fft2_Proof.v
theories/Fft2_Props.v
theories/Vector_Model.v
theories/Vector_Spec.v
theories/Vector_Proof.v
theories/Vector_Props.v
theories/Mmapper_Model.v
theories/Mmapper_Spec.v
theories/Mmapper_Proof.v
theories/Mmapper_Props.v
theories/Thread_Model.v
theories/Thread_Spec.v
theories/Thread_Proof.v
theories/Thread_Props.v
theories/Sysstat_Model.v
theories/Sysstat_Spec.v
theories/Sysstat_Proof.v
theories/Sysstat_Props.v
theories/Page_Model.v
theories/Page_Spec.v
theories/Page_Proof.v
theories/Page_Props.v
theories/Reflect_Model.v
theories/Reflect_Spec.v
theories/Reflect_Proof.v
theories/Reflect_Props.v
theories/JsonArchive_Model.v
theories/JsonArchive_Spec.v
theories/JsonArchive_Proof.v
theories/JsonArchive_Props.v
theories/JsonFloat_Spec.v
theories/JsonFloat_Proof.v
theories/JsonFloat_Props.v
theories/Fd_Model.v
theories/Fd_Spec.v
theories/Fd_Proof.v
theories/Fd_Props.v
theories/Trans_Model.v
theories/Trans_Spec.v
theories/Trans_Proof.v
theories/Trans_Props.v
theories/HttpStream_Model.v
theories/HttpStream_Spec.v
theories/HttpStream_Proof.v
theories/HttpStream_Props.v
theories/Php_Model.v
theories/Php_Spec.v
theories/Php_Proof.v
theories/Php_Props.v
theories/CgiStart_Model.v
theories/CgiStart_Spec.v
theories/CgiStart_Proof.v
theories/CgiStart_Props.v
theories/MpServer_Model.v
theories/MpServer_Spec.v
theories/MpServer_Proof.v
theories/MpServer_Props.v
theories/PgConn_Model.v
theories/PgConn_Spec.v
theories/PgConn_Proof.v
theories/PgConn_Props.v
theories/Hs_Model.v
theories/Hs_Spec.v
theories/Hs_Proof.v
theories/Hs_Props.v
theories/Genrpc_Model.v
theories/Genrpc_Spec.v
theories/Genrpc_Proof.v
theories/Genrpc_Props.v
theories/JsonRef_Model.v
theories/JsonRef_Spec.v
theories/JsonRef_Proof.v
theories/JsonRef_Props.v
theories/JsonPos_Model.v
theories/JsonPos_Spec.v
theories/JsonPos_Proof.v
theories/JsonPos_Props.v
theories/CgiThreads_Model.v
theories/CgiThreads_Spec.v
theories/CgiThreads_Proof.v
theories/CgiThreads_Props.v
theories/Singleton_Model.v
theories/Singleton_Spec.v
theories/Singleton_Proof.v
theories/Singleton_Props.v
theories/Scoped_Model.v
theories/Scoped_Spec.v
theories/Scoped_Proof.v
theories/Scoped_Props.v
theories/Timeout_Model.v
theories/Timeout_Spec.v
theories/Timeout_Proof.v
theories/Timeout_Props.v
theories/Connect_Model.v
theories/Connect_Spec.v
theories/Connect_Proof.v
theories/Connect_Props.v
theories/LexFloat_Model.v
theories/LexFloat_Spec.v
theories/LexFloat_Proof.v
theories/LexFloat_Props.v
theories/LexFloatRead_Proof.v
theories/RandReal_Model.v
theories/RandReal_Spec.v
theories/RandReal_Proof.v
theories/RandReal_Props.v
theories/ClockReal_Model.v
theories/ClockReal_Spec.v
theories/ClockReal_Proof.v
theories/ClockReal_Props.v
theories/Single_Model.v
theories/Single_Spec.v
theories/Single_Proof.v
theories/Single_Props.v
theories/PgFloat_Model.v
theories/PgFloat_Spec.v
theories/PgFloat_Proof.v
theories/PgFloat_Props.v
theories/VecFloat_Model.v
theories/VecFloat_Spec.v
theories/VecFloat_Proof.v
theories/VecFloat_Props.v
theories/UStream_Model.v
theories/UStream_Spec.v
theories/UStream_Proof.v
theories/UStream_Props.v
theories/Shared_Model.v
theories/Shared_Spec.v
theories/Shared_Proof.v
theories/Shared_Props.v
theories/JsonDoc_Spec.v
theories/JsonDoc_Proof.v
theories/JsonDoc_Props.v
theories/JsonDocCast_Proof.v
theories/LexSingle_Model.v
theories/LexSingle_Spec.v
theories/LexSingle_Proof.v
theories/LexSingle_Props.v
theories/CgiMulti_Proof.v
theories/ScopedLock_Model.v
theories/ScopedLock_Spec.v
theories/ScopedLock_Proof.v
theories/ScopedLock_Props.v
theories/ParseError_Model.v
theories/ParseError_Spec.v
theories/ParseError_Proof.v
theories/ParseError_Props.v
theories/SparseFile_Model.v
theories/SparseFile_Spec.v
theories/SparseFile_Proof.v
theories/SparseFile_Props.v
theories/MyConn_Model.v
theories/MyConn_Spec.v
theories/MyConn_Proof.v
theories/MyConn_Props.v
theories/RpcTime_Model.v
theories/RpcTime_Spec.v
theories/RpcTime_Proof.v
theories/RpcTime_Props.v
theories/PgHandle_Model.v
theories/PgHandle_Spec.v
theories/PgHandle_Proof.v
theories/PgHandle_Props.v
theories/SockOpt_Model.v
theories/SockOpt_Spec.v
theories/SockOpt_Proof.v
theories/SockOpt_Props.v
theories/ArchiveAny_Spec.v
theories/ArchiveAny_Proof.v
theories/ArchiveAny_Props.v
theories/RpcCut_Model.v
theories/RpcCut_Spec.v
theories/RpcCut_Proof.v
theories/RpcCut_Props.v
theories/RpcWrite_Model.v
theories/RpcWrite_Spec.v
theories/RpcWrite_Proof.v
theories/RpcWrite_Props.v
theories/VecSingle_Model.v
theories/VecSingle_Spec.v
theories/VecSingle_Proof.v
theories/VecSingle_Props.v
