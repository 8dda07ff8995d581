-Q theories Verif
theories/Base.v
theories/Queue_Spec.v
theories/Queue_Model.v
theories/Queue_Proofs.v
theories/Queue_Props.v
theories/Maps.v
theories/RateLimit_Spec.v
theories/RateLimit_Model.v
theories/RateLimit_Proofs.v
theories/RateLimit_Props.v
theories/FastBuffer_Spec.v
theories/FastBuffer_Model.v
theories/FastBuffer_Proofs.v
theories/FastBuffer_Props.v
theories/Dec.v
theories/Text_Spec.v
theories/Text_Model.v
theories/Text_Proofs.v
theories/Text_Props.v
theories/Ring_Spec.v
theories/Ring_Model.v
theories/Ring_Proofs.v
theories/Ring_Props.v
theories/SyncQueue_Model.v
theories/SyncQueue_Props.v
theories/Pool_Model.v
theories/Pool_Props.v
theories/ConflictLock_Model.v
theories/ConflictLock_Props.v
theories/Journal_Model.v
theories/Journal_Spec.v
theories/Journal_Proofs.v
theories/Journal_Lock.v
theories/Journal_Props.v
theories/Cluster_Spec.v
theories/Cluster_Model.v
theories/Cluster_Proofs.v
theories/Cluster_Local.v
theories/Cluster_Props.v
theories/Repl_Spec.v
theories/Repl_Model.v
theories/Repl_Proofs.v
theories/Repl_Inv.v
theories/Repl_Props.v
theories/Jobs_Spec.v
theories/Jobs_Model.v
theories/Jobs_Proofs.v
theories/Jobs_Inv.v
theories/Jobs_Props.v
theories/Table.v
theories/Http_Spec.v
theories/Http_Model.v
theories/Http_Proofs.v
theories/Http_Props.v
theories/Json_Spec.v
theories/Json_Model.v
theories/Json_Proofs.v
theories/Json_Compose.v
theories/Result_Model.v
theories/Json_Props.v
theories/Cache_Spec.v
theories/Cache_Model.v
theories/Cache_Proofs.v
theories/Cache_Lru.v
theories/Cache_Props.v
theories/Future_Spec.v
theories/Future_Model.v
theories/Future_Props.v
theories/Port_Spec.v
theories/Port_Model.v
theories/Port_Props.v
theories/Crash_Spec.v
theories/Crash_Model.v
theories/Crash_Props.v
theories/Control_Spec.v
theories/Control_Model.v
theories/Control_Props.v
theories/Core_Spec.v
theories/Core_Model.v
theories/Core_Props.v
theories/Messenger_Spec.v
theories/Messenger_Model.v
theories/Messenger_Props.v
theories/Run_Spec.v
theories/Run_Model.v
theories/Run_Props.v
theories/Timeout_Spec.v
theories/Timeout_Model.v
theories/Timeout_Props.v
theories/Reply_Spec.v
theories/Reply_Model.v
theories/Reply_Props.v
theories/Https_Spec.v
theories/Https_Model.v
theories/Https_Props.v
theories/Base64_Spec.v
theories/Base64_Model.v
theories/Base64_Proofs.v
theories/Forward_Spec.v
theories/Forward_Model.v
theories/Forward_Props.v
theories/Query_Spec.v
theories/Query_Model.v
theories/Query_Props.v
theories/Write_Spec.v
theories/Write_Model.v
theories/Write_Props.v
theories/Lex_Spec.v
theories/Lex_Model.v
theories/Lex_Proofs.v
theories/Lex_Props.v
theories/Zstd_Spec.v
theories/Zstd_Model.v
theories/Zstd_Props.v
theories/Reads_Spec.v
theories/Reads_Model.v
theories/Reads_Proofs.v
theories/Reads_Props.v
theories/Whitelist_Props.v
theories/Qrf_Spec.v
theories/Qrf_Model.v
theories/Qrf_Props.v
theories/Mysql_Vars.v
theories/Mysql_Spec.v
theories/Mysql_Model.v
theories/Mysql_Proofs.v
theories/Mysql_Props.v
theories/Fmt_Spec.v
theories/Fmt_Model.v
theories/Fmt_Proofs.v
theories/Fmt_Props.v
theories/Conn_Spec.v
theories/Conn_Model.v
theories/Conn_Proofs.v
theories/Conn_Props.v
theories/Sockpool_Spec.v
theories/Sockpool_Model.v
theories/Sockpool_Proofs.v
theories/Sockpool_Props.v
theories/Proxy_Spec.v
theories/Proxy_Model.v
theories/Proxy_Props.v
theories/Log_Spec.v
theories/Log_Model.v
theories/Log_Props.v
theories/Deburr_Spec.v
theories/Deburr_Model.v
theories/Deburr_Props.v
theories/Life_Spec.v
theories/Life_Model.v
theories/Life_Props.v
theories/Schema_Spec.v
theories/Schema_Model.v
theories/Schema_Props.v
theories/Upgrade_Spec.v
theories/Upgrade_Model.v
theories/Upgrade_Props.v
theories/Time_Spec.v
theories/Time_Model.v
theories/Time_Props.v
theories/Fork_Spec.v
theories/Fork_Model.v
theories/Fork_Props.v
theories/Crypt_Spec.v
theories/Crypt_Model.v
theories/Crypt_Props.v
theories/Start_Spec.v
theories/Start_Model.v
theories/Start_Props.v
theories/Redact_Spec.v
theories/Redact_Model.v
theories/Redact_Props.v
theories/Addr_Spec.v
theories/Addr_Model.v
theories/Addr_Props.v
theories/Stats_Spec.v
theories/Stats_Model.v
theories/Stats_Props.v
theories/Work_Spec.v
theories/Work_Model.v
theories/Work_Props.v
theories/Attr_Spec.v
theories/Attr_Model.v
theories/Attr_Props.v
theories/Args_Spec.v
theories/Args_Model.v
theories/Args_Props.v
theories/Place_Spec.v
theories/Place_Model.v
theories/Place_Props.v
theories/Rows_Spec.v
theories/Rows_Model.v
theories/Rows_Props.v
theories/Touch_Spec.v
theories/Touch_Model.v
theories/Touch_Props.v
theories/Opening_Spec.v
theories/Opening_Model.v
theories/Opening_Props.v
theories/Ident_Spec.v
theories/Ident_Model.v
theories/Ident_Props.v
theories/Quiesce_Spec.v
theories/Quiesce_Model.v
theories/Quiesce_Props.v
theories/Settings_Spec.v
theories/Settings_Model.v
theories/Settings_Props.v
theories/Health_Spec.v
theories/Health_Model.v
theories/Health_Props.v
theories/Dbfile_Spec.v
theories/Dbfile_Model.v
theories/Dbfile_Props.v
theories/Version_Spec.v
theories/Version_Model.v
theories/Version_Props.v
theories/Local_Spec.v
theories/Local_Model.v
theories/Local_Props.v
theories/Flush_Spec.v
theories/Flush_Model.v
theories/Flush_Props.v
