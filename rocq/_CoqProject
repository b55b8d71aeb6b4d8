-Q theories Verif
theories/Base.v
theories/Mem_Model.v
theories/Mem_Proof.v
theories/Mem_Props.v
theories/Str_Model.v
theories/Str_Spec.v
theories/Str_Client.v
theories/Check.v
theories/Str_Proof.v
theories/StrSearch_Proof.v
theories/StrTok_Proof.v
theories/Str_Props.v
theories/Strtol_Model.v
theories/Strtol_Spec.v
theories/Strtol_Proof.v
theories/Strtol_Props.v
theories/Libgen_Model.v
theories/Libgen_Spec.v
theories/Libgen_Proof.v
theories/Libgen_Props.v
theories/Utf8_Model.v
theories/Utf8_Spec.v
theories/Utf8_Client.v
theories/Utf8_Proof.v
theories/Utf8Conv_Proof.v
theories/Utf8_Props.v
theories/Sort_Model.v
theories/Sort_Spec.v
theories/Sort_Proof.v
theories/Sort_Props.v
theories/Hash_Model.v
theories/Hash_Spec.v
theories/Hash_Proof.v
theories/Hash_Props.v
theories/Tree_Model.v
theories/Tree_Spec.v
theories/Tree_Proof.v
theories/Tree_Props.v
theories/Linear_Model.v
theories/Linear_Spec.v
theories/Linear_Proof.v
theories/Linear_Props.v
theories/Env_Model.v
theories/Env_Spec.v
theories/Env_Proof.v
theories/Env_Props.v
theories/Exit_Model.v
theories/Exit_Spec.v
theories/Exit_Proof.v
theories/Exit_Props.v
theories/Alloc_Model.v
theories/Alloc_Proof.v
theories/Alloc_Props.v
theories/Time_Model.v
theories/Time_Spec.v
theories/TimeCal_Proof.v
theories/Time_Proof.v
theories/Time_Props.v
theories/Snprintf_Model.v
theories/Snprintf_Spec.v
theories/Snprintf_Proof.v
theories/Snprintf_Props.v
theories/Inet_Model.v
theories/Inet_Spec.v
theories/InetNum_Proof.v
theories/Inet4_Proof.v
theories/Inet6_Proof.v
theories/Inet_Props.v
theories/Conc.v
theories/Lock_Model.v
theories/Lock_Spec.v
theories/Lock_Proof.v
theories/Lock_Props.v
theories/Mutex_Model.v
theories/Mutex_Spec.v
theories/Mutex_Proof.v
theories/Mutex_Props.v
theories/Once_Model.v
theories/Once_Proof.v
theories/Once_Props.v
theories/Sem_Model.v
theories/Sem_Spec.v
theories/Sem_Proof.v
theories/Sem_Props.v
theories/Barrier_Model.v
theories/Barrier_Spec.v
theories/Barrier_Proof.v
theories/Barrier_Props.v
theories/Rwlock_Model.v
theories/Rwlock_Spec.v
theories/Rwlock_Proof.v
theories/Rwlock_Props.v
theories/Keys_Model.v
theories/Keys_Spec.v
theories/Keys_Proof.v
theories/Keys_Props.v
theories/Cond_Model.v
theories/Cond_Spec.v
theories/Cond_Proof.v
theories/Cond_Props.v
theories/Stdio_Model.v
theories/Stdio_Spec.v
theories/Stdio_Proof.v
theories/Stdio_Props.v
theories/ByteOrder_Model.v
theories/ByteOrder_Spec.v
theories/ByteOrder_Proof.v
theories/ByteOrder_Props.v
theories/Random_Model.v
theories/Random_Spec.v
theories/Random_Proof.v
theories/Random_Props.v
theories/Rand48_Model.v
theories/Rand48_Spec.v
theories/Rand48_Proof.v
theories/Rand48_Props.v
theories/Subopt_Model.v
theories/Subopt_Spec.v
theories/Subopt_Proof.v
theories/Subopt_Props.v
theories/Symtab_Model.v
theories/Symtab_Spec.v
theories/Symtab_Proof.v
theories/Symtab_Props.v
theories/Deps_Model.v
theories/Deps_Spec.v
theories/Deps_Proof.v
theories/Init_Model.v
theories/Init_Spec.v
theories/Init_Proof.v
theories/Init_Props.v
theories/Relr_Model.v
theories/Relr_Spec.v
theories/Relr_Proof.v
theories/Relr_Props.v
theories/Tls_Model.v
theories/Tls_Spec.v
theories/Tls_Proof.v
theories/Tls_Props.v
theories/Dtv_Model.v
theories/Dtv_Spec.v
theories/Dtv_Proof.v
theories/Dtv_Props.v
theories/Scope_Model.v
theories/Scope_Spec.v
theories/Scope_Proof.v
theories/Scope_Props.v
theories/Ieee.v
theories/Ieee_Proof.v
theories/Fmod_Model.v
theories/Fmod_Spec.v
theories/Fmod_Proof.v
theories/Remquo_Proof.v
theories/Fmod_Props.v
theories/Ieee_Round.v
theories/Rint_Model.v
theories/Rint_Spec.v
theories/Rint_Proof.v
theories/Rint_Props.v
theories/Next_Model.v
theories/Next_Spec.v
theories/Next_Proof.v
theories/Next_Props.v
theories/Ieee_Mul.v
theories/Ieee_Mul_Proof.v
theories/Scalbn_Model.v
theories/Scalbn_Spec.v
theories/Scalbn_Proof.v
theories/Scalbn_Props.v
theories/Sqrt_Model.v
theories/Sqrt_Spec.v
theories/Sqrt_Proof.v
theories/Sqrt_Props.v
theories/Texit_Model.v
theories/Texit_Spec.v
theories/Texit_Proof.v
theories/Tcancel_Proof.v
theories/Treach_Proof.v
theories/Texit_Props.v
theories/Fnm_Model.v
theories/Fnm_Spec.v
theories/Fnm_Proof.v
theories/Fnmb_Proof.v
theories/Fnmm_Proof.v
theories/Fnmp_Proof.v
theories/Fnm_Props.v
theories/Getopt_Model.v
theories/Getopt_Spec.v
theories/Getopt_Proof.v
theories/Getopt_Props.v
theories/Scanf_Model.v
theories/Scanf_Spec.v
theories/Scanf_Proof.v
theories/Scanf_Props.v
theories/Memfile_Model.v
theories/Memfile_Spec.v
theories/Memfile_Proof.v
theories/Memfile_Props.v
theories/Realpath_Model.v
theories/Realpath_Spec.v
theories/Realpath_Proof.v
theories/Realpath_Props.v
theories/Wcs_Model.v
theories/Wcs_Spec.v
theories/Wcs_Client.v
theories/Wcs_Proof.v
theories/Wcs_Props.v
theories/Vstrcmp_Model.v
theories/Vstrcmp_Spec.v
theories/Vstrcmp_Proof.v
theories/Vstrcmp_Props.v
theories/Ieee_Div.v
theories/Ieee_Div_Proof.v
theories/Strtod_Model.v
theories/Strtod_Spec.v
theories/Strtod_Proof.v
theories/Strtod_Value.v
theories/Strtod_Safe.v
theories/Strtod_Props.v
theories/Ctype_Model.v
theories/Ctype_Spec.v
theories/Ctype_Proof.v
theories/Ctype_Props.v
theories/Casestr_Model.v
theories/Casestr_Spec.v
theories/Casestr_Proof.v
theories/Vers_Proof.v
theories/Casestr_Props.v
theories/Tz_Model.v
theories/Tz_Spec.v
theories/Tz_Proof.v
theories/Tz_Sound.v
theories/Tz_Local.v
theories/Tz_Props.v
theories/Ftime_Model.v
theories/Ftime_Spec.v
theories/Ftime_Proof.v
theories/Ftime_Props.v
theories/Ptime_Model.v
theories/Ptime_Spec.v
theories/Ptime_Proof.v
theories/Ptime_Trip.v
theories/Ptime_Props.v
theories/Dns_Model.v
theories/Dns_Spec.v
theories/Dns_Proof.v
theories/Dns_Props.v
theories/Hosts_Model.v
theories/Hosts_Spec.v
theories/Hosts_Proof.v
theories/Hosts_Props.v
theories/Bitset_Model.v
theories/Bitset_Spec.v
theories/Bitset_Proof.v
theories/Bitset_Props.v
theories/Users_Model.v
theories/Users_Spec.v
theories/Users_Proof.v
theories/Users_Props.v
theories/Mbc_Model.v
theories/Mbc_Spec.v
theories/Mbc_Proof.v
theories/Mbc_Props.v
theories/Ftw_Model.v
theories/Ftw_Spec.v
theories/Ftw_Proof.v
theories/Ftw_Props.v
theories/Dirent_Model.v
theories/Dirent_Spec.v
theories/Dirent_Proof.v
theories/Dirent_Props.v
theories/Spawn_Model.v
theories/Spawn_Spec.v
theories/Spawn_Proof.v
theories/Spawn_Props.v
theories/Shadow_Model.v
theories/Shadow_Spec.v
theories/Shadow_Proof.v
theories/Shadow_Props.v
theories/Syslog_Model.v
theories/Syslog_Spec.v
theories/Syslog_Proof.v
theories/Syslog_Props.v
theories/Execp_Model.v
theories/Execp_Spec.v
theories/Execp_Proof.v
theories/Execp_Props.v
theories/Wordexp_Model.v
theories/Wordexp_Spec.v
theories/Wordexp_Proof.v
theories/Wordexp_Props.v
theories/Proto_Model.v
theories/Proto_Spec.v
theories/Proto_Proof.v
theories/Proto_Props.v
theories/Addrinfo_Model.v
theories/Addrinfo_Spec.v
theories/Addrinfo_Proof.v
theories/Addrinfo_Props.v
theories/Mnt_Model.v
theories/Mnt_Spec.v
theories/Mnt_Proof.v
theories/Mnt_Props.v
theories/Glob_Model.v
theories/Glob_Spec.v
theories/Glob_Proof.v
theories/Glob_Props.v
theories/Fork_Model.v
theories/Fork_Spec.v
theories/Fork_Proof.v
theories/Fork_Props.v
theories/Locale_Model.v
theories/Locale_Spec.v
theories/Locale_Proof.v
theories/Locale_Props.v
theories/Spin_Model.v
theories/Spin_Spec.v
theories/Spin_Proof.v
theories/Spin_Props.v
theories/Archive_Model.v
theories/Archive_Spec.v
theories/Archive_Proof.v
theories/Archive_Props.v
theories/Temp_Model.v
theories/Temp_Spec.v
theories/Temp_Proof.v
theories/Temp_Props.v
theories/Mode_Model.v
theories/Mode_Spec.v
theories/Mode_Proof.v
theories/Mode_Props.v
theories/Popen_Model.v
theories/Popen_Spec.v
theories/Popen_Proof.v
theories/Popen_Props.v
theories/Money_Model.v
theories/Money_Spec.v
theories/Money_Proof.v
theories/Money_Props.v
theories/Lockf_Model.v
theories/Lockf_Spec.v
theories/Lockf_Proof.v
theories/Lockf_Props.v
theories/Gather_Model.v
theories/Gather_Spec.v
theories/Gather_Proof.v
theories/Gather_Props.v
theories/Tattr_Model.v
theories/Tattr_Spec.v
theories/Tattr_Proof.v
theories/Tattr_Props.v
theories/Resolv_Model.v
theories/Resolv_Spec.v
theories/Resolv_Proof.v
theories/Resolv_Props.v
theories/Fdset_Model.v
theories/Fdset_Spec.v
theories/Fdset_Proof.v
theories/Fdset_Props.v
theories/Utmpx_Model.v
theories/Utmpx_Spec.v
theories/Utmpx_Proof.v
theories/Utmpx_Props.v
theories/Plist_Model.v
theories/Plist_Spec.v
theories/Plist_Proof.v
theories/Plist_Props.v
theories/Wlcat_Model.v
theories/Wlcat_Proof.v
theories/Wlcat_Props.v
theories/Sigstr_Model.v
theories/Sigstr_Spec.v
theories/Sigstr_Proof.v
theories/Sigstr_Props.v
