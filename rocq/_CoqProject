-Q theories Verif
theories/Base.v
theories/Dispatch_Model.v
theories/Dispatch_Spec.v
theories/Dispatch_Proofs.v
theories/Dispatch_Resume.v
theories/Dispatch_Credit.v
theories/Dispatch_Sticky.v
theories/Dispatch_Frozen.v
theories/Dispatch_Keywords.v
theories/Dispatch_History.v
theories/Dispatch_Trees.v
theories/Dispatch_Sound.v
theories/Dispatch_Props.v
theories/Ctl_Model.v
theories/Ctl_Spec.v
theories/Ctl_Proofs.v
theories/Ctl_Props.v
theories/Tok_Model.v
theories/Tok_Spec.v
theories/Tok_Proofs.v
theories/Tok_Props.v
theories/Line_Model.v
theories/Line_Spec.v
theories/Line_Proofs.v
theories/Line_Props.v
theories/Conf_Model.v
theories/Conf_Spec.v
theories/Conf_Proofs.v
theories/Conf_Tables.v
theories/Conf_Props.v
theories/Env_Model.v
theories/Env_Spec.v
theories/Env_Proofs.v
theories/Env_Props.v
theories/Data_Model.v
theories/Data_Props.v
theories/Delay_Model.v
theories/Delay_Props.v
theories/Item_Model.v
theories/Item_Props.v
theories/Handle_Model.v
theories/Handle_Proofs.v
theories/Handle_Props.v
theories/Inline_Model.v
theories/Inline_Props.v
theories/Modutil_Model.v
theories/Modutil_Props.v
theories/Faillock_Model.v
theories/Faillock_Props.v
theories/Flconf_Model.v
theories/Flconf_Props.v
theories/Motd_Model.v
theories/Motd_Props.v
theories/Echo_Model.v
theories/Echo_Props.v
theories/Issue_Model.v
theories/Issue_Props.v
theories/Ttyaudit_Model.v
theories/Ttyaudit_Props.v
theories/Loaded_Props.v
theories/Num_Model.v
theories/Unixctl_Model.v
theories/Unixctl_Props.v
theories/Unix_Model.v
theories/Unixage_Props.v
theories/Unixpw_Props.v
theories/Unixauth_Props.v
theories/Time_Model.v
theories/Time_Spec.v
theories/Time_Proofs.v
theories/Time_Props.v
theories/Pamc_Model.v
theories/Pamc_Props.v
theories/Misc_Model.v
theories/Misc_Props.v
theories/Str_Model.v
theories/Str_Facts.v
theories/Access_Model.v
theories/Access_Spec.v
theories/Access_Props.v
theories/Accessword_Props.v
theories/Hash_Spec.v
theories/Hash_Facts.v
theories/Sha1_Model.v
theories/Sha1_Props.v
theories/Md5_Model.v
theories/Md5_Props.v
theories/Md5crypt_Props.v
theories/Timestamp_Model.v
theories/Stampname_Props.v
theories/Timestamp_Props.v
theories/Opt_Model.v
theories/Opt_Facts.v
theories/Listfile_Model.v
theories/Listfile_Props.v
theories/Succeedif_Model.v
theories/Succeedif_Props.v
theories/Securetty_Model.v
theories/Securetty_Props.v
theories/Gate_Model.v
theories/Gate_Props.v
theories/Usertype_Model.v
theories/Usertype_Props.v
theories/Umask_Model.v
theories/Umask_Props.v
theories/Pwhist_Model.v
theories/Pwhist_Facts.v
theories/Pwhist_Props.v
theories/Pamenv_Model.v
theories/Pamenv_Facts.v
theories/Pamenv_Props.v
theories/Unixset_Model.v
theories/Unixhash_Props.v
theories/Unixsave_Props.v
theories/Unixfile_Props.v
theories/Unixset_Props.v
theories/Userdb_Model.v
theories/Userdb_Props.v
theories/Limits_Model.v
theories/Limits_Facts.v
theories/Limits_Kernel.v
theories/Limits_Props.v
theories/Nsopen_Model.v
theories/Nsopen_Props.v
theories/Nsconf_Model.v
theories/Nsconf_Props.v
theories/Nsname_Model.v
theories/Nsname_Props.v
theories/Nssetup_Model.v
theories/Nssetup_Props.v
theories/Exec_Model.v
theories/Exec_Props.v
theories/Mkhome_Model.v
theories/Mkhome_Props.v
theories/Ftp_Model.v
theories/Ftp_Props.v
theories/Accessopt_Props.v
theories/Keyinit_Model.v
theories/Keyinit_Props.v
theories/Loginuid_Model.v
theories/Loginuid_Props.v
theories/Xauth_Model.v
theories/Xauth_Props.v
theories/Mkhomearg_Props.v
theories/Mail_Model.v
theories/Mail_Props.v
theories/Sepermit_Model.v
theories/Sepermit_Props.v
theories/Setquota_Model.v
theories/Setquota_Props.v
theories/Lastlog_Model.v
theories/Lastlog_Props.v
theories/Selinux_Model.v
theories/Selinux_Props.v
theories/Lookup_Model.v
theories/Lookup_Props.v
theories/Stress_Model.v
theories/Stress_Props.v
theories/Filter_Model.v
theories/Filter_Props.v
theories/Audit_Model.v
theories/Audit_Props.v
theories/Fltool_Model.v
theories/Fltool_Props.v
