-Q theories Verif

theories/Base.v
theories/Search_Model.v
theories/Search_Proofs.v
theories/Search_Props.v
theories/Kd_Model.v
theories/Kd_Proofs.v
theories/Kd_Props.v
theories/Kdvis_Model.v
theories/Kdvis_Props.v
theories/Dsatur_Model.v
theories/Dsatur_Proofs.v
theories/Dsatur_Order.v
theories/Dsatur_Props.v
theories/Encoder_Model.v
theories/Encoder_Proofs.v
theories/Encoder_Props.v
theories/Dbscan_Model.v
theories/Dbscan_Proofs.v
theories/Dbscan_Inst.v
theories/Dbscan_Props.v
theories/Dbmeta_Proofs.v
theories/Dbmeta_Props.v
theories/Optics_Model.v
theories/Optics_Proofs.v
theories/Optics_Inst.v
theories/Optics_Props.v
theories/Topology_Model.v
theories/Topology_Proofs.v
theories/Topology_Props.v
theories/Som_Model.v
theories/Som_Proofs.v
theories/Som_Props.v
theories/Somstep_Proofs.v
theories/Somstep_Props.v
theories/Sompic_Model.v
theories/Sompic_Props.v
theories/Predict_Model.v
theories/Predict_Props.v
theories/Predtrain_Props.v
theories/Syncview_Model.v
theories/Syncview_Props.v
theories/Plus_Model.v
theories/Plus_Props.v
theories/Contin_Props.v
theories/Gdraw_Model.v
theories/Gdraw_Props.v
theories/Nested_Props.v
theories/Descent_Props.v
theories/Bangplane_Props.v
theories/Birchlimit_Props.v
theories/Further_Props.v
theories/Claranscost_Props.v
theories/Tight_Props.v
theories/Marks_Props.v
theories/Sommarks_Props.v
theories/Opticspic_Model.v
theories/Opticspic_Props.v
theories/Netpic_Model.v
theories/Netpic_Props.v
theories/Spikepic_Model.v
theories/Spikepic_Props.v
theories/Patpic_Model.v
theories/Patpic_Props.v
theories/Scaled_Proofs.v
theories/Samedist_Props.v
theories/Unit_Props.v
theories/Unitmore_Props.v
theories/Ccore_Model.v
theories/Ccore_Props.v
theories/Kdheight_Props.v
theories/Fcmopt_Props.v
theories/Wrapper_Model.v
theories/Wrapper_Props.v
theories/Wrapmore_Props.v
theories/Libnet_Model.v
theories/Libnet_Props.v
theories/Reorder_Props.v
theories/Netreq_Model.v
theories/Netreq_Props.v
theories/Fcmorder_Props.v
theories/Silorder_Props.v
theories/Linkorder_Props.v
theories/Cliqorder_Props.v
theories/Emaorder_Props.v
theories/Emalost_Props.v
theories/Bangorder_Props.v
theories/Npack_Model.v
theories/Npack_Props.v
theories/Kmedconv_Props.v
theories/Bangunit_Props.v
theories/Fcmunit_Props.v
theories/Fcmstop_Props.v
theories/Dynindex_Model.v
theories/Dynindex_Props.v
theories/Cfentry_Model.v
theories/Cfentry_Props.v
theories/Gproj_Model.v
theories/Xunit_Props.v
theories/Opticsunit_Props.v
theories/Emaunit_Props.v
theories/Claransunit_Props.v
theories/Somunit_Props.v
theories/Gkur_Model.v
theories/Gkur_Props.v
theories/Listmath_Model.v
theories/Listmath_Props.v
theories/Ensembles_Model.v
theories/Ensembles_Proofs.v
theories/Ensembles_Props.v
theories/Small_Model.v
theories/Small_Proofs.v
theories/Small_Props.v
theories/Codec_Model.v
theories/Codec_Proofs.v
theories/Codec_Props.v
theories/Order_Model.v
theories/Order_Proofs.v
theories/Order_Props.v
theories/Kmeans_Model.v
theories/Kmeans_Proofs.v
theories/Kmedians_Proofs.v
theories/Kmeans_Props.v
theories/Kmedoids_Model.v
theories/Kmedoids_Proofs.v
theories/Kmedoids_Props.v
theories/Init_Model.v
theories/Init_Proofs.v
theories/Init_Props.v
theories/Bsas_Model.v
theories/Bsas_Proofs.v
theories/Bsas_Props.v
theories/Aggl_Model.v
theories/Aggl_Proofs.v
theories/Aggl_Props.v
theories/Rock_Model.v
theories/Rock_Proofs.v
theories/Rock_Props.v
theories/Cure_Model.v
theories/Cure_Proofs.v
theories/Cure_Props.v
theories/Curenear_Props.v
theories/Cureunit_Props.v
theories/Birchunit_Props.v
theories/Gaunit_Props.v
theories/Gaorder_Props.v
theories/Cnnunit_Props.v
theories/Diminfo_Model.v
theories/Diminfo_Props.v
theories/Clique_Model.v
theories/Clique_Proofs.v
theories/Clique_Props.v
theories/Cftree_Model.v
theories/Cftree_Proofs.v
theories/Birch_Model.v
theories/Birch_Proofs.v
theories/Birch_Total.v
theories/Birch_Props.v
theories/Cfquery_Props.v
theories/Cldist_Model.v
theories/Cldist_Proofs.v
theories/Cldist_Props.v
theories/Syncnet_Model.v
theories/Syncnet_Proofs.v
theories/Syncnet_Props.v
theories/Kuramoto_Model.v
theories/Kuramoto_Proofs.v
theories/Kuramoto_Props.v
theories/Syncpr_Model.v
theories/Syncpr_Proofs.v
theories/Syncpr_Props.v
theories/Syncprdyn_Props.v
theories/Pcnn_Model.v
theories/Pcnn_Proofs.v
theories/Pcnn_Props.v
theories/Cnn_Model.v
theories/Cnn_Proofs.v
theories/Cnn_Props.v
theories/Odesync_Model.v
theories/Odesync_Proofs.v
theories/Odesync_Props.v
theories/Legion_Model.v
theories/Legion_Proofs.v
theories/Legion_Props.v
theories/Hhn_Model.v
theories/Hhn_Proofs.v
theories/Hhn_Props.v
theories/Hyst_Model.v
theories/Hyst_Proofs.v
theories/Hyst_Props.v
theories/Files_Model.v
theories/Files_Proofs.v
theories/Files_Props.v
theories/Segm_Model.v
theories/Segm_Props.v
theories/Fsync_Model.v
theories/Fsync_Proofs.v
theories/Fsync_Props.v
theories/Ellipse_Model.v
theories/Ellipse_Proofs.v
theories/Ellipse_Props.v
theories/Generator_Model.v
theories/Generator_Props.v
theories/Emainit_Model.v
theories/Emainit_Props.v
theories/Canvas_Model.v
theories/Canvas_Proofs.v
theories/Canvas_Props.v
theories/Multivis_Model.v
theories/Multivis_Props.v
theories/Draw_Model.v
theories/Draw_Props.v
theories/Blocks_Model.v
theories/Blocks_Props.v
theories/Kmobs_Model.v
theories/Kmobs_Props.v
theories/Gaobs_Model.v
theories/Gaobs_Props.v
theories/Emaobs_Model.v
theories/Emaobs_Props.v
theories/Stop_Props.v
theories/Refuse_Props.v
theories/Diagram_Props.v
theories/Settled_Props.v
theories/Syncsom_Model.v
theories/Syncsom_Proofs.v
theories/Syncsom_Props.v
theories/Gcolor_Model.v
theories/Gcolor_Proofs.v
theories/Gcolor_Props.v
theories/Bang_Model.v
theories/Bang_Proofs.v
theories/Bang_Props.v
theories/Bangregion_Props.v
theories/Metric_Model.v
theories/Metric_Proofs.v
theories/Metric_Props.v
theories/Nmetric_Model.v
theories/Nmetric_Props.v
theories/Silhouette_Model.v
theories/Silhouette_Proofs.v
theories/Silhouette_Props.v
theories/Elbow_Model.v
theories/Elbow_Proofs.v
theories/Elbow_Props.v
theories/Fcm_Model.v
theories/Fcm_Proofs.v
theories/Fcm_Props.v
theories/Clarans_Model.v
theories/Clarans_Proofs.v
theories/Clarans_Props.v
theories/Xmeans_Model.v
theories/Xmeans_Proofs.v
theories/Xcrit_Model.v
theories/Xcrit_Proofs.v
theories/Xmeans_Props.v
theories/Ga_Model.v
theories/Ga_Proofs.v
theories/Gasel_Model.v
theories/Gasel_Proofs.v
theories/Ga_Props.v
theories/Gasel_Props.v
theories/Ema_Model.v
theories/Ema_Proofs.v
theories/Ema_Props.v
