-Q theories Verif
theories/Base.v
theories/BaseL.v
theories/M_Encode.v
theories/S_Encode.v
theories/L_Encode.v
theories/L_Obf.v
theories/P_Encode.v
theories/M_Critic.v
theories/S_Critic.v
theories/L_Critic.v
theories/P_Critic.v
theories/M_Highlight.v
theories/S_Highlight.v
theories/L_Highlight.v
theories/P_Highlight.v
theories/M_Json.v
theories/S_Json.v
theories/L_Json.v
theories/L_JsonTotal.v
theories/L_JsonWrite.v
theories/L_JsonRead.v
theories/P_Json.v
theories/M_Pipe.v
theories/S_Pipe.v
theories/L_Pipe.v
theories/P_Pipe.v
theories/M_Meta.v
theories/S_Meta.v
theories/L_Meta.v
theories/L_MetaParse.v
theories/P_Meta.v
theories/M_Trans.v
theories/Dec.v
theories/S_Trans.v
theories/L_Trans.v
theories/L_Vars.v
theories/L_TransNum.v
theories/P_Trans.v
theories/M_Plug.v
theories/S_Plug.v
theories/L_Plug.v
theories/P_Plug.v
theories/M_Cli.v
theories/S_Cli.v
theories/L_Cli.v
theories/P_Cli.v
theories/M_Html.v
theories/S_Html.v
theories/L_Html.v
theories/L_Html2.v
theories/P_Html.v
theories/M_Mark.v
theories/S_Mark.v
theories/L_Mark.v
theories/P_Mark.v
theories/M_Ids.v
theories/S_Ids.v
theories/L_Ids.v
theories/P_Ids.v
theories/M_Core.v
theories/S_Core.v
theories/L_Core.v
theories/P_Core.v
theories/M_Opt.v
theories/S_Opt.v
theories/L_Opt.v
theories/L_Opt2.v
theories/P_Opt.v
theories/M_Abbr.v
theories/S_Abbr.v
theories/L_Abbr.v
theories/L_Abbr2.v
theories/P_Abbr.v
theories/M_Run.v
theories/S_Run.v
theories/L_Run.v
theories/L_Run2.v
theories/L_Run3.v
theories/L_Run4.v
theories/L_Run5.v
theories/L_Run6.v
theories/L_Run7.v
theories/P_Run.v
theories/M_Reader.v
theories/S_Reader.v
theories/L_Reader.v
theories/P_Reader.v
theories/M_Pretty.v
theories/S_Pretty.v
theories/L_Pretty.v
theories/L_Pretty2.v
theories/P_Pretty.v
theories/M_Toc.v
theories/S_Toc.v
theories/L_Toc.v
theories/L_Toc2.v
theories/L_Toc3.v
theories/P_Toc.v
theories/M_HeadIds.v
theories/S_HeadIds.v
theories/L_HeadIds.v
theories/L_HeadIds2.v
theories/P_HeadIds.v
theories/M_Notes.v
theories/S_Notes.v
theories/L_Notes.v
theories/P_Notes.v
theories/L_Put.v
theories/M_SupSub.v
theories/S_SupSub.v
theories/L_SupSub.v
theories/P_SupSub.v
theories/M_Ins.v
theories/S_Ins.v
theories/L_Ins.v
theories/P_Ins.v
theories/M_Attr.v
theories/S_Attr.v
theories/L_Attr.v
theories/L_AttrHtml.v
theories/P_Attr.v
theories/M_Md.v
theories/S_Md.v
theories/L_Md.v
theories/L_Md2.v
theories/P_Md.v
theories/M_Man.v
theories/S_Man.v
theories/L_Man.v
theories/L_Man2.v
theories/P_Man.v
theories/M_ManHtml.v
theories/S_ManHtml.v
theories/L_ManHtml.v
theories/L_ManHtml2.v
theories/P_ManHtml.v
theories/M_Math.v
theories/S_Math.v
theories/L_Math.v
theories/P_Math.v
theories/M_Callout.v
theories/S_Callout.v
theories/L_Callout.v
theories/P_Callout.v
theories/M_Wiki.v
theories/S_Wiki.v
theories/L_Wiki.v
theories/P_Wiki.v
theories/M_Csv.v
theories/S_Csv.v
theories/L_Csv.v
theories/P_Csv.v
theories/M_Lines.v
theories/S_Lines.v
theories/L_Lines.v
theories/P_Lines.v
theories/M_Incl.v
theories/S_Incl.v
theories/L_Incl.v
theories/P_Incl.v
theories/M_Emoji.v
theories/M_EmojiData.v
theories/S_Emoji.v
theories/L_Emoji.v
theories/L_Emoji2.v
theories/P_Emoji.v
theories/M_Divs.v
theories/S_Divs.v
theories/L_Divs.v
theories/L_Divs2.v
theories/P_Divs.v
theories/M_Special.v
theories/S_Special.v
theories/L_Special.v
theories/P_Special.v
theories/M_HtmlMd.v
theories/S_HtmlMd.v
theories/L_HtmlMd.v
theories/P_HtmlMd.v
theories/M_Pass.v
theories/S_Pass.v
theories/L_Pass.v
theories/P_Pass.v
theories/M_Prefix.v
theories/S_Prefix.v
theories/L_Prefix.v
theories/P_Prefix.v
theories/M_Hash.v
theories/S_Hash.v
theories/L_Hash.v
theories/P_Hash.v
theories/M_Widont.v
theories/S_Widont.v
theories/L_Widont.v
theories/P_Widont.v
theories/M_WrapData.v
theories/M_Wrap.v
theories/S_Wrap.v
theories/L_Wrap.v
theories/P_Wrap.v
theories/M_Front.v
theories/S_Front.v
theories/L_Front.v
theories/P_Front.v
theories/M_Syntax.v
theories/S_Syntax.v
theories/L_Syntax.v
theories/P_Syntax.v
theories/M_Index.v
theories/S_Index.v
theories/L_Index.v
theories/P_Index.v
theories/M_Relax.v
theories/S_Relax.v
theories/L_Relax.v
theories/L_Relax2.v
theories/P_Relax.v
theories/M_Alpha.v
theories/S_Alpha.v
theories/L_Alpha.v
theories/L_Alpha2.v
theories/P_Alpha.v
theories/M_Spans.v
theories/S_Spans.v
theories/L_Spans.v
theories/P_Spans.v
theories/M_Caption.v
theories/S_Caption.v
theories/L_Caption.v
theories/L_Caption2.v
theories/P_Caption.v
theories/M_Liquid.v
theories/S_Liquid.v
theories/L_Liquid.v
theories/P_Liquid.v
theories/M_Autolink.v
theories/S_Autolink.v
theories/L_Autolink.v
theories/L_Autolink2.v
theories/L_Autolink3.v
theories/L_Autolink4.v
theories/L_Autolink5.v
theories/P_Autolink.v
theories/M_Embed.v
theories/S_Embed.v
theories/L_Embed.v
theories/L_Embed2.v
theories/L_Embed3.v
theories/P_Embed.v
theories/S_Merge.v
theories/M_Merge.v
theories/L_Merge.v
theories/L_Merge2.v
theories/P_Merge.v
theories/M_ImgUrl.v
theories/S_ImgUrl.v
theories/L_ImgUrl.v
theories/L_ImgUrl2.v
theories/P_ImgUrl.v
theories/M_Media.v
theories/S_Media.v
theories/L_Media.v
theories/L2_Media.v
theories/P_Media.v
theories/L3_Media.v
theories/P2_Media.v
theories/M_Style.v
theories/S_Style.v
theories/L_Style.v
theories/P_Style.v
theories/P2_Style.v
theories/M_Theme.v
theories/S_Theme.v
theories/L_Theme.v
theories/P_Theme.v
theories/M_TermBuf.v
theories/P_TermBuf.v
