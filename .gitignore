*.cache
*.vo*
*.glob
*.aux
